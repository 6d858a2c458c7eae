(** Model of toffee/debug.py: the commands of the debugger [PdbToffee].  A [str] is the list of its characters; only ASCII is modelled.  The
    DUT and the internal signals it hands out are those of picker, which is not part of the repository: every method of theirs is an
    arbitrary function of the arguments and of the state behind them, which answers or raises.  What a command does is the list of the calls
    it makes and of the lines it prints, in order.  The command line handling of pdb (parseline, history, the hook commands of its
    superclass) is not modelled: a command gets its argument string. *)
From Coq Require Import List ZArith Bool Ascii String.
From Verif Require Import Py.
Import ListNotations.
Open Scope list_scope.

Definition str := list ascii.
Definition code (c : ascii) : nat := nat_of_ascii c.

(** [str.isspace] for one ASCII character: \t \n \v \f \r, the separators 28 to 31, and the blank. *)
Definition is_ws (c : ascii) : bool := (Nat.leb 9 (code c) && Nat.leb (code c) 13) || (Nat.leb 28 (code c) && Nat.leb (code c) 32).
(** debug.py:45, 62, 86, 110 [arg.split()]: [w] is the word that is being read. *)
Definition word (w : str) : list str := match w with [] => [] | _ => [w] end.
Fixpoint split_from (w : str) (s : str) : list str :=
  match s with
  | [] => word w
  | c :: r => if is_ws c then word w ++ split_from [] r else split_from (w ++ [c]) r
  end.
Definition split (s : str) : list str := split_from [] s.

(** [int(s)] for a string (debug.py:32, 50, 93, 117): blanks around it are ignored, then an optional sign, then decimal digits with single
    underscores between them.  Python's limit on the number of digits is not modelled. *)
Fixpoint lstrip (s : str) : str := match s with c :: r => if is_ws c then lstrip r else s | [] => [] end.
Definition strip (s : str) : str := rev (lstrip (rev (lstrip s))).
Definition digit (c : ascii) : option Z := if Nat.leb 48 (code c) && Nat.leb (code c) 57 then Some (Z.of_nat (code c - 48)) else None.
Fixpoint digits_from (acc : Z) (after : bool) (s : str) : option Z :=
  match s with
  | [] => if after then Some acc else None
  | c :: r => match digit c with
              | Some d => digits_from (10 * acc + d) true r
              | None => if Ascii.eqb c "_" && after then digits_from acc false r else None
              end
  end.
Definition py_int (s : str) : option Z :=
  match strip s with
  | c :: r => if Ascii.eqb c "+" then digits_from 0 false r else if Ascii.eqb c "-" then option_map Z.opp (digits_from 0 false r) else digits_from 0 false (c :: r)
  | [] => None
  end.
(** [str.lower] (debug.py:66). *)
Definition lower1 (c : ascii) : ascii := if Nat.leb 65 (code c) && Nat.leb (code c) 90 then ascii_of_nat (code c + 32) else c.
Definition lower (s : str) : str := map lower1 s.

(** What a command can ask of the DUT, and of an internal signal it was given (a number stands for the object). *)
Inductive wmode := Force | Release | NoDelay.
Inductive call :=
| Step (n : Z) | FlushWaveform | SignalList (prefix : str) (deep : Z) | GetInternalSignal (name : str) | RefreshComb
| Width (h : nat) | Read (h : nat) | Write (h : nat) (v : Z) | SetIgnoreSameDataWrite (h : nat) (b : bool) | AsVPIWrite (h : nat) (m : wmode).
(** The lines printed by [info] and [error] (4-16); the wording of the messages is not modelled. *)
Inductive base := Bin | Hex | Dec.
Inductive line := BadNumber (w : str) | NoArgs | NeedValue | BadType (w : str) | NotFound (name : str) | Name (s : str) | Value (b : base) (w v : Z).
Inductive event := Call (c : call) | Print (l : line).

Section Debug.
Context {mem : Type}.
(** The DUT: each method changes the state behind it and returns a value of its type, or raises. *)
Record dut := mk_dut {
  d_step : Z -> mem -> mem * res unit; d_flush : mem -> mem * res unit; d_list : str -> Z -> mem -> mem * res (list str);
  d_get : str -> mem -> mem * res (option nat); d_refresh : mem -> mem * res unit;
  d_width : nat -> mem -> mem * res Z; d_read : nat -> mem -> mem * res Z; d_write : nat -> Z -> mem -> mem * res unit;
  d_ignore : nat -> bool -> mem -> mem * res unit; d_mode : nat -> wmode -> mem -> mem * res unit }.
Context (d : dut).

(** A piece of a command: what has happened so far and the state go in; an exception ends the command. *)
Definition cmd (A : Type) := list event * mem -> (list event * mem) * res A.
Definition ret {A} (a : A) : cmd A := fun s => (s, Ok a).
Definition bind {A B} (x : cmd A) (f : A -> cmd B) : cmd B := fun s => match x s with (s1, Ok a) => f a s1 | (s1, Exn e) => (s1, Exn e) end.
Definition ask {A} (c : call) (f : mem -> mem * res A) : cmd A := fun s => let (m, r) := f (snd s) in ((fst s ++ [Call c], m), r).
Definition say (l : line) : cmd unit := fun s => ((fst s ++ [Print l], snd s), Ok tt).
Fixpoint say_all (l : list line) : cmd unit := match l with [] => ret tt | x :: r => bind (say x) (fun _ => say_all r) end.

(** debug.py:27-37 [do_tstep]. *)
Definition do_tstep (arg : str) : cmd unit :=
  let go n := bind (ask (Step n) (d_step d n)) (fun _ => ask FlushWaveform (d_flush d)) in
  match arg with [] => go 1%Z | _ => match py_int arg with Some n => go n | None => say (BadNumber arg) end end.
(** 39-43 [do_tflush]. *)
Definition do_tflush (arg : str) : cmd unit := match arg with [] => ask FlushWaveform (d_flush d) | _ => say NoArgs end.
(** 45-60 [do_tlist]. An argument of blanks alone makes [args[0]] raise IndexError. *)
Definition do_tlist (arg : str) : cmd unit :=
  let go prefix deep := bind (ask (SignalList prefix deep) (d_list d prefix deep)) (fun l => say_all (map Name l)) in
  match arg with
  | [] => go [] 99%Z
  | _ => match split arg with
         | [] => fun s => (s, Exn IndexError)
         | w :: r => match py_int w with None => say (BadNumber w) | Some deep => go (match r with p :: _ => p | [] => [] end) deep end
         end
  end.
(** 62-84 [do_tprint]. *)
Definition bin_s : str := ["b"; "i"; "n"]%char.
Definition hex_s : str := ["h"; "e"; "x"]%char.
Definition dec_s : str := ["d"; "e"; "c"]%char.
Definition str_eqb (a b : str) : bool := if list_eq_dec ascii_dec a b then true else false.
Definition base_of (w : str) : option base := if str_eqb w bin_s then Some Bin else if str_eqb w hex_s then Some Hex else if str_eqb w dec_s then Some Dec else None.
Definition do_tprint (arg : str) : cmd unit :=
  let go name b := bind (ask (GetInternalSignal name) (d_get d name)) (fun o =>
    match o with
    | None => say (NotFound name)
    | Some h => bind (ask (Width h) (d_width d h)) (fun w => bind (ask (Read h) (d_read d h)) (fun v => say (Value b w v)))
    end) in
  match arg with
  | [] => ret tt
  | _ => match split arg with
         | [] => fun s => (s, Exn IndexError)
         | [name] => go name Dec
         | name :: t :: _ => match base_of (lower t) with Some b => go name b | None => say (BadType (lower t)) end
         end
  end.
(** 86-104 [do_tset] and 106-127 [do_tforce]: the same reading of the argument, then [act] on the signal. *)
Definition with_value (act : nat -> Z -> cmd unit) (arg : str) : cmd unit :=
  match arg with
  | [] => ret tt
  | _ => match split arg with
         | [] => fun s => (s, Exn IndexError)
         | [_] => say NeedValue
         | name :: w :: _ => match py_int w with
                             | None => say (BadNumber w)
                             | Some v => bind (ask (GetInternalSignal name) (d_get d name)) (fun o =>
                                         match o with None => say (NotFound name) | Some h => act h v end)
                             end
         end
  end.
Definition do_tset : str -> cmd unit := with_value (fun h v => bind (ask (Write h v) (d_write d h v)) (fun _ => ask RefreshComb (d_refresh d))).
Definition do_tforce : str -> cmd unit := with_value (fun h v =>
  bind (ask (SetIgnoreSameDataWrite h false) (d_ignore d h false)) (fun _ =>
  bind (ask (AsVPIWrite h Force) (d_mode d h Force)) (fun _ =>
  bind (ask (Write h v) (d_write d h v)) (fun _ =>
  bind (ask RefreshComb (d_refresh d)) (fun _ => ask (SetIgnoreSameDataWrite h true) (d_ignore d h true)))))).
(** 129-141 [do_trelease]: the whole argument is the name. *)
Definition do_trelease (arg : str) : cmd unit :=
  match arg with
  | [] => ret tt
  | _ => bind (ask (GetInternalSignal arg) (d_get d arg)) (fun o =>
         match o with
         | None => say (NotFound arg)
         | Some h =>
           bind (ask (SetIgnoreSameDataWrite h false) (d_ignore d h false)) (fun _ =>
           bind (ask (AsVPIWrite h Release) (d_mode d h Release)) (fun _ =>
           bind (ask (Read h) (d_read d h)) (fun v =>
           bind (ask (Write h v) (d_write d h v)) (fun _ =>
           bind (ask RefreshComb (d_refresh d)) (fun _ =>
           bind (ask (AsVPIWrite h NoDelay) (d_mode d h NoDelay)) (fun _ => ask (SetIgnoreSameDataWrite h true) (d_ignore d h true)))))))
         end)
  end.

(** A line typed at the prompt, by the method it ends up in. *)
Inductive command := Tstep (arg : str) | Tflush (arg : str) | Tlist (arg : str) | Tprint (arg : str) | Tset (arg : str) | Tforce (arg : str) | Trelease (arg : str).
Definition execute (c : command) : cmd unit :=
  match c with Tstep a => do_tstep a | Tflush a => do_tflush a | Tlist a => do_tlist a | Tprint a => do_tprint a | Tset a => do_tset a | Tforce a => do_tforce a | Trelease a => do_trelease a end.
(** One command from the state [m]: what happened, the state after it, how it ended. *)
Definition enter (c : command) (m : mem) : list event * mem * res unit := let (s, r) := execute c ([], m) in (s, r).
End Debug.
Arguments dut : clear implicits.
