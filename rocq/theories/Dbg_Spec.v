(** Vocabulary for the debugger commands: how arguments are written, and what may be seen of a command. *)
From Coq Require Import List ZArith Bool Ascii String.
From Verif Require Import Py Dbg_Model.
Import ListNotations.
Open Scope list_scope.

(** A blank: tab, newline, vertical tab, form feed, carriage return, one of the four separators, or the space. *)
Definition blank (c : ascii) : Prop := In (nat_of_ascii c) [9; 10; 11; 12; 13; 28; 29; 30; 31; 32].
Definition blanks (s : str) : Prop := Forall blank s.
(** [s] consists of the words [l], with blanks between them and perhaps around them. *)
Inductive spaced : str -> list str -> Prop :=
| sp_end : spaced [] []
| sp_blank c s l : blank c -> spaced s l -> spaced (c :: s) l
| sp_last w : w <> [] -> Forall (fun c => ~ blank c) w -> spaced w [w]
| sp_word w c s l : w <> [] -> Forall (fun c => ~ blank c) w -> blank c -> spaced s l -> spaced (w ++ c :: s) (w :: l).

(** Decimal numerals: digits, with at most one underscore between two of them; a sign may stand before them and blanks around it all. *)
Definition figure (n : nat) : ascii := ascii_of_nat (48 + n).
Inductive figures : str -> Z -> Prop :=
| fg_one n : n < 10 -> figures [figure n] (Z.of_nat n)
| fg_more s z n : figures s z -> n < 10 -> figures (s ++ [figure n]) (10 * z + Z.of_nat n)
| fg_under s z n : figures s z -> n < 10 -> figures (s ++ ["_"%char; figure n]) (10 * z + Z.of_nat n).
Inductive signed : str -> Z -> Prop :=
| sg_none s z : figures s z -> signed s z
| sg_plus s z : figures s z -> signed ("+"%char :: s) z
| sg_minus s z : figures s z -> signed ("-"%char :: s) (- z).
Definition numeral (s : str) (z : Z) : Prop := exists a t b, s = a ++ t ++ b /\ blanks a /\ signed t z /\ blanks b.

(** The calls of a trace, and the lines. *)
Definition calls (ev : list event) : list call := flat_map (fun e => match e with Call c => [c] | Print _ => [] end) ev.
Definition lines (ev : list event) : list line := flat_map (fun e => match e with Call _ => [] | Print l => [l] end) ev.
(** A complaint: a line that is not an answer. *)
Definition complaint (l : line) : Prop := match l with Name _ | Value _ _ _ => False | _ => True end.
(** Calls that only look. *)
Definition looking (c : call) : Prop := match c with SignalList _ _ | GetInternalSignal _ | Width _ | Read _ => True | _ => False end.
(** The way the call [SetIgnoreSameDataWrite] left signal [h]: what the last such call on it was given. *)
Definition last_ignore (h : nat) (l : list call) : option bool :=
  fold_left (fun a c => match c with SetIgnoreSameDataWrite h' b => if Nat.eqb h' h then Some b else a | _ => a end) l None.
Definition last_mode (h : nat) (l : list call) : option wmode :=
  fold_left (fun a c => match c with AsVPIWrite h' m => if Nat.eqb h' h then Some m else a | _ => a end) l None.
(** What is written to which signal, in order. *)
Definition writes (l : list call) : list (nat * Z) := flat_map (fun c => match c with Write h v => [(h, v)] | _ => [] end) l.
Definition steps (l : list call) : list Z := flat_map (fun c => match c with Step n => [n] | _ => [] end) l.

(** [t] spells [b], whose letters are small, in any case. *)
Definition spells (t b : str) : Prop := Forall2 (fun x y => x = y \/ (65 <= nat_of_ascii x <= 90 /\ nat_of_ascii y = nat_of_ascii x + 32)) t b.
Definition bin : str := list_ascii_of_string "bin".
Definition hex : str := list_ascii_of_string "hex".
Definition dec : str := list_ascii_of_string "dec".
(** When the argument of a command can be understood. *)
Definition understood (c : command) : Prop :=
  match c with
  | Tstep a => a = [] \/ exists n, numeral a n
  | Tflush a => a = []
  | Tlist a => a = [] \/ exists w r n, spaced a (w :: r) /\ numeral w n
  | Tprint a => a = [] \/ exists name, spaced a [name] \/ exists t r, spaced a (name :: t :: r) /\ (spells t bin \/ spells t hex \/ spells t dec)
  | Tset a | Tforce a => a = [] \/ exists name w r v, spaced a (name :: w :: r) /\ numeral w v
  | Trelease _ => True
  end.
