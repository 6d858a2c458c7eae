(** Model of what one driver call does besides waiting: binding of the arguments, delivery to ports, choice of the hooks, and
    the comparison of the results (Driver, toffee/_base_agent.py, and compare_once, toffee/_compare.py).

    Python's inspect.Signature.bind and BoundArguments.apply_defaults (CPython 3.10, Lib/inspect.py) are modelled for the five kinds
    of parameters.  When the hooks run is the subject of Drv_Model.v.  Left out: the log messages, the assertion that hooks are not
    coroutine functions, and compare_func, which is None for every Driver (_base_agent.py:33). *)
From Coq Require Import List String Bool ZArith.
From Verif Require Import Py Port_Model.
Import ListNotations.
Open Scope string_scope.
Open Scope nat_scope.

Section Call.
Context {V : Type}.

Inductive pkind := PosOnly | PosKw | VarPos | KwOnly | VarKw.
(** inspect.Parameter: name, kind, default. *)
Record param := mk_param { p_name : string; p_kind : pkind; p_default : option V }.
Definition signature := list param.
(** A bound value: an argument, the tuple of a *args parameter, the dictionary of a **kwargs parameter. *)
Inductive pv := One (v : V) | Tup (l : list V) | Dct (d : dict V).

Definition has_default (p : param) : bool := match p_default p with Some _ => true | None => false end.

(** Signature._bind, the loop over the positional arguments: what is bound, and the parameters left (with the current one put back). *)
Fixpoint bind_pos (ps : signature) (args : list V) (kw : dict V) (acc : dict pv) : res (dict pv * signature) :=
  match args, ps with
  | [], [] => Ok (acc, [])
  | [], p :: rest =>
      match p_kind p with
      | VarPos => Ok (acc, rest)
      | k =>
          if dmem kw (p_name p) then match k with PosOnly => Exn TypeError | _ => Ok (acc, p :: rest) end
          else match k with
               | VarKw => Ok (acc, p :: rest)
               | _ => if has_default p then Ok (acc, p :: rest) else Exn TypeError
               end
      end
  | _ :: _, [] => Exn TypeError
  | v :: args', p :: rest =>
      match p_kind p with
      | VarKw | KwOnly => Exn TypeError
      | VarPos => Ok (dset acc (p_name p) (Tup (v :: args')), rest)
      | PosOnly => bind_pos rest args' kw (dset acc (p_name p) (One v))
      | PosKw => if dmem kw (p_name p) then Exn TypeError else bind_pos rest args' kw (dset acc (p_name p) (One v))
      end
  end.
(** Signature._bind, the loop over the keyword arguments; [kwp]: the ** parameter met so far. *)
Fixpoint bind_kw (ps : signature) (kw : dict V) (acc : dict pv) (kwp : option string) : res (dict pv * dict V * option string) :=
  match ps with
  | [] => Ok (acc, kw, kwp)
  | p :: rest =>
      match p_kind p with
      | VarKw => bind_kw rest kw acc (Some (p_name p))
      | VarPos => bind_kw rest kw acc kwp
      | k =>
          match dget kw (p_name p) with
          | None => if has_default p then bind_kw rest kw acc kwp else Exn TypeError
          | Some v => match k with PosOnly => Exn TypeError | _ => bind_kw rest (ddel kw (p_name p)) (dset acc (p_name p) (One v)) kwp end
          end
      end
  end.
(** Signature.bind *)
Definition bind (ps : signature) (args : list V) (kw : dict V) : res (dict pv) :=
  rbind (bind_pos ps args kw []) (fun x => let (acc, rest) := x in
  rbind (bind_kw rest kw acc None) (fun y => let '(acc1, extra, kwp) := y in
  match extra with
  | [] => Ok acc1
  | _ => match kwp with Some n => Ok (dset acc1 n (Dct extra)) | None => Exn TypeError end
  end)).
(** BoundArguments.apply_defaults *)
Fixpoint apply_defaults (ps : signature) (d : dict pv) : dict pv :=
  match ps with
  | [] => []
  | p :: rest =>
      let tail := apply_defaults rest d in
      match dget d (p_name p) with
      | Some v => (p_name p, v) :: tail
      | None =>
          match p_default p, p_kind p with
          | Some v, _ => (p_name p, One v) :: tail
          | None, VarPos => (p_name p, Tup []) :: tail
          | None, VarKw => (p_name p, Dct []) :: tail
          | None, _ => tail
          end
      end
  end.
(** _base_agent.py:38-55 [__get_args_dict]; [self]: the None bound to the first parameter, deleted afterwards. *)
Definition args_dict (sg : signature) (none : V) (args : list V) (kw : dict V) : res (dict pv) :=
  rbind (bind sg (none :: args) kw) (fun d =>
  let d1 := apply_defaults sg d in
  if dmem d1 "self" then Ok (ddel d1 "self") else Exn KeyError).

(** What is put into a port: a bare value, the dictionary, or the path with the dictionary. *)
Inductive msg := Bare (x : pv) | Named (d : dict pv) | Tagged (path : string) (d : dict pv).
(** model_infos[model] of a driver (env.py:179-188); hooks and ports are numbered. *)
Record minfo := mk_minfo { i_ahooks : list nat; i_aports : list nat; i_dhook : option nat; i_dport : option nat }.
Definition ports := nat -> port msg.
Definition deliver (P : ports) (q : nat) (m : msg) : ports := fun x => if Nat.eqb x q then fst (port_put (P q) m) else P x.

Section Driver.
Context (sg : signature) (none : V) (path : string) (args : list V) (kw : dict V).
Definition bound : res (dict pv) := args_dict sg none args kw.

(** _base_agent.py:58-60: the loop over the agent ports. *)
Fixpoint drive_aports (l : list nat) (P : ports) : res unit * ports :=
  match l with
  | [] => (Ok tt, P)
  | q :: t => match bound with Ok d => drive_aports t (deliver P q (Tagged path d)) | Exn e => (Exn e, P) end
  end.
(** _base_agent.py:57-65 [__drive_single_model_ports] *)
Definition drive_ports (i : minfo) (P : ports) : res unit * ports :=
  match drive_aports (i_aports i) P with
  | (Exn e, P1) => (Exn e, P1)
  | (Ok _, P1) =>
      match i_dport i with
      | None => (Ok tt, P1)
      | Some q =>
          match bound with
          | Ok d => (Ok tt, deliver P1 q (match d with [(_, x)] => Bare x | _ => Named d end))
          | Exn e => (Exn e, P1)
          end
      end
  end.

(** __sche_order__ of a hook and sche_order of the driver; "parallel" is turned into model_first (executor.py:204-206). *)
Inductive order := ModelFirst | DutFirst.
Context (order_of : nat -> order) (sche_order : option order).
(** _base_agent.py:131-134, 145-148 *)
Definition model_first (h : nat) : bool :=
  match sche_order, order_of h with
  | Some ModelFirst, _ => true
  | Some DutFirst, _ => false
  | None, ModelFirst => true
  | None, DutFirst => false
  end.
(** A hook with the way it is called: a driver hook with the arguments of the call, an agent hook with the path and the dictionary. *)
Inductive hook := HD (h : nat) | HA (h : nat).
Record plan := mk_plan { first : list hook; later_d : list nat; later_a : list nat }.
Definition add_d (pl : plan) (h : nat) : plan :=
  if model_first h then mk_plan (first pl ++ [HD h]) (later_d pl) (later_a pl) else mk_plan (first pl) (later_d pl ++ [h]) (later_a pl).
Definition add_a (pl : plan) (h : nat) : plan :=
  if model_first h then mk_plan (first pl ++ [HA h]) (later_d pl) (later_a pl) else mk_plan (first pl) (later_d pl) (later_a pl ++ [h]).
(** _base_agent.py:126-156: the loop over model_infos; the model-first hooks are registered in the order of [first]. *)
Fixpoint prepare (l : list minfo) (pl : plan) (P : ports) : res plan * ports :=
  match l with
  | [] => (Ok pl, P)
  | i :: t =>
      match i_dport i, i_aports i with
      | None, [] => prepare t (fold_left add_a (i_ahooks i) (match i_dhook i with Some h => add_d pl h | None => pl end)) P
      | _, _ => match drive_ports i P with (Ok _, P1) => prepare t pl P1 | (Exn e, P1) => (Exn e, P1) end
      end
  end.
Definition call_setup (l : list minfo) (P : ports) : res plan * ports := prepare l (mk_plan [] [] []) P.
(** _base_agent.py:164-176: the dut-first hooks, driver hooks before agent hooks. *)
Definition later (pl : plan) : list hook := map HD (later_d pl) ++ map HA (later_a pl).
(** _base_agent.py:74, 93-94: what the hook is called with. *)
Inductive received := Raw (args : list V) (kw : dict V) | Path (path : string) (d : res (dict pv)).
Definition receives (h : hook) : received := match h with HD _ => Raw args kw | HA _ => Path path bound end.
End Driver.

(** _compare.py:12-28 [compare_once]: [eq] is the comparison function of the driver, == by default; it may raise or be false. *)
Definition compare_once (eq : V -> V -> res bool) (dut std : V) : res bool :=
  match eq dut std with Ok true => Ok true | Ok false => Exn AssertionError | Exn e => Exn e end.
(** _base_agent.py:180-187: the comparisons made, and how the loop ends; None results are skipped. *)
Fixpoint compare_all (eq : V -> V -> res bool) (dut : V) (results : list (hook * option V)) : list (hook * V) * res unit :=
  match results with
  | [] => ([], Ok tt)
  | (_, None) :: t => compare_all eq dut t
  | (h, Some v) :: t =>
      match compare_once eq dut v with
      | Ok _ => let (l, r) := compare_all eq dut t in ((h, v) :: l, r)
      | Exn e => ([(h, v)], Exn e)
      end
  end.
End Call.
Arguments param V : clear implicits.
Arguments signature V : clear implicits.
Arguments pv V : clear implicits.
Arguments msg V : clear implicits.
Arguments received V : clear implicits.
