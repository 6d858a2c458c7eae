(** The triggers of toffee/triggers.py as coroutines of the event loop model.  (Trig_Model.v models what they compute from a given sequence of values.) *)
From Coq Require Import List Bool Arith ZArith.
From Verif Require Import Py Prio_Model Loop_Model LoopProg_Model.
Import ListNotations.
Open Scope nat_scope.

Section Trig.
Context {mem : Type}.
Notation prog := (@prog mem).
(** [for _ in range(n): await item.event.wait()], then [p]: triggers.py:24-35 (all forms of item), 48-49, 63-64.  Simplified: the event of the item is the clock event (event 0) of the loop. *)
Fixpoint waits (n : nat) (p : prog) : prog := match n with 0 => p | Datatypes.S n' => Let (OEvWait 0) (fun _ => waits n' p) end.
(** [while condition: ...; await event.wait()].  [f x m]: the condition and the assignments before the await are evaluated with the local variable [x] in memory [m], without giving other tasks a
    turn; [Ok (Some x')]: it is true, [Ok None]: false. *)
Definition asked (f : lval -> mem -> mem * res (option lval)) (x : lval) : @op mem prog :=
  OMem (fun m => let (m', r) := f x m in (m', match r with Ok (Some x') => Ok (VList [x']) | Ok None => Ok VNone | Exn e => Exn e end)).
CoFixpoint watch (f : lval -> mem -> mem * res (option lval)) (x : lval) : prog :=
  Op (asked f x) (fun r => match r with
    | Ok (VList [x']) => Op (OEvWait 0) (fun r => match r with Ok _ => watch f x' | Exn e => Raise e end)
    | Ok _ => Ret VNone
    | Exn e => Raise e end).

(** [pin m]: the value of the pin, [pin.value]. *)
Definition value_check (pin : mem -> Z) (v : Z) (_ : lval) (m : mem) : mem * res (option lval) := (m, Ok (if negb (Z.eqb (pin m) v) then Some VNone else None)).
(** triggers.py:38-51 [Value]. *)
Definition value (pin : mem -> Z) (v delay : Z) : prog := waits (Z.to_nat delay) (watch (value_check pin v) VNone).
(** 66: [not all(pin.value for pin in pins)]. *)
Definition valid_check (pins : list (mem -> Z)) (_ : lval) (m : mem) : mem * res (option lval) := (m, Ok (if negb (forallb (fun pin => negb (Z.eqb (pin m) 0)) pins) then Some VNone else None)).
(** 54-67 [AllValid]; with no pins and a positive delay, pins[0] raises. *)
Definition all_valid (pins : list (mem -> Z)) (delay : Z) : prog :=
  match pins, Z.to_nat delay with [], Datatypes.S _ => Raise IndexError | _, d => waits d (watch (valid_check pins) VNone) end.
(** 81: [not func(item)]; the function may raise and may change the memory. *)
Definition cond_check (func : mem -> mem * res bool) (_ : lval) (m : mem) : mem * res (option lval) :=
  let (m', r) := func m in (m', match r with Ok b => Ok (if negb b then Some VNone else None) | Exn e => Exn e end).
(** 70-82 [Condition]. *)
Definition condition (func : mem -> mem * res bool) (delay : Z) : prog := waits (Z.to_nat delay) (watch (cond_check func) VNone).

(** [old_value = pin.value], then [k]. *)
Definition with_old (pin : mem -> Z) (k : lval -> prog) : prog := Let (OMem (fun m => (m, Ok (VInt (pin m))))) k.
Definition old_is (x : lval) : Z := match x with VInt z => z | _ => 0%Z end.
(** 94 [pin.value == old_value]. *)
Definition change_check (pin : mem -> Z) (x : lval) (m : mem) : mem * res (option lval) := (m, Ok (if Z.eqb (pin m) (old_is x) then Some x else None)).
(** 85-95 [Change]. *)
Definition change (pin : mem -> Z) : prog := with_old pin (watch (change_check pin)).
(** 108-109 [old_value != 0 or pin.value == old_value]; [old_value = pin.value]. *)
Definition rising_check (pin : mem -> Z) (x : lval) (m : mem) : mem * res (option lval) :=
  (m, Ok (if negb (Z.eqb (old_is x) 0) || Z.eqb (pin m) (old_is x) then Some (VInt (pin m)) else None)).
(** 98-110 [RisingEdge]. *)
Definition rising_edge (pin : mem -> Z) : prog := with_old pin (watch (rising_check pin)).
(** 123-124 [pin.value != 0 or pin.value == old_value]; [old_value = pin.value]. *)
Definition falling_check (pin : mem -> Z) (x : lval) (m : mem) : mem * res (option lval) :=
  (m, Ok (if negb (Z.eqb (pin m) 0) || Z.eqb (pin m) (old_is x) then Some (VInt (pin m)) else None)).
(** 113-125 [FallingEdge]. *)
Definition falling_edge (pin : mem -> Z) : prog := with_old pin (watch (falling_check pin)).
End Trig.
