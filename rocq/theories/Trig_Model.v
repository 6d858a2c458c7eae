(** Model of toffee/triggers.py.

    A waiting task sees the world at the moments it is resumed: [w n] is what it reads after it has
    awaited the clock event [n] times (n = 0: at the call).  The coroutine is run for at most [fuel]
    further clock waits; [Some (Ok n)] = it returned after exactly [n] waits, [Some (Exn e)] = it
    raised, [None] = it is still waiting.  Two reads of a pin between two waits give the same value
    (no other code runs in between). *)
From Coq Require Import List ZArith Bool.
From Verif Require Import Py.
Import ListNotations.

(** toffee/triggers.py:14-35 [ClockCycles] and bundle.py:666-679 [step]: the number of waits is
    len(range(ncycles)). *)
Definition clock_cycles (n : nat) (ncycles : Z) : nat := (n + Z.to_nat ncycles)%nat.

(** toffee/triggers.py:50-51 [Value] after the initial delay: while pin.value != value: wait. *)
Fixpoint value_loop (fuel : nat) (w : nat -> Z) (v : Z) (n : nat) : option (res nat) :=
  if negb (Z.eqb (w n) v) then
    match fuel with O => None | S f => value_loop f w v (S n) end
  else Some (Ok n).

(** toffee/triggers.py:38-51 [Value]. *)
Definition value_trig (fuel : nat) (w : nat -> Z) (v delay : Z) : option (res nat) :=
  value_loop fuel w v (Z.to_nat delay).

(** toffee/triggers.py:66-67: while not all(pin.value for pin in pins): pins[0].event.wait(). *)
Fixpoint allvalid_loop (fuel : nat) (ws : list (nat -> Z)) (n : nat) : option (res nat) :=
  if negb (forallb (fun w => negb (Z.eqb (w n) 0)) ws) then
    match ws with
    | [] => Some (Exn IndexError)
    | _ => match fuel with O => None | S f => allvalid_loop f ws (S n) end
    end
  else Some (Ok n).

(** toffee/triggers.py:54-67 [AllValid]: with no pins and a positive delay, pins[0] raises. *)
Definition allvalid_trig (fuel : nat) (ws : list (nat -> Z)) (delay : Z) : option (res nat) :=
  match ws, Z.to_nat delay with
  | [], S _ => Some (Exn IndexError)
  | _, _ => allvalid_loop fuel ws (Z.to_nat delay)
  end.

(** toffee/triggers.py:81-82 [Condition]: the condition may raise. *)
Fixpoint cond_loop (fuel : nat) (f : nat -> res bool) (n : nat) : option (res nat) :=
  match f n with
  | Exn e => Some (Exn e)
  | Ok b =>
      if negb b then match fuel with O => None | S f' => cond_loop f' f (clock_cycles n 1) end
      else Some (Ok n)
  end.

(** toffee/triggers.py:70-82 [Condition]. *)
Definition cond_trig (fuel : nat) (f : nat -> res bool) (delay : Z) : option (res nat) :=
  cond_loop fuel f (clock_cycles 0 delay).

(** toffee/triggers.py:94-95 [Change]: while pin.value == old_value. *)
Fixpoint change_loop (fuel : nat) (w : nat -> Z) (old : Z) (n : nat) : option (res nat) :=
  if Z.eqb (w n) old then
    match fuel with O => None | S f => change_loop f w old (S n) end
  else Some (Ok n).

(** toffee/triggers.py:85-95 [Change]. *)
Definition change_trig (fuel : nat) (w : nat -> Z) : option (res nat) := change_loop fuel w (w 0%nat) 0.

(** toffee/triggers.py:108-110 [RisingEdge]. *)
Fixpoint rising_loop (fuel : nat) (w : nat -> Z) (old : Z) (n : nat) : option (res nat) :=
  if negb (Z.eqb old 0) || Z.eqb (w n) old then
    let old' := w n in
    match fuel with O => None | S f => rising_loop f w old' (S n) end
  else Some (Ok n).

(** toffee/triggers.py:98-110 [RisingEdge]. *)
Definition rising_trig (fuel : nat) (w : nat -> Z) : option (res nat) := rising_loop fuel w (w 0%nat) 0.

(** toffee/triggers.py:123-125 [FallingEdge]. *)
Fixpoint falling_loop (fuel : nat) (w : nat -> Z) (old : Z) (n : nat) : option (res nat) :=
  if negb (Z.eqb (w n) 0) || Z.eqb (w n) old then
    let old' := w n in
    match fuel with O => None | S f => falling_loop f w old' (S n) end
  else Some (Ok n).

(** toffee/triggers.py:113-125 [FallingEdge]. *)
Definition falling_trig (fuel : nat) (w : nat -> Z) : option (res nat) := falling_loop fuel w (w 0%nat) 0.
