(** Vocabulary for failures of tasks nobody waits for. *)
From Coq Require Import List Bool Arith ZArith.
From Verif Require Import Py Loop_Model Loop_Spec Loop2_Spec Handler_Model.
Import ListNotations.
Open Scope nat_scope.

Section Spec.
Context {mem : Type}.
Notation prog := (@prog mem). Notation state := (@state mem).
(** Task [t] is about to end with the exception [e]. *)
Definition fails (x : @xstate mem) (t : id) (e : exn) : Prop := cur (x_core x) = Some (t, BProg (Raise e)) /\ e <> CancelledError.
(** Nobody waits for task [t], and nobody has awaited or gathered it. *)
Definition unclaimed (x : @xstate mem) (t : id) : Prop := ~ In t (x_claimed x) /\ exists fu, fget (x_core x) t = Some fu /\ f_cbs fu = [].
(** The main coroutine is suspended, and the loop is not going to resume it in the current iteration or the next. *)
Definition main_waits (s : state) : Prop := unfinished s 0 /\ (forall b, cur s <> Some (0, b)) /\ ~ runnable s 0.
(** run() has been left; it has returned [v]; it has raised [e]. *)
Definition run_over (x : @xstate mem) : Prop := run_result x <> None.
Definition run_returned (x : @xstate mem) (v : lval) : Prop := run_result x = Some (Ok v).
Definition run_raised (x : @xstate mem) (e : exn) : Prop := run_result x = Some (Exn e).
Context (shuffle : list id -> list id) (dut delayers : mem -> mem).
Definition xexecution (test : prog) (m : mem) (sg : nat -> @xstate mem) : Prop :=
  xsteps shuffle dut delayers (xinit test m) (sg 0) /\ forall n, exists fire gc, sg (S n) = xstep shuffle dut delayers fire gc (sg n).
(** No task runs for ever without awaiting something. *)
Definition xyields (sg : nat -> @xstate mem) : Prop := forall n, exists j, n <= j /\ cur (x_core (sg j)) = None.
(** Executions in which the object of task [t] is kept; in which it is deleted as soon as possible. *)
Inductive xkeeping (t : id) : @xstate mem -> @xstate mem -> Prop :=
| xk_refl x : xkeeping t x x
| xk_step x x1 fire gc : xkeeping t x x1 -> ~ In t gc -> xkeeping t x (xstep shuffle dut delayers fire gc x1).
Inductive xdeleting (t : id) : @xstate mem -> @xstate mem -> Prop :=
| xd_refl x : xdeleting t x x
| xd_step x x1 fire gc : xdeleting t x x1 -> In t gc -> xdeleting t x (xstep shuffle dut delayers fire gc x1).
End Spec.
