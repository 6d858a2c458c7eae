(** Vocabulary for progress: infinite executions, hooks that never wait. *)
From Coq Require Import List Bool Arith ZArith.
From Verif Require Import Py Prio_Model Loop_Model Loop_Spec.
Import ListNotations.
Open Scope nat_scope.

Section Spec.
Context {mem : Type}.
Notation prog := (@prog mem). Notation state := (@state mem).
Context (shuffle : list id -> list id) (dut delayers : mem -> mem).
(** An infinite execution that goes on from a reachable state; once the loop has stopped the state no longer changes. *)
Definition execution (test : prog) (m : mem) (sg : nat -> state) : Prop :=
  steps shuffle dut delayers (init test m) (sg 0) /\ forall n, exists fire, sg (S n) = step shuffle dut delayers fire (sg n).
(** Operations that never wait for something to happen: not [await fut], [await ev.wait()], [await q.get()] (an [asyncio.sleep(0)] only yields). *)
Definition prompt_op (o : @op mem prog) : Prop := match o with OAwait _ | OEvWait _ | OQGet _ => False | _ => True end.
(** A coroutine that never waits and ends after finitely many operations, whatever they return. *)
Inductive swift : prog -> Prop :=
| sw_ret v : swift (Ret v)
| sw_raise e : swift (Raise e)
| sw_op o k : prompt_op o -> (forall r, swift (k r)) -> swift (Op o k).
(** Every coroutine passed to add_priority_task (the hooks the clock task runs itself) is swift. *)
Definition hooks_op (o : @op mem prog) : Prop := match o with OPrio h _ _ => swift h | _ => True end.
Definition swift_hooks (test : prog) : Prop := allp hooks_op test.
(** From [N] on, no task but [c] runs. *)
Definition only_runs (sg : nat -> state) (N : nat) (c : id) : Prop := forall n t b, N <= n -> cur (sg n) = Some (t, b) -> t = c.
(** main_coro has set test_done (asynchronous.py:252). *)
Definition test_over (s : state) : Prop := tdone s = Some true.
End Spec.
