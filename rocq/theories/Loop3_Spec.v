(** Vocabulary for the end of a test. *)
From Coq Require Import List Bool Arith ZArith.
From Verif Require Import Py Prio_Model Loop_Model Loop_Spec Loop2_Spec.
Import ListNotations.
Open Scope nat_scope.

Section Spec.
Context {mem : Type}.
Notation prog := (@prog mem). Notation state := (@state mem).
(** User code neither awaits nor cancels the task of the main coroutine (it can name it only through asyncio.current_task and asyncio.all_tasks). *)
Definition hands_off_op (o : @op mem prog) : Prop := match o with OAwait f | OCancel f => f <> 0 | OGather l => ~ In 0 l | _ => True end.
Definition hands_off (p : prog) : Prop := allp hands_off_op p.
(** The same of a run: whatever happens, no task ever does so.  [hands_off test] is sufficient (lemma [hands_untouched]); a test that awaits tasks it
    has created is not [hands_off], because the identity of the task is known only when it runs. *)
Definition untouched (shuffle : list id -> list id) (dut delayers : mem -> mem) (test : prog) (m : mem) : Prop :=
  forall s o, steps shuffle dut delayers (init test m) s -> current_op s = Some o -> hands_off_op o.
(** The test coroutine has just returned [v]; the main coroutine has not gone on yet. *)
Definition test_returned (s : state) (v : lval) : Prop := cur s = Some (0, BTest (Ret v)).
(** The clock task [c] is about to cancel the remaining tasks (asynchronous.py:109-110). *)
Definition at_cancel (s : state) (c : id) : Prop := cur s = Some (c, BClk CCancel).
(** The loop has stopped: run() returns. *)
Definition stopped (s : state) : Prop := cur s = None /\ batch s = 0 /\ stopping s = true.
End Spec.
