(** Vocabulary for tests that raise an exception. *)
From Coq Require Import List Bool Arith ZArith.
From Verif Require Import Py Loop_Model Loop_Spec.
Import ListNotations.
Open Scope nat_scope.

Section Spec.
Context {mem : Type}.
Notation state := (@state mem).
(** The exception [e] has just left the test coroutine. *)
Definition test_failed (s : state) (e : exn) : Prop := cur s = Some (0, BTest (Raise e)).
(** No task runs for ever without awaiting something: again and again control is with the loop. *)
Definition yields (sg : nat -> state) : Prop := forall n, exists j, n <= j /\ cur (sg j) = None.
End Spec.
