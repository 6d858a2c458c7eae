(** Vocabulary for what is left of a test after run(). *)
From Coq Require Import List Bool Arith.
From Verif Require Import Py Prio_Model Loop_Model Loop_Spec Loop2_Spec Loop3_Spec.
Import ListNotations.
Open Scope nat_scope.

Section Spec.
Context {mem : Type}.
Notation state := (@state mem).
(** The clock task [c] waits in the clock loop itself, not inside a hook that it runs. *)
Definition between_hooks (s : state) (c : id) : Prop := forall tk, tget s c = Some tk -> exists x, k_cont tk = start (BClk x).
(** Nothing is left of the tasks of [s]. *)
Definition all_ended (s s' : state) : Prop := forall t, unfinished s t -> exists st, state_of s' t = Some st /\ st <> Pending.
End Spec.
