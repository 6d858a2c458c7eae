(** Specification vocabulary for the triggers. *)
From Coq Require Import List ZArith.
From Verif Require Import Py.

(** [m] is the first moment at or after [lo] with [P]. *)
Definition first_from (lo : nat) (P : nat -> Prop) (m : nat) : Prop :=
  (lo <= m)%nat /\ P m /\ forall k, (lo <= k < m)%nat -> ~ P k.

(** The coroutine returns (for some number of granted waits) after [m] waits. *)
Definition returns_after (t : nat -> option (res nat)) (m : nat) : Prop := exists fuel, t fuel = Some (Ok m).

(** It is still waiting whatever number of clock waits is granted. *)
Definition waits_forever (t : nat -> option (res nat)) : Prop := forall fuel, t fuel = None.

