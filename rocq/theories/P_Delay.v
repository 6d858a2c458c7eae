(** Property theorems for toffee/delay.py: C07, C08. *)
From Coq Require Import List ZArith Bool Lia.
From Verif Require Import Py Prio_Model Delay_Model Delay_Proofs.
Import ListNotations.
Open Scope Z_scope.

(** C07: value is None until n+1 samples, then the sample taken n samples before the latest. *)
Theorem C07_delayer_exact : forall (V : Type) (n : nat) (vs : list V) (d : delayer V),
  delayer_init (Z.of_nat n) = Ok d ->
  let d' := delayer_run d vs in
  ((length vs <= n)%nat -> delayer_value d' = None) /\
  ((n < length vs)%nat -> delayer_value d' = nth_error vs (length vs - 1 - n) /\ delayer_value d' <> None) /\
  (length (d_list d') <= n + 1)%nat.
Proof. exact @delayer_exact. Qed.
Print Assumptions C07_delayer_exact.

Theorem C07_delayer_rejects_negative : forall (V : Type) (z : Z),
  delayer_init (V := V) z = Exn AssertionError <-> z < 0.
Proof. exact @delayer_init_reject. Qed.
Print Assumptions C07_delayer_rejects_negative.

Example C07_example : exists d, delayer_init (Z.of_nat 2) = Ok d /\
  delayer_value (delayer_run d [10; 11; 12; 13]) = Some 11.
Proof. eexists. split; vm_compute; reflexivity. Qed.

(** C08 is false: a cycle in which a driver hook runs is sampled twice, so the delayed value is not
    the one of [delay] cycles ago (here delay 1: after cycles 0 and 1 the value should be that of
    cycle 0, but it is that of cycle 1). *)
Theorem C08_delayer_in_cycles_refuted :
  exists (dl n : nat) (regs : nat -> list (list (ptask unit))) (pin : nat -> nat -> Z) (d : delayer Z),
    delayer_init (Z.of_nat dl) = Ok d /\ (dl < n)%nat /\
    delayer_value (run_cycles n regs pin d) <> Some (pin (n - 1 - dl)%nat 0%nat) /\
    (forall c p q, pin c p = pin c q).
Proof. exact cycle_delay_refuted. Qed.
Print Assumptions C08_delayer_in_cycles_refuted.

(** C08, true part 1: exact when no task with a done event (driver or agent hook of a driver) runs
    in the cycles considered. *)
Theorem C08_delayer_in_cycles_partial : forall (V : Type) n dl regs pin (d : delayer V),
  delayer_init (Z.of_nat dl) = Ok d ->
  (forall c, (c < n)%nat ->
     match regs c with [] => True | r :: _ => forall t, In t r -> pt_done t = None end) ->
  (dl < n)%nat -> delayer_value (run_cycles n regs pin d) = Some (pin (n - 1 - dl)%nat 0%nat).
Proof. exact @cycle_delay_quiet. Qed.
Print Assumptions C08_delayer_in_cycles_partial.

(** C08, true part 2: in general the value comes from one of the last [delay]+1 cycles (never older). *)
Theorem C08_delayer_never_older_partial : forall (V : Type) n dl regs pin (d : delayer V),
  delayer_init (Z.of_nat dl) = Ok d -> (dl < n)%nat ->
  exists c p, delayer_value (run_cycles n regs pin d) = Some (pin c p) /\ (n - 1 - dl <= c < n)%nat.
Proof. exact @cycle_delay_at_most. Qed.
Print Assumptions C08_delayer_never_older_partial.

Example C08_example : exists d, delayer_init (Z.of_nat 1) = Ok d /\
  delayer_value (run_cycles 3 (fun _ => [[mk_pt tt 5 None]]) (fun c _ => Z.of_nat c) d) = Some 1.
Proof. eexists. split; vm_compute; reflexivity. Qed.
