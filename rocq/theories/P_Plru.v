(** Property theorems for toffee/utils/plru.py: C02, C03, C04, C64. *)
From Coq Require Import ZArith List Bool Permutation.
From Verif Require Import Plru_Model Plru_Spec Plru_Proofs Plru_Refute.
Import ListNotations.
Open Scope Z_scope.

(** C02, true part: for every number of ways and every history of updates (with any ways) the
    object exists, no list access fails, and for a power of two the victim is an existing way. *)
Theorem C02_plru_victim_in_range_partial : forall (k : nat) (h : list Z) (p : plru),
  reached (2 ^ Z.of_nat k) h p ->
  exists v, plru_get p = Some v /\ 0 <= v < 2 ^ Z.of_nat k.
Proof. exact victim_range_pow2. Qed.
Print Assumptions C02_plru_victim_in_range_partial.

Theorem C02_plru_never_raises : forall (n : Z) (h : list Z),
  0 < n -> exists p, reached n h p /\ exists v, plru_get p = Some v /\ 0 <= v < 2 ^ Z.log2_up n.
Proof.
  exact (fun n h Hn => match reached_exists n h Hn with
                       | ex_intro _ p R => ex_intro _ p (conj R (victim_in_tree n h p R)) end).
Qed.
Print Assumptions C02_plru_never_raises.

(** C02 as stated is false: for every number of ways that is not a power of two there is a
    history of updates with existing ways after which get() returns a way that does not exist. *)
Theorem C02_plru_victim_in_range_refuted : forall n, 0 < n -> (forall k : nat, n <> 2 ^ Z.of_nat k) ->
  exists h p v, Forall (fun w => 0 <= w < n) h /\ reached n h p /\ plru_get p = Some v /\ n <= v.
Proof. exact non_pow2_bad_victim. Qed.
Print Assumptions C02_plru_victim_in_range_refuted.

Example C02_example_ok : exists p, reached (2 ^ Z.of_nat 2) [1; 3; 0] p /\ plru_get p = Some 2.
Proof. eexists. split; [eexists; split; vm_compute; reflexivity | vm_compute; reflexivity]. Qed.
Example C02_example_bad : exists p, reached 3 [2; 0] p /\ plru_get p = Some 3.
Proof. eexists. split; [eexists; split; vm_compute; reflexivity | vm_compute; reflexivity]. Qed.

(** C03: right after update(w), get() is a way of the other half. *)
Theorem C03_plru_avoids_most_recent : forall (k : nat) (h : list Z) (w : Z) (p : plru) (v : Z),
  0 <= w < 2 ^ Z.of_nat (S k) ->
  reached (2 ^ Z.of_nat (S k)) (h ++ [w]) p -> plru_get p = Some v ->
  v <> w /\ v / 2 ^ Z.of_nat k = 1 - w / 2 ^ Z.of_nat k.
Proof. exact other_half. Qed.
Print Assumptions C03_plru_avoids_most_recent.

Example C03_example : exists p, reached (2 ^ Z.of_nat 2) ([0; 1] ++ [2]) p /\ plru_get p = Some 0.
Proof. eexists. split; [eexists; split; vm_compute; reflexivity | vm_compute; reflexivity]. Qed.

(** C04: a full round of evictions hits every way exactly once. *)
Theorem C04_plru_full_round : forall (k : nat) (h : list Z) (p : plru),
  reached (2 ^ Z.of_nat k) h p ->
  exists vs pf, evictions (Nat.pow 2 k) p = Some (vs, pf) /\ Permutation vs (all_ways (Nat.pow 2 k)).
Proof. exact full_round. Qed.
Print Assumptions C04_plru_full_round.

Example C04_example : exists p, reached (2 ^ Z.of_nat 2) [3; 1] p /\
  exists pf, evictions 4 p = Some ([2; 0; 3; 1], pf).
Proof. eexists. split; [eexists; split; vm_compute; reflexivity | eexists; vm_compute; reflexivity]. Qed.

(** C64: a way that was just used survives at least log2(ways) - 1 further updates. *)
Theorem C64_plru_protection : forall (k : nat) (h : list Z) (w : Z) (ws : list Z) (p : plru),
  0 <= w < 2 ^ Z.of_nat k -> (length ws < k)%nat ->
  reached (2 ^ Z.of_nat k) (h ++ w :: ws) p -> plru_get p <> Some w.
Proof. exact protected_way. Qed.
Print Assumptions C64_plru_protection.

Example C64_example : exists p, reached (2 ^ Z.of_nat 3) ([5] ++ 2 :: [7; 1]) p /\ plru_get p = Some 4.
Proof. eexists. split; [eexists; split; vm_compute; reflexivity | vm_compute; reflexivity]. Qed.
(** The bound is tight: after k well-chosen updates the way can be the victim. *)
Example C64_tight : exists p, reached (2 ^ Z.of_nat 3) ([] ++ 2 :: [3; 0; 7]) p /\ plru_get p = Some 2.
Proof. eexists. split; [eexists; split; vm_compute; reflexivity | vm_compute; reflexivity]. Qed.
