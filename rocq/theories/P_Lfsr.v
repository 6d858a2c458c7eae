(** Property theorems for toffee/utils/lfsr_64.py: C05, C06. *)
From Coq Require Import ZArith List Bool.
From Verif Require Import Lfsr_Model Lfsr_Proofs LfsrPeriod_Proofs.
Import ListNotations.
Open Scope Z_scope.

(** C05: range for every seed and step count. *)
Theorem C05_lfsr_range : forall seed n, 0 <= lfsr_rand seed n < 2 ^ 64.
Proof. exact rand_range. Qed.
Print Assumptions C05_lfsr_range.

(** C05: the documented shift register, bit by bit. *)
Theorem C05_lfsr_bits : forall s i, 0 <= s < 2 ^ 64 -> 0 <= i ->
  Z.testbit (lfsr_step s) i =
    if i =? 63 then xorb (xorb (xorb (Z.testbit s 0) (Z.testbit s 1)) (Z.testbit s 3)) (Z.testbit s 4)
    else Z.testbit s (i + 1).
Proof. exact step_bits. Qed.
Print Assumptions C05_lfsr_bits.

(** C05: the step is a permutation of the 64-bit states. *)
Theorem C05_lfsr_step_injective : forall a b, 0 <= a < 2 ^ 64 -> 0 <= b < 2 ^ 64 ->
  lfsr_step a = lfsr_step b -> a = b.
Proof. exact step_inj. Qed.
Print Assumptions C05_lfsr_step_injective.

Theorem C05_lfsr_step_surjective : forall s, 0 <= s < 2 ^ 64 ->
  exists a, 0 <= a < 2 ^ 64 /\ lfsr_step a = s.
Proof. exact step_surj. Qed.
Print Assumptions C05_lfsr_step_surjective.

(** C05: the generator is dead exactly for seeds that are multiples of 2^64. *)
Theorem C05_lfsr_zero_iff : forall seed n, lfsr_rand seed n = 0 <-> seed mod 2 ^ 64 = 0.
Proof. exact rand_zero_iff. Qed.
Print Assumptions C05_lfsr_zero_iff.

(** C05: two seeds give the same value after n steps iff they agree modulo 2^64. *)
Theorem C05_lfsr_seed_mod : forall s1 s2 n,
  s1 mod 2 ^ 64 = s2 mod 2 ^ 64 <-> lfsr_rand s1 n = lfsr_rand s2 n.
Proof. exact rand_seed_mod. Qed.
Print Assumptions C05_lfsr_seed_mod.

Example C05_example : lfsr_rand (-1) 1 = 2 ^ 63 - 1 /\ lfsr_rand 1 1 = 2 ^ 63.
Proof. split; vm_compute; reflexivity. Qed.

(** C06: the value first returns to the start after exactly 2^64 - 1 steps ... *)
Theorem C06_lfsr_full_period : forall seed n, seed mod 2 ^ 64 <> 0 ->
  (lfsr_rand seed n = lfsr_rand seed 0 <-> (2 ^ 64 - 1 | Z.of_nat n)).
Proof. exact rand_period. Qed.
Print Assumptions C06_lfsr_full_period.

(** ... all values within a period are different ... *)
Theorem C06_lfsr_distinct : forall seed i j, seed mod 2 ^ 64 <> 0 ->
  (lfsr_rand seed i = lfsr_rand seed j <-> (2 ^ 64 - 1 | Z.of_nat i - Z.of_nat j)).
Proof. exact rand_distinct. Qed.
Print Assumptions C06_lfsr_distinct.

(** ... and every non-zero 64-bit value is produced. *)
Theorem C06_lfsr_covers : forall seed v, seed mod 2 ^ 64 <> 0 -> 0 < v < 2 ^ 64 ->
  exists n, Z.of_nat n < 2 ^ 64 - 1 /\ lfsr_rand seed n = v.
Proof. exact rand_covers. Qed.
Print Assumptions C06_lfsr_covers.

Example C06_example : 1 mod 2 ^ 64 <> 0 /\ (2 ^ 64 + 5) mod 2 ^ 64 <> 0 /\ 0 < 12345 < 2 ^ 64.
Proof. repeat split; vm_compute; discriminate || reflexivity. Qed.
