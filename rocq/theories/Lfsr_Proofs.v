(** Bit-level lemmas about the LFSR model. *)
From Coq Require Import ZArith List Bool Lia Btauto.
From Verif Require Import Lfsr_Model.
Import ListNotations.
Open Scope Z_scope.

Lemma get_bit_testbit s x : 0 <= x -> lfsr_get_bit s x = Z.b2z (Z.testbit s x).
Proof.
  intros Hx. unfold lfsr_get_bit. change 1 with (Z.ones 1).
  rewrite Z.land_ones, Z.testbit_spec', Z.shiftr_div_pow2 by lia. reflexivity.
Qed.

Lemma lxor_b2z a b : Z.lxor (Z.b2z a) (Z.b2z b) = Z.b2z (xorb a b).
Proof. destruct a, b; reflexivity. Qed.

Definition fb (s : Z) : bool :=
  xorb (xorb (xorb (Z.testbit s 0) (Z.testbit s 1)) (Z.testbit s 3)) (Z.testbit s 4).

Lemma step_unfold s : lfsr_step s = Z.lor (Z.shiftr s 1) (Z.shiftl (Z.b2z (fb s)) 63).
Proof. unfold lfsr_step. rewrite !get_bit_testbit, !lxor_b2z by lia. reflexivity. Qed.

Lemma init_mod seed : lfsr_init seed = seed mod 2 ^ 64.
Proof.
  unfold lfsr_init. change (Z.shiftl 1 64 - 1) with (Z.ones 64). apply Z.land_ones. lia.
Qed.

Lemma testbit_high s i : 0 <= s < 2 ^ 64 -> 64 <= i -> Z.testbit s i = false.
Proof.
  intros Hs Hi. destruct (Z.eq_dec s 0) as [->|Hne]; [apply Z.bits_0|].
  apply Z.bits_above_log2; [lia|]. enough (Z.log2 s < 64) by lia. apply Z.log2_lt_pow2; lia.
Qed.

Lemma step_bits s i : 0 <= s < 2 ^ 64 -> 0 <= i ->
  Z.testbit (lfsr_step s) i =
    if i =? 63 then fb s else Z.testbit s (i + 1).
Proof.
  intros Hs Hi. rewrite step_unfold, Z.lor_spec, Z.shiftr_spec by lia.
  destruct (Z.eqb_spec i 63) as [->|Hne].
  - rewrite (testbit_high s (63 + 1)) by lia. cbn [orb].
    rewrite Z.shiftl_spec by lia. destruct (fb s); reflexivity.
  - rewrite Z.shiftl_spec by lia.
    assert (Z.testbit (Z.b2z (fb s)) (i - 63) = false) as ->; [|apply orb_false_r].
    destruct (fb s); [|apply Z.bits_0].
    destruct (Z.ltb_spec i 63); [apply Z.testbit_neg_r; lia|].
    change (Z.b2z true) with (2 ^ 0). apply Z.pow2_bits_false. lia.
Qed.

Lemma step_range s : 0 <= s < 2 ^ 64 -> 0 <= lfsr_step s < 2 ^ 64.
Proof.
  intros Hs. rewrite step_unfold. 
  assert (0 <= Z.shiftr s 1 < 2 ^ 63).
  { rewrite Z.shiftr_div_pow2 by lia. change (2 ^ 1) with 2. split; [apply Z.div_pos; lia|].
    apply Z.div_lt_upper_bound; [lia|]. change (2 * 2 ^ 63) with (2 ^ 64). lia. }
  assert (0 <= Z.shiftl (Z.b2z (fb s)) 63) as H0.
  { apply Z.shiftl_nonneg. destruct (fb s); cbn; lia. }
  assert (Z.log2 (Z.lor (Z.shiftr s 1) (Z.shiftl (Z.b2z (fb s)) 63)) < 64) as Hlog.
  { rewrite Z.log2_lor by lia. apply Z.max_lub_lt.
    - destruct (Z.eq_dec (Z.shiftr s 1) 0) as [->|]; [cbn; lia|]. apply Z.log2_lt_pow2; lia.
    - destruct (fb s); cbn; lia. }
  assert (0 <= Z.lor (Z.shiftr s 1) (Z.shiftl (Z.b2z (fb s)) 63)) as Hnn by (apply Z.lor_nonneg; lia).
  split; [exact Hnn|].
  destruct (Z.eq_dec (Z.lor (Z.shiftr s 1) (Z.shiftl (Z.b2z (fb s)) 63)) 0) as [->|]; [lia|].
  apply Z.log2_lt_pow2; lia.
Qed.

Lemma bits_eq a b : 0 <= a < 2 ^ 64 -> 0 <= b < 2 ^ 64 ->
  (forall i, 0 <= i < 64 -> Z.testbit a i = Z.testbit b i) -> a = b.
Proof.
  intros Ha Hb H. apply Z.bits_inj'. intros n Hn.
  destruct (Z.ltb_spec n 64); [apply H; lia|]. rewrite !testbit_high by lia. reflexivity.
Qed.

Lemma step_inj a b : 0 <= a < 2 ^ 64 -> 0 <= b < 2 ^ 64 -> lfsr_step a = lfsr_step b -> a = b.
Proof.
  intros Ha Hb E.
  assert (forall i, 1 <= i < 64 -> Z.testbit a i = Z.testbit b i) as H1.
  { intros i Hi. pose proof (step_bits a (i - 1) Ha ltac:(lia)) as Qa.
    pose proof (step_bits b (i - 1) Hb ltac:(lia)) as Qb. rewrite E in Qa.
    destruct (Z.eqb_spec (i - 1) 63); [lia|]. replace (i - 1 + 1) with i in * by lia. congruence. }
  apply bits_eq; auto. intros i Hi.
  destruct (Z.eq_dec i 0) as [->|]; [|apply H1; lia].
  pose proof (step_bits a 63 Ha ltac:(lia)) as Qa. pose proof (step_bits b 63 Hb ltac:(lia)) as Qb.
  rewrite Z.eqb_refl in *. rewrite E, Qb in Qa. unfold fb in Qa.
  rewrite (H1 1), (H1 3), (H1 4) in Qa by lia.
  destruct (Z.testbit a 0), (Z.testbit b 0); try reflexivity; exfalso;
    destruct (Z.testbit b 1), (Z.testbit b 3), (Z.testbit b 4); discriminate.
Qed.

(** inverse step, only used to show surjectivity *)
Definition unstep (s : Z) : Z :=
  let b0 := xorb (xorb (xorb (Z.testbit s 63) (Z.testbit s 0)) (Z.testbit s 2)) (Z.testbit s 3) in
  (2 * (s mod 2 ^ 63)) + Z.b2z b0.

Lemma step_surj s : 0 <= s < 2 ^ 64 -> exists a, 0 <= a < 2 ^ 64 /\ lfsr_step a = s.
Proof.
  intros Hs. exists (unstep s).
  set (b0 := xorb (xorb (xorb (Z.testbit s 63) (Z.testbit s 0)) (Z.testbit s 2)) (Z.testbit s 3)).
  assert (0 <= s mod 2 ^ 63 < 2 ^ 63) as Hm by (apply Z.mod_pos_bound; lia).
  assert (0 <= unstep s < 2 ^ 64) as Hu.
  { unfold unstep. fold b0. change (2 ^ 64) with (2 * 2 ^ 63).
    assert (0 <= Z.b2z b0 <= 1) by (destruct b0; cbn; lia). lia. }
  split; [exact Hu|].
  assert (Z.testbit (unstep s) 0 = b0) as T0.
  { unfold unstep. fold b0. apply Z.testbit_0_r. }
  assert (forall i, 0 <= i < 63 -> Z.testbit (unstep s) (i + 1) = Z.testbit s i) as TS.
  { intros i Hi. unfold unstep. fold b0. replace (i + 1) with (Z.succ i) by lia.
    rewrite Z.testbit_succ_r by lia. apply Z.mod_pow2_bits_low. lia. }
  apply bits_eq; auto using step_range. intros i Hi.
  rewrite step_bits by (auto; lia).
  destruct (Z.eqb_spec i 63) as [->|Hne].
  - unfold fb. rewrite T0.
    pose proof (TS 0 ltac:(lia)) as Q0. pose proof (TS 2 ltac:(lia)) as Q2. pose proof (TS 3 ltac:(lia)) as Q3.
    change (0 + 1) with 1 in Q0. change (2 + 1) with 3 in Q2. change (3 + 1) with 4 in Q3.
    rewrite Q0, Q2, Q3. unfold b0.
    destruct (Z.testbit s 63), (Z.testbit s 0), (Z.testbit s 2), (Z.testbit s 3); reflexivity.
  - apply TS. lia.
Qed.

Lemma step_0 : lfsr_step 0 = 0.
Proof. reflexivity. Qed.

Lemma iter_range n s : 0 <= s < 2 ^ 64 -> 0 <= Nat.iter n lfsr_step s < 2 ^ 64.
Proof. intros Hs. induction n as [|n IH]; [exact Hs|]. apply step_range. exact IH. Qed.

Lemma init_range seed : 0 <= lfsr_init seed < 2 ^ 64.
Proof. rewrite init_mod. apply Z.mod_pos_bound. lia. Qed.

Lemma iter_0 n s : 0 <= s < 2 ^ 64 -> (Nat.iter n lfsr_step s = 0 <-> s = 0).
Proof.
  intros Hs. induction n as [|n IH]; [reflexivity|]. rewrite <- IH. cbn [Nat.iter nat_rect].
  change (nat_rect (fun _ : nat => Z) s (fun _ : nat => lfsr_step) n) with (Nat.iter n lfsr_step s).
  split.
  - intros H. apply step_inj; [apply iter_range; exact Hs| lia | rewrite step_0; exact H].
  - intros ->. apply step_0.
Qed.

Lemma rand_range seed n : 0 <= lfsr_rand seed n < 2 ^ 64.
Proof. apply iter_range, init_range. Qed.

Lemma rand_zero_iff seed n : lfsr_rand seed n = 0 <-> seed mod 2 ^ 64 = 0.
Proof. unfold lfsr_rand. rewrite iter_0 by apply init_range. rewrite init_mod. reflexivity. Qed.

Lemma rand_seed_mod s1 s2 n : s1 mod 2 ^ 64 = s2 mod 2 ^ 64 <-> lfsr_rand s1 n = lfsr_rand s2 n.
Proof.
  unfold lfsr_rand. rewrite !init_mod.
  assert (0 <= s1 mod 2 ^ 64 < 2 ^ 64) as H1 by (apply Z.mod_pos_bound; lia).
  assert (0 <= s2 mod 2 ^ 64 < 2 ^ 64) as H2 by (apply Z.mod_pos_bound; lia).
  revert H1 H2. generalize (s1 mod 2 ^ 64) (s2 mod 2 ^ 64). intros a b Ha Hb.
  split; [intros ->; reflexivity|].
  induction n as [|n IH]; [auto|]. intros H. apply IH.
  apply step_inj; auto using iter_range.
Qed.
