(** Every PLRU whose number of ways is not a power of two can return a way that does not exist. *)
From Coq Require Import ZArith List Bool Lia Permutation Arith.
From Verif Require Import Plru_Model Plru_Spec Plru_Proofs.
Import ListNotations.
Open Scope Z_scope.

Fixpoint spine (t : tr) (i : nat) : bool :=
  match t, i with
  | TN b _ _, O => b
  | TN _ _ r, S j => spine r j
  | TL, _ => false
  end.

Definition mpath (L j : nat) : list bool := repeat true j ++ repeat false (L - j).

Lemma spine_upd L : forall t j i, perfect L t -> (j < L)%nat -> (i < L)%nat ->
  spine (tupd t (mpath L j)) i = if (i <? j)%nat then false else if (i =? j)%nat then true else spine t i.
Proof.
  induction L as [|L IH]; intros [|b l r] j i; cbn [perfect]; try tauto; try lia.
  intros [Hl Hr] Hj Hi. unfold mpath.
  destruct j as [|j].
  - cbn [repeat app Nat.sub tupd]. destruct i as [|i]; reflexivity.
  - cbn [repeat app Nat.sub tupd]. destruct i as [|i]; [reflexivity|].
    cbn [spine]. change (repeat true j ++ repeat false (L - j)) with (mpath L j).
    rewrite IH by (auto; lia). reflexivity.
Qed.

Definition mway (L j : nat) : Z := 2 ^ Z.of_nat L - 2 ^ Z.of_nat (L - j).

Lemma pval_repeat_true j : forall pos, pval pos (repeat true j) = (pos + 1) * 2 ^ Z.of_nat j - 1.
Proof.
  induction j as [|j IH]; intros pos; cbn [repeat pval].
  - cbn. lia.
  - rewrite IH, Nat2Z.inj_succ, Z.pow_succ_r by lia. cbn [Z.b2z]. lia.
Qed.

Lemma pval_repeat_false j : forall pos, pval pos (repeat false j) = pos * 2 ^ Z.of_nat j.
Proof.
  induction j as [|j IH]; intros pos; cbn [repeat pval].
  - cbn. lia.
  - rewrite IH, Nat2Z.inj_succ, Z.pow_succ_r by lia. cbn [Z.b2z]. lia.
Qed.

Lemma pval_app a b : forall pos, pval pos (a ++ b) = pval (pval pos a) b.
Proof. induction a as [|x a IH]; intros; cbn; auto. Qed.

Lemma mway_path L j : (j <= L)%nat -> wbits L (mway L j) = mpath L j.
Proof.
  intros Hj. assert (length (mpath L j) = L) as HL.
  { unfold mpath. rewrite app_length, !repeat_length. lia. }
  rewrite <- (wbits_pval (mpath L j)), HL. f_equal.
  unfold mway, mpath. rewrite pval_app, pval_repeat_true, pval_repeat_false.
  replace (Z.of_nat L) with (Z.of_nat j + Z.of_nat (L - j)) by lia.
  rewrite Z.pow_add_r by lia. lia.
Qed.

(** accesses m_J, m_{J-1}, ..., m_0 *)
Fixpoint attack (L J : nat) : list Z :=
  match J with O => [mway L 0] | S J' => mway L J :: attack L J' end.

Lemma attack_spine L : forall J p p', wfp p -> layers p = L -> (J < L)%nat ->
  after_updates p (attack L J) = Some p' ->
  forall i, (i < L)%nat -> spine (ptree p') i = if (i <=? J)%nat then true else spine (ptree p) i.
Proof.
  induction J as [|J IH]; intros p p' W HL HJ H i Hi; cbn [attack after_updates] in H.
  - destruct (update_ok p (mway L 0) W) as (p1 & E & W1 & L1 & _ & T1). rewrite E in H. injection H as <-.
    rewrite T1, HL, mway_path by lia.
    rewrite spine_upd by (try lia; rewrite <- HL; apply ptree_perfect).
    destruct i; reflexivity.
  - destruct (update_ok p (mway L (S J)) W) as (p1 & E & W1 & L1 & _ & T1). rewrite E in H.
    rewrite (IH p1 p' W1) by (auto; try lia; congruence).
    rewrite T1, HL, mway_path by lia.
    rewrite spine_upd by (try lia; rewrite <- HL; apply ptree_perfect).
    destruct (Nat.leb_spec i J), (Nat.leb_spec i (S J)), (Nat.ltb_spec i (S J)), (Nat.eqb_spec i (S J)); try lia; reflexivity.
Qed.

Lemma spine_get L : forall t J, perfect L t -> (J < L)%nat -> (forall i, (i <= J)%nat -> spine t i = true) ->
  exists rest, tget t = repeat true (S J) ++ rest.
Proof.
  induction L as [|L IH]; intros [|b l r] J; cbn [perfect]; try tauto; try lia.
  intros [Hl Hr] HJ H.
  pose proof (H 0%nat ltac:(lia)) as H0. cbn in H0. subst b. cbn [tget].
  destruct J as [|J]; [cbn; eauto|].
  destruct (IH r J Hr ltac:(lia)) as [rest E].
  { intros i Hi. apply (H (S i)). lia. }
  rewrite E. exists rest. reflexivity.
Qed.

Lemma max_below (P : nat -> Prop) (dec : forall j, {P j} + {~ P j}) : forall N, P 0%nat ->
  (0 < N)%nat -> exists J, (J < N)%nat /\ P J /\ ((S J < N)%nat -> ~ P (S J)).
Proof.
  intros N H0. induction N as [|N IH]; intros HN; [lia|].
  destruct N as [|N].
  - exists 0%nat. repeat split; auto; lia.
  - destruct (IH ltac:(lia)) as (J & HJ & PJ & NJ).
    destruct (Nat.eq_dec (S J) (S N)) as [E|E].
    + destruct (dec (S N)) as [D|D].
      * exists (S N). repeat split; auto; lia.
      * exists J. repeat split; auto; try lia. intros _. rewrite E. exact D.
    + exists J. repeat split; auto; try lia. intros _. apply NJ. lia.
Qed.

Lemma mway_mono L i j : (i <= j)%nat -> (j <= L)%nat -> mway L i <= mway L j.
Proof.
  intros H1 H2. unfold mway.
  assert (2 ^ Z.of_nat (L - j) <= 2 ^ Z.of_nat (L - i)) by (apply Z.pow_le_mono_r; lia). lia.
Qed.

Lemma non_pow2_bad_victim n : 0 < n -> (forall k, n <> 2 ^ Z.of_nat k) ->
  exists h p v, Forall (fun w => 0 <= w < n) h /\ reached n h p /\ plru_get p = Some v /\ n <= v.
Proof.
  intros Hn Hnp.
  assert (1 < n) as Hn1 by (specialize (Hnp 0%nat); cbn in Hnp; lia).
  set (L := Z.to_nat (Z.log2_up n)).
  pose proof (Z.log2_up_spec n Hn1) as [Hlo Hhi].
  assert (Z.of_nat L = Z.log2_up n) as HLz by (unfold L; rewrite Z2Nat.id; auto using Z.log2_up_nonneg).
  rewrite <- HLz in Hhi.
  assert (0 < L)%nat as HL0.
  { pose proof (Z.log2_up_pos n Hn1). lia. }
  assert (n < 2 ^ Z.of_nat L) as Hlt by (pose proof (Hnp L); lia).
  destruct (max_below (fun j => mway L j < n) (fun j => Z_lt_dec _ _) L) as (J & HJ & HmJ & HnJ); [|exact HL0|].
  { unfold mway. rewrite Nat.sub_0_r. lia. }
  destruct (reached_exists n (attack L J) Hn) as [p R].
  destruct R as (p0 & Hi & Ha). destruct (wf_init _ _ Hi) as (W0 & L0 & _ & _). fold L in L0.
  assert (reached n (attack L J) p) as R by (exists p0; auto).
  destruct (reached_wf _ _ _ R) as (W & Lp & _). fold L in Lp.
  exists (attack L J), p, (pval 0 (tget (ptree p))).
  split; [|split; [exact R|split; [apply get_ok; exact W|]]].
  - clear - HJ HmJ. assert (forall j, (j <= J)%nat -> 0 <= mway L j < n) as Hall.
    { intros j Hj. pose proof (mway_mono L j J Hj ltac:(lia)). unfold mway at 1.
      assert (2 ^ Z.of_nat (L - j) <= 2 ^ Z.of_nat L) by (apply Z.pow_le_mono_r; lia). lia. }
    clear HmJ HJ. induction J as [|J IH]; cbn [attack]; constructor; auto.
  - destruct (spine_get L (ptree p) J) as [rest Hrest].
    + rewrite <- Lp. apply ptree_perfect.
    + exact HJ.
    + intros i Hij. rewrite (attack_spine L J p0 p W0 L0 HJ Ha) by lia.
      destruct (Nat.leb_spec i J); [reflexivity|lia].
    + rewrite Hrest, pval_app, pval_repeat_true.
      assert (length (tget (ptree p)) = L) as Hlen by (rewrite (tget_length (layers p)); [exact Lp|apply ptree_perfect]).
      rewrite Hrest, app_length, repeat_length in Hlen.
      pose proof (pval_range rest ((0 + 1) * 2 ^ Z.of_nat (S J) - 1)) as Hr.
      assert (0 < 2 ^ Z.of_nat (S J)) by (apply Z.pow_pos_nonneg; lia).
      specialize (Hr ltac:(lia)).
      replace (length rest) with (L - S J)%nat in Hr by lia.
      assert (2 ^ Z.of_nat (S J) * 2 ^ Z.of_nat (L - S J) = 2 ^ Z.of_nat L) as Hpow.
      { rewrite <- Z.pow_add_r by lia. f_equal. lia. }
      destruct (Nat.eq_dec (S J) L) as [E|E].
      * rewrite E, Nat.sub_diag in *. cbn [Z.of_nat Z.pow] in *. nia.
      * specialize (HnJ ltac:(lia)). unfold mway in HnJ. nia.
Qed.
