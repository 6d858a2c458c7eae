(** Lemmas about the PLRU model. *)
From Coq Require Import ZArith List Bool Lia Permutation Arith.
From Verif Require Import Plru_Model Plru_Spec.
Import ListNotations.
Open Scope Z_scope.

(** ** List access *)
Lemma pl_set_some {A} (l : list A) i v : (i < length l)%nat -> exists l', pl_set l i v = Some l'.
Proof.
  revert i; induction l as [|x l IH]; intros i Hi; cbn in Hi; [lia|].
  destruct i as [|i]; cbn; [eauto|].
  destruct (IH i) as [l' Hl']; [lia|]. rewrite Hl'; eauto.
Qed.

Lemma pl_set_spec {A} (l : list A) i v l' :
  pl_set l i v = Some l' ->
  length l' = length l /\ nth_error l' i = Some v /\
  (forall j, j <> i -> nth_error l' j = nth_error l j).
Proof.
  revert i l'; induction l as [|x l IH]; intros i l' H; cbn in H; [discriminate|].
  destruct i as [|i].
  - injection H as <-. split; [reflexivity|]. split; [reflexivity|].
    intros j Hj. destruct j; [congruence|reflexivity].
  - destruct (pl_set l i v) as [t|] eqn:E; [|discriminate]. injection H as <-.
    destruct (IH i t E) as (H1 & H2 & H3). split; [cbn; lia|]. split; [exact H2|].
    intros j Hj. destruct j as [|j]; [reflexivity|]. cbn. apply H3. lia.
Qed.

(** ** Well-formed bit arrays *)
Definition wfb (L : nat) (b : list (list Z)) : Prop :=
  forall i, (i < L)%nat ->
    exists row, nth_error b i = Some row /\ length row = Nat.pow 2 i /\
                (forall x, In x row -> x = 0 \/ x = 1).

Definition bitf (b : list (list Z)) (i pos : nat) : bool :=
  match pl_get_bit b i pos with Some v => negb (v =? 0) | None => false end.

Lemma wfb_get L b i pos : wfb L b -> (i < L)%nat -> (pos < Nat.pow 2 i)%nat ->
  pl_get_bit b i pos = Some (Z.b2z (bitf b i pos)).
Proof.
  intros W Hi Hp. destruct (W i Hi) as (row & Hr & Hl & Hv).
  unfold bitf, pl_get_bit. rewrite Hr.
  destruct (nth_error row pos) as [v|] eqn:E.
  - destruct (Hv v (nth_error_In _ _ E)) as [->| ->]; reflexivity.
  - apply nth_error_None in E. lia.
Qed.

Lemma wfb_set L b i pos (v : bool) : wfb L b -> (i < L)%nat -> (pos < Nat.pow 2 i)%nat ->
  exists b', pl_set_bit b i pos (Z.b2z v) = Some b' /\ wfb L b' /\ bitf b' i pos = v /\
    (forall i' pos', (i' <> i \/ pos' <> pos) -> bitf b' i' pos' = bitf b i' pos').
Proof.
  intros W Hi Hp. destruct (W i Hi) as (row & Hr & Hl & Hv).
  unfold pl_set_bit. rewrite Hr.
  destruct (pl_set_some row pos (Z.b2z v)) as [row' Hrow']; [lia|]. rewrite Hrow'.
  destruct (pl_set_some b i row') as [b' Hb'].
  { apply nth_error_Some. rewrite Hr. discriminate. }
  exists b'. split; [exact Hb'|].
  destruct (pl_set_spec _ _ _ _ Hrow') as (R1 & R2 & R3).
  destruct (pl_set_spec _ _ _ _ Hb') as (B1 & B2 & B3).
  split; [|split].
  - intros j Hj. destruct (Nat.eq_dec j i) as [->|Hne].
    + exists row'. split; [exact B2|]. split; [lia|].
      intros x Hx. destruct (In_nth_error _ _ Hx) as [k Hk].
      destruct (Nat.eq_dec k pos) as [->|Hk'].
      * rewrite R2 in Hk. injection Hk as <-. destruct v; cbn; auto.
      * rewrite R3 in Hk by exact Hk'. apply Hv. eapply nth_error_In; eauto.
    + destruct (W j Hj) as (r & Q1 & Q2 & Q3). exists r. rewrite B3 by exact Hne. auto.
  - unfold bitf, pl_get_bit. rewrite B2, R2. destruct v; reflexivity.
  - intros i' pos' Hne. unfold bitf, pl_get_bit.
    destruct (Nat.eq_dec i' i) as [->|Hi'].
    + rewrite B2, Hr. rewrite R3 by (destruct Hne; congruence). reflexivity.
    + rewrite B3 by exact Hi'. reflexivity.
Qed.

(** ** Trees *)
Inductive tr := TL | TN (b : bool) (l r : tr).

Fixpoint perfect (k : nat) (t : tr) : Prop :=
  match k, t with
  | O, TL => True
  | S k', TN _ l r => perfect k' l /\ perfect k' r
  | _, _ => False
  end.

Fixpoint tget (t : tr) : list bool :=
  match t with
  | TL => []
  | TN b l r => b :: tget (if b then r else l)
  end.

Fixpoint tupd (t : tr) (w : list bool) : tr :=
  match t, w with
  | TN b l r, d :: ds =>
      TN (negb d) (if d then l else tupd l ds) (if d then tupd r ds else r)
  | _, _ => t
  end.

Fixpoint abs (n i pos : nat) (b : list (list Z)) : tr :=
  match n with
  | O => TL
  | S n' => TN (bitf b i pos) (abs n' (S i) (pos * 2) b) (abs n' (S i) (pos * 2 + 1) b)
  end.

Lemma abs_perfect n i pos b : perfect n (abs n i pos b).
Proof. revert i pos; induction n as [|n IH]; intros; cbn; auto. Qed.

Lemma abs_ext n i pos b b' :
  (forall j q, (q < Nat.pow 2 j)%nat -> bitf b' (i + j) (pos * Nat.pow 2 j + q) = bitf b (i + j) (pos * Nat.pow 2 j + q)) ->
  abs n i pos b' = abs n i pos b.
Proof.
  revert i pos; induction n as [|n IH]; intros i pos H; cbn [abs]; [reflexivity|].
  f_equal.
  - specialize (H 0%nat 0%nat). cbn in H. rewrite !Nat.add_0_r, !Nat.mul_1_r in H. apply H. lia.
  - apply IH. intros j q Hq. specialize (H (S j) q).
    rewrite Nat.pow_succ_r' in H.
    replace (i + S j)%nat with (S i + j)%nat in H by lia.
    replace (pos * (2 * 2 ^ j) + q)%nat with (pos * 2 * 2 ^ j + q)%nat in H by lia.
    apply H. lia.
  - apply IH. intros j q Hq. specialize (H (S j) (Nat.pow 2 j + q)%nat).
    rewrite Nat.pow_succ_r' in H.
    replace (i + S j)%nat with (S i + j)%nat in H by lia.
    replace (pos * (2 * 2 ^ j) + (2 ^ j + q))%nat with ((pos * 2 + 1) * 2 ^ j + q)%nat in H by lia.
    apply H. lia.
Qed.

(** value of a path, continuing from a position *)
Fixpoint pval (pos : Z) (w : list bool) : Z :=
  match w with [] => pos | d :: ds => pval (pos * 2 + Z.b2z d) ds end.

Lemma get_loop_abs L b : wfb L b -> forall n i pos, (i + n <= L)%nat -> (pos < Nat.pow 2 i)%nat ->
  plru_get_loop n i (Z.of_nat pos) b = Some (pval (Z.of_nat pos) (tget (abs n i pos b))).
Proof.
  intros W. induction n as [|n IH]; intros i pos Hi Hp; cbn [plru_get_loop abs tget pval]; [reflexivity|].
  rewrite Nat2Z.id, (wfb_get L b i pos W) by lia.
  replace (Z.of_nat pos * 2 + Z.b2z (bitf b i pos))
    with (Z.of_nat (pos * 2 + if bitf b i pos then 1 else 0)) by (destruct (bitf b i pos); cbn [Z.b2z]; lia).
  rewrite IH; [|lia|].
  - destruct (bitf b i pos); [reflexivity|]. rewrite Nat.add_0_r. reflexivity.
  - rewrite Nat.pow_succ_r'. destruct (bitf b i pos); lia.
Qed.

(** top-down bits of a way in an n-layer tree *)
Fixpoint wbits (n : nat) (w : Z) : list bool :=
  match n with O => [] | S n' => Z.testbit w (Z.of_nat n') :: wbits n' w end.

Lemma land_shift_testbit w k : 0 <= k ->
  (if Z.land w (Z.shiftl 1 k) =? 0 then 1 else 0) = Z.b2z (negb (Z.testbit w k)).
Proof.
  intros Hk. rewrite Z.shiftl_1_l.
  destruct (Z.testbit w k) eqn:E.
  - destruct (Z.eqb_spec (Z.land w (2 ^ k)) 0) as [H|H]; [|reflexivity].
    exfalso. assert (Z.testbit (Z.land w (2^k)) k = true) as Q.
    { rewrite Z.land_spec, E, Z.pow2_bits_true by lia. reflexivity. }
    rewrite H, Z.bits_0 in Q. discriminate.
  - destruct (Z.eqb_spec (Z.land w (2 ^ k)) 0) as [H|H]; [reflexivity|].
    exfalso; apply H. apply Z.bits_inj'. intros m Hm. rewrite Z.land_spec, Z.bits_0.
    destruct (Z.eq_dec m k) as [->|Hne]; [rewrite E; reflexivity|].
    rewrite Z.pow2_bits_false by lia. apply andb_false_r.
Qed.

Lemma update_loop_abs L w : forall n i pos b, wfb L b -> (i + n = L)%nat -> (pos < Nat.pow 2 i)%nat ->
  exists b', plru_update_loop L w n i pos b = Some b' /\ wfb L b' /\
    abs n i pos b' = tupd (abs n i pos b) (wbits n w) /\
    (forall i' pos', (forall j q, (q < Nat.pow 2 j)%nat -> i' <> (i + j)%nat \/ pos' <> (pos * Nat.pow 2 j + q)%nat) ->
        bitf b' i' pos' = bitf b i' pos').
Proof.
  induction n as [|n IH]; intros i pos b W Hi Hp; cbn [plru_update_loop].
  - exists b. repeat split; auto.
  - rewrite land_shift_testbit by lia.
    replace (L - i - 1)%nat with n by lia.
    set (d := Z.testbit w (Z.of_nat n)).
    destruct (wfb_set L b i pos (negb d) W) as (b1 & E1 & W1 & S1 & F1); [lia|lia|].
    rewrite E1. rewrite (wfb_get L b1 i pos W1) by lia. rewrite S1.
    destruct (IH (S i) (pos * 2 + (if (Z.b2z (negb d) =? 0)%Z then 1 else 0))%nat b1 W1) as (b2 & E2 & W2 & A2 & F2);
      [lia| rewrite Nat.pow_succ_r'; destruct d; cbn; lia|].
    exists b2. split; [exact E2|]. split; [exact W2|].
    assert (bitf b2 i pos = negb d) as B2.
    { rewrite F2; [exact S1|]. intros j q Hq. left. lia. }
    assert (forall p, abs n (S i) p b1 = abs n (S i) p b) as HA1.
    { intros p. apply abs_ext. intros j q Hq. apply F1. left. lia. }
    split.
    + cbn [abs wbits tupd]. fold d. rewrite B2.
      destruct d; cbn [negb Z.b2z Z.eqb] in *.
      * f_equal.
        -- rewrite <- HA1. apply abs_ext. intros j q Hq. apply F2. intros j' q' Hq'.
           destruct (Nat.eq_dec j j') as [<-|Hne]; [right|left; lia]. nia.
        -- rewrite A2. f_equal. apply HA1.
      * rewrite Nat.add_0_r in *. f_equal.
        -- rewrite A2. f_equal. apply HA1.
        -- rewrite <- HA1. apply abs_ext. intros j q Hq. apply F2. intros j' q' Hq'.
           destruct (Nat.eq_dec j j') as [<-|Hne]; [right|left; lia]. nia.
    + intros i' pos' H. rewrite F2.
      * apply F1. specialize (H 0%nat 0%nat). cbn in H. lia.
      * intros j q Hq.
        set (e := (if (Z.b2z (negb d) =? 0)%Z then 1 else 0)%nat).
        assert (e <= 1)%nat by (subst e; destruct d; cbn; lia).
        specialize (H (S j) (e * Nat.pow 2 j + q)%nat). rewrite Nat.pow_succ_r' in H.
        destruct H as [H|H]; [nia|left; lia|right; nia].
Qed.

(** ** Objects *)
Definition wfp (p : plru) : Prop := wfb (layers p) (bits p).
Definition ptree (p : plru) : tr := abs (layers p) 0 0 (bits p).

Lemma wf_init n p : plru_init n = Some p -> wfp p /\ layers p = Z.to_nat (Z.log2_up n) /\ ways_num p = n /\ 0 < n.
Proof.
  unfold plru_init. destruct (Z.leb_spec n 0); [discriminate|]. intros E; injection E as <-.
  cbn. repeat split; auto. intros i Hi. cbn in Hi.
  exists (repeat 0 (Nat.pow 2 i)). split; [|split].
  - cbn [bits]. rewrite nth_error_map.
    replace (nth_error (seq 0 (Z.to_nat (Z.log2_up n))) i) with (Some i); [reflexivity|].
    symmetry. rewrite (nth_error_nth' _ 0%nat) by (rewrite seq_length; exact Hi).
    rewrite seq_nth by exact Hi. reflexivity.
  - apply repeat_length.
  - intros x Hx. apply repeat_spec in Hx. auto.
Qed.

Lemma update_ok p w : wfp p -> exists p', plru_update p w = Some p' /\ wfp p' /\
  layers p' = layers p /\ ways_num p' = ways_num p /\ ptree p' = tupd (ptree p) (wbits (layers p) w).
Proof.
  intros W. unfold plru_update.
  destruct (update_loop_abs (layers p) w (layers p) 0 0 (bits p) W) as (b' & E & W' & A & _); [lia|cbn; lia|].
  rewrite E. eexists. split; [reflexivity|]. cbn. auto.
Qed.

Lemma get_ok p : wfp p -> plru_get p = Some (pval 0 (tget (ptree p))).
Proof.
  intros W. unfold plru_get, ptree. apply (get_loop_abs (layers p) (bits p) W (layers p) 0 0%nat); cbn; lia.
Qed.

Lemma ptree_perfect p : perfect (layers p) (ptree p).
Proof. apply abs_perfect. Qed.

Lemma tget_length k t : perfect k t -> length (tget t) = k.
Proof.
  revert t; induction k as [|k IH]; intros [|b l r]; cbn; try tauto.
  intros [Hl Hr]. f_equal. destruct b; auto.
Qed.

Lemma pval_range w : forall pos, 0 <= pos -> pos * 2 ^ Z.of_nat (length w) <= pval pos w < (pos + 1) * 2 ^ Z.of_nat (length w).
Proof.
  induction w as [|d w IH]; intros pos Hp.
  - cbn. lia.
  - cbn [pval length]. specialize (IH (pos * 2 + Z.b2z d)).
    rewrite Nat2Z.inj_succ, Z.pow_succ_r by lia.
    assert (0 <= Z.b2z d <= 1) by (destruct d; cbn; lia).
    specialize (IH ltac:(lia)). nia.
Qed.

Lemma after_updates_ok ws : forall p, wfp p -> exists p', after_updates p ws = Some p' /\ wfp p' /\
   layers p' = layers p /\ ways_num p' = ways_num p.
Proof.
  induction ws as [|w ws IH]; intros p W; cbn [after_updates].
  - eauto.
  - destruct (update_ok p w W) as (p1 & E & W1 & L1 & N1 & _). rewrite E.
    destruct (IH p1 W1) as (p2 & E2 & W2 & L2 & N2). exists p2. repeat split; auto; congruence.
Qed.

Lemma reached_wf n h p : reached n h p -> wfp p /\ layers p = Z.to_nat (Z.log2_up n) /\ ways_num p = n /\ 0 < n.
Proof.
  intros (p0 & Hi & Ha). destruct (wf_init _ _ Hi) as (W & L0 & N0 & Hn).
  destruct (after_updates_ok h p0 W) as (p' & E & W' & L' & N').
  rewrite Ha in E. injection E as <-. repeat split; auto; congruence.
Qed.

Lemma pow2_layers k : Z.to_nat (Z.log2_up (2 ^ Z.of_nat k)) = k.
Proof. rewrite Z.log2_up_pow2 by lia. apply Nat2Z.id. Qed.

Lemma reached_exists n h : 0 < n -> exists p, reached n h p.
Proof.
  intros Hn. unfold reached. unfold plru_init at 1.
  assert (exists p0, plru_init n = Some p0) as [p0 H0].
  { unfold plru_init. destruct (Z.leb_spec n 0); [lia|]. eauto. }
  destruct (wf_init _ _ H0) as (W & _).
  destruct (after_updates_ok h p0 W) as (p & E & _). exists p. exists p0.
  unfold plru_init in H0. auto.
Qed.

(** C02 positive part *)
Lemma victim_in_tree n h p : reached n h p ->
  exists v, plru_get p = Some v /\ 0 <= v < 2 ^ Z.log2_up n.
Proof.
  intros R. destruct (reached_wf _ _ _ R) as (W & L & N & Hn).
  exists (pval 0 (tget (ptree p))). split; [apply get_ok; exact W|].
  pose proof (pval_range (tget (ptree p)) 0 ltac:(lia)) as H.
  rewrite (tget_length (layers p)) in H by apply ptree_perfect.
  rewrite L, Z2Nat.id in H by apply Z.log2_up_nonneg. lia.
Qed.

Lemma victim_range_pow2 k h p : reached (2 ^ Z.of_nat k) h p ->
  exists v, plru_get p = Some v /\ 0 <= v < 2 ^ Z.of_nat k.
Proof.
  intros R. destruct (victim_in_tree _ _ _ R) as (v & E & H).
  rewrite Z.log2_up_pow2 in H by lia. eauto.
Qed.

(** ** Paths and values *)
Lemma wbits_length n w : length (wbits n w) = n.
Proof. induction n; cbn; auto. Qed.

Lemma pval_wbits n w : forall pos, pval pos (wbits n w) = pos * 2 ^ Z.of_nat n + w mod 2 ^ Z.of_nat n.
Proof.
  induction n as [|n IH]; intros pos.
  - cbn. rewrite Z.mod_1_r. lia.
  - cbn [wbits pval]. rewrite IH, Nat2Z.inj_succ, Z.pow_succ_r by lia.
    assert (w mod (2 * 2 ^ Z.of_nat n) = Z.b2z (Z.testbit w (Z.of_nat n)) * 2 ^ Z.of_nat n + w mod 2 ^ Z.of_nat n) as ->; [|lia].
    rewrite (Z.mul_comm 2), Z.rem_mul_r by (try apply Z.pow_nonzero; lia).
    rewrite Z.testbit_spec' by lia. lia.
Qed.

Lemma pval_inj w : forall w' pos, length w = length w' -> pval pos w = pval pos w' -> w = w'.
Proof.
  induction w as [|d w IH]; intros [|d' w'] pos Hl H; cbn in Hl; try lia; [reflexivity|].
  cbn [pval] in H.
  assert (forall v p, p * 2 ^ Z.of_nat (length v) <= pval p v < (p + 1) * 2 ^ Z.of_nat (length v)) as R.
  { clear. induction v as [|d v IH]; intros p; [cbn; lia|]. cbn [pval length].
    specialize (IH (p * 2 + Z.b2z d)). rewrite Nat2Z.inj_succ, Z.pow_succ_r by lia.
    assert (0 <= Z.b2z d <= 1) by (destruct d; cbn; lia). nia. }
  assert (d = d') as <-.
  { pose proof (R w (pos * 2 + Z.b2z d)). pose proof (R w' (pos * 2 + Z.b2z d')).
    replace (length w') with (length w) in * by lia.
    assert (0 < 2 ^ Z.of_nat (length w)) by (apply Z.pow_pos_nonneg; lia).
    destruct d, d'; cbn [Z.b2z] in *; try reflexivity; nia. }
  f_equal. eapply IH; eauto.
Qed.

Lemma wbits_pval w : wbits (length w) (pval 0 w) = w.
Proof.
  apply (pval_inj _ _ 0); [apply wbits_length|].
  rewrite pval_wbits, Z.mod_small; [lia|].
  pose proof (pval_range w 0 ltac:(lia)). lia.
Qed.

(** ** C03 / C64: protection *)
Fixpoint npoint (t : tr) (w : list bool) : nat :=
  match t, w with
  | TN b l r, d :: ds => (if Bool.eqb b d then 1 else 0) + npoint (if d then r else l) ds
  | _, _ => 0
  end.

Lemma npoint_get k t : perfect k t -> npoint t (tget t) = k.
Proof.
  revert t; induction k as [|k IH]; intros [|b l r]; cbn [perfect]; try tauto.
  intros [Hl Hr]. cbn [tget npoint]. rewrite eqb_reflx. destruct b; cbn; f_equal; auto.
Qed.

Lemma npoint_upd_self k t w : perfect k t -> length w = k -> npoint (tupd t w) w = 0%nat.
Proof.
  revert t w; induction k as [|k IH]; intros [|b l r] [|d w]; cbn [perfect length]; try tauto; try lia.
  intros [Hl Hr] Hk. cbn [tupd npoint]. destruct d; cbn; apply IH; auto; lia.
Qed.

Lemma npoint_upd_other k t w w' : perfect k t -> length w = k -> length w' = k ->
  (npoint (tupd t w') w <= S (npoint t w))%nat.
Proof.
  revert t w w'; induction k as [|k IH]; intros [|b l r] [|d w] [|d' w']; cbn [perfect length]; try tauto; try lia; try (intros; cbn in *; lia).
  intros [Hl Hr] Hk Hk'. cbn [tupd npoint].
  destruct d, d', b; cbn [negb Bool.eqb]; cbn;
    try (pose proof (IH r w w' Hr ltac:(lia) ltac:(lia)); lia);
    try (pose proof (IH l w w' Hl ltac:(lia) ltac:(lia)); lia); lia.
Qed.

Lemma tupd_perfect k t w : perfect k t -> perfect k (tupd t w).
Proof.
  revert t w; induction k as [|k IH]; intros [|b l r] [|d w]; cbn [perfect tupd]; try tauto.
  intros [Hl Hr]. destruct d; split; auto.
Qed.

Lemma npoint_run w k : length w = k -> forall ws p p', wfp p -> layers p = k ->
  after_updates p ws = Some p' -> (npoint (ptree p') w <= npoint (ptree p) w + length ws)%nat.
Proof.
  intros Hk. induction ws as [|w1 ws IH]; intros p p' W L H; cbn [after_updates] in H.
  - injection H as <-. lia.
  - destruct (update_ok p w1 W) as (p1 & E & W1 & L1 & _ & T1). rewrite E in H.
    specialize (IH p1 p' W1 ltac:(congruence) H).
    pose proof (npoint_upd_other k (ptree p) w (wbits (layers p) w1)) as Q.
    rewrite <- T1 in Q. specialize (Q ltac:(rewrite <- L; apply ptree_perfect) Hk ltac:(rewrite wbits_length; exact L)).
    cbn [length]. lia.
Qed.

Lemma protected_way k h w ws p : 0 <= w < 2 ^ Z.of_nat k -> (length ws < k)%nat ->
  reached (2 ^ Z.of_nat k) (h ++ w :: ws) p -> plru_get p <> Some w.
Proof.
  intros Hw Hlen (p0 & Hi & Ha) Hg.
  destruct (wf_init _ _ Hi) as (W0 & L0 & _ & _). rewrite pow2_layers in L0.
  assert (forall l1 l2 q, after_updates q (l1 ++ l2) = match after_updates q l1 with Some q' => after_updates q' l2 | None => None end) as Happ.
  { induction l1 as [|a l1 IHl]; intros l2 q; cbn; [reflexivity|]. destruct (plru_update q a); auto. }
  rewrite Happ in Ha.
  destruct (after_updates_ok h p0 W0) as (p1 & E1 & W1 & L1 & _). rewrite E1 in Ha.
  cbn [after_updates] in Ha.
  destruct (update_ok p1 w W1) as (p2 & E2 & W2 & L2 & _ & T2). rewrite E2 in Ha.
  destruct (after_updates_ok ws p2 W2) as (p3 & E3 & W3 & L3 & _). rewrite E3 in Ha. injection Ha as ->.
  set (wl := wbits k w).
  assert (length wl = k) as Hwl by apply wbits_length.
  assert (npoint (ptree p2) wl = 0%nat) as Z2.
  { rewrite T2. replace (layers p1) with k by congruence. apply (npoint_upd_self k).
    - replace k with (layers p1) at 1 by congruence. apply ptree_perfect.
    - exact Hwl. }
  pose proof (npoint_run wl k Hwl ws p2 p W2 ltac:(congruence) E3) as Hn.
  rewrite (get_ok p W3) in Hg. injection Hg as Hg.
  assert (perfect k (ptree p)) as Pf by (replace k with (layers p) by congruence; apply ptree_perfect).
  assert (tget (ptree p) = wl) as Hp.
  { apply (pval_inj _ _ 0).
    - rewrite (tget_length k) by exact Pf. congruence.
    - rewrite Hg. unfold wl. rewrite pval_wbits, Z.mod_small by lia. lia. }
  pose proof (npoint_get k _ Pf) as Hk. rewrite Hp in Hk. lia.
Qed.

Lemma other_half k h w p v : 0 <= w < 2 ^ Z.of_nat (S k) ->
  reached (2 ^ Z.of_nat (S k)) (h ++ [w]) p -> plru_get p = Some v ->
  v <> w /\ v / 2 ^ Z.of_nat k = 1 - w / 2 ^ Z.of_nat k.
Proof.
  intros Hw R Hg.
  split.
  { intros ->. eapply (protected_way (S k) h w [] p); eauto. cbn; lia. }
  destruct R as (p0 & Hi & Ha).
  destruct (wf_init _ _ Hi) as (W0 & L0 & _ & _). rewrite pow2_layers in L0.
  assert (forall l1 l2 q, after_updates q (l1 ++ l2) = match after_updates q l1 with Some q' => after_updates q' l2 | None => None end) as Happ.
  { induction l1 as [|a l1 IHl]; intros l2 q; cbn; [reflexivity|]. destruct (plru_update q a); auto. }
  rewrite Happ in Ha.
  destruct (after_updates_ok h p0 W0) as (p1 & E1 & W1 & L1 & _). rewrite E1 in Ha.
  cbn [after_updates] in Ha.
  destruct (update_ok p1 w W1) as (p2 & E2 & W2 & L2 & _ & T2). rewrite E2 in Ha. injection Ha as ->.
  rewrite (get_ok p W2) in Hg. injection Hg as Hg.
  replace (layers p1) with (S k) in T2 by congruence. cbn [wbits] in T2.
  unfold ptree at 2 in T2. replace (layers p1) with (S k) in T2 by congruence. cbn [abs tupd] in T2.
  set (d := Z.testbit w (Z.of_nat k)) in *.
  set (A := (if d then _ else _)) in T2 at 1. set (B := (if d then _ else _)) in T2.
  rewrite T2 in Hg. cbn [tget pval] in Hg.
  pose proof (pval_range (tget (if negb d then B else A)) (0 * 2 + Z.b2z (negb d)) ltac:(destruct d; cbn; lia)) as Hr.
  rewrite Hg in Hr.
  assert (perfect (S k) (ptree p)) as Pf by (replace (S k) with (layers p) by congruence; apply ptree_perfect).
  rewrite T2 in Pf. cbn [perfect] in Pf.
  rewrite (tget_length k) in Hr by (destruct d; cbn; tauto).
  assert (0 < 2 ^ Z.of_nat k) by (apply Z.pow_pos_nonneg; lia).
  assert (v / 2 ^ Z.of_nat k = Z.b2z (negb d)) as ->.
  { symmetry. apply Z.div_unique_pos with (r := v - Z.b2z (negb d) * 2 ^ Z.of_nat k); nia. }
  assert (w / 2 ^ Z.of_nat k = Z.b2z d) as ->.
  { unfold d. rewrite Z.testbit_spec' by lia.
    rewrite Nat2Z.inj_succ, Z.pow_succ_r in Hw by lia.
    rewrite Z.mod_small; [reflexivity|]. split; [apply Z.div_pos; lia|]. apply Z.div_lt_upper_bound; lia. }
  destruct d; reflexivity.
Qed.

(** ** C04: round robin over a full round *)
Fixpoint trun (m : nat) (t : tr) : list (list bool) * tr :=
  match m with
  | O => ([], t)
  | S m' => let w := tget t in let (ws, t') := trun m' (tupd t w) in (w :: ws, t')
  end.

Lemma trun_perfect k m : forall t, perfect k t -> perfect k (snd (trun m t)).
Proof.
  induction m as [|m IH]; intros t H; cbn [trun]; [exact H|].
  specialize (IH (tupd t (tget t)) (tupd_perfect k _ _ H)).
  destruct (trun m (tupd t (tget t))). exact IH.
Qed.

Lemma trun_node m : forall b l r,
  exists l' r', 
  Permutation (fst (trun (2 * m) (TN b l r)))
     (map (cons false) (fst (trun m l)) ++ map (cons true) (fst (trun m r)))
  /\ snd (trun (2 * m) (TN b l r)) = TN b l' r' .
Proof.
  induction m as [|m IH]; intros b l r; [cbn; eauto|].
  replace (2 * S m)%nat with (S (S (2 * m))) by lia.
  cbn [trun]. cbn [tget tupd].
  destruct b; cbn [negb tget tupd].
  - destruct (IH true (tupd l (tget l)) (tupd r (tget r))) as (l' & r' & P & S).
    destruct (trun (2 * m) (TN true (tupd l (tget l)) (tupd r (tget r)))) as [ws tf] eqn:E1.
    destruct (trun m (tupd l (tget l))) as [wl tl] eqn:E2.
    destruct (trun m (tupd r (tget r))) as [wr tr'] eqn:E3.
    cbn [fst snd map] in *. exists l', r'. split; [|exact S].
    rewrite P. cbn [app]. rewrite perm_swap. apply perm_skip.
    apply Permutation_middle.
  - destruct (IH false (tupd l (tget l)) (tupd r (tget r))) as (l' & r' & P & S).
    destruct (trun (2 * m) (TN false (tupd l (tget l)) (tupd r (tget r)))) as [ws tf] eqn:E1.
    destruct (trun m (tupd l (tget l))) as [wl tl] eqn:E2.
    destruct (trun m (tupd r (tget r))) as [wr tr'] eqn:E3.
    cbn [fst snd map] in *. exists l', r'. split; [|exact S].
    rewrite P. cbn [app]. apply perm_skip.
    apply Permutation_middle.
Qed.

Fixpoint all_paths (k : nat) : list (list bool) :=
  match k with O => [[]] | S k' => map (cons false) (all_paths k') ++ map (cons true) (all_paths k') end.

Lemma trun_all k : forall t, perfect k t -> Permutation (fst (trun (Nat.pow 2 k) t)) (all_paths k).
Proof.
  induction k as [|k IH]; intros [|b l r]; cbn [perfect]; try tauto.
  - intros _. cbn. apply Permutation_refl.
  - intros [Hl Hr]. rewrite Nat.pow_succ_r'.
    destruct (trun_node (Nat.pow 2 k) b l r) as (_ & _ & P & _).
    rewrite P. cbn [all_paths]. apply Permutation_app; apply Permutation_map; auto.
Qed.

Lemma evictions_trun m : forall p, wfp p -> exists pf,
  evictions m p = Some (map (pval 0) (fst (trun m (ptree p))), pf).
Proof.
  induction m as [|m IH]; intros p W; cbn [evictions trun]; [cbn; eauto|].
  rewrite (get_ok p W).
  destruct (update_ok p (pval 0 (tget (ptree p))) W) as (p1 & E & W1 & L1 & _ & T1). rewrite E.
  destruct (IH p1 W1) as (pf & Ef). rewrite Ef.
  assert (ptree p1 = tupd (ptree p) (tget (ptree p))) as T.
  { rewrite T1. f_equal.
    rewrite <- (tget_length (layers p) (ptree p)) at 1 by apply ptree_perfect. apply wbits_pval. }
  rewrite <- T. destruct (trun m (ptree p1)) as [ws t']. cbn. eauto.
Qed.

Lemma all_paths_val k : forall pos, map (pval (Z.of_nat pos)) (all_paths k) =
  map Z.of_nat (seq (pos * Nat.pow 2 k) (Nat.pow 2 k)).
Proof.
  induction k as [|k IH]; intros pos.
  - cbn. rewrite Nat.mul_1_r. reflexivity.
  - cbn [all_paths]. rewrite map_app, !map_map. cbn [pval].
    rewrite (map_ext (fun x => pval (Z.of_nat pos * 2 + Z.b2z false) x) (pval (Z.of_nat (pos * 2)))).
    2:{ intros a. f_equal. cbn. lia. }
    rewrite (map_ext (fun x => pval (Z.of_nat pos * 2 + Z.b2z true) x) (pval (Z.of_nat (pos * 2 + 1)))).
    2:{ intros a. f_equal. cbn. lia. }
    rewrite !IH, <- map_app. f_equal.
    rewrite Nat.pow_succ_r'.
    replace (2 * 2 ^ k)%nat with (2 ^ k + 2 ^ k)%nat by lia.
    rewrite seq_app. f_equal; f_equal; lia.
Qed.

Lemma full_round k h p : reached (2 ^ Z.of_nat k) h p ->
  exists vs pf, evictions (Nat.pow 2 k) p = Some (vs, pf) /\ Permutation vs (all_ways (Nat.pow 2 k)).
Proof.
  intros R. destruct (reached_wf _ _ _ R) as (W & L & _). rewrite pow2_layers in L.
  destruct (evictions_trun (Nat.pow 2 k) p W) as (pf & E).
  eexists _, pf. split; [exact E|].
  assert (perfect k (ptree p)) as Pf by (rewrite <- L; apply ptree_perfect).
  rewrite (trun_all k _ Pf). change 0 with (Z.of_nat 0). rewrite (all_paths_val k 0%nat). cbn. apply Permutation_refl.
Qed.
