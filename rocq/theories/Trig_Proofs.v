(** Lemmas about the triggers. *)
From Coq Require Import List ZArith Bool Lia.
From Verif Require Import Py Trig_Model Trig_Spec.
Import ListNotations.

Lemma first_from_here lo (P : nat -> Prop) m : P lo -> (first_from lo P m <-> m = lo).
Proof.
  intros H. split.
  - intros (L & _ & N). destruct (Nat.eq_dec m lo) as [E|E]; [exact E|]. exfalso. apply (N lo); [lia|exact H].
  - intros ->. split; [lia|]. split; [exact H|]. intros k Hk. lia.
Qed.

Lemma first_from_next lo (P : nat -> Prop) m : ~ P lo -> (first_from lo P m <-> first_from (S lo) P m).
Proof.
  intros H. split.
  - intros (L & Hm & N). assert (m <> lo) by (intros ->; contradiction). split; [lia|]. split; [exact Hm|]. intros k Hk. apply N. lia.
  - intros (L & Hm & N). split; [lia|]. split; [exact Hm|]. intros k Hk. destruct (Nat.eq_dec k lo) as [->|]; [exact H|]. apply N. lia.
Qed.

Lemma first_from_unique lo P m1 m2 : first_from lo P m1 -> first_from lo P m2 -> m1 = m2.
Proof.
  intros (L1 & H1 & N1) (L2 & H2 & N2).
  destruct (lt_eq_lt_dec m1 m2) as [[H|H]|H]; [|exact H|]; exfalso; [apply (N2 m1)|apply (N1 m2)]; auto; lia.
Qed.

(** Generic loop: [tst n] decides whether to stop at [n] (and it may raise). *)
Fixpoint gloop (fuel : nat) (stop : nat -> bool) (n : nat) : option (res nat) :=
  if stop n then Some (Ok n) else match fuel with O => None | S f => gloop f stop (S n) end.

Lemma gloop_iff stop : forall n m, returns_after (fun f => gloop f stop n) m <-> first_from n (fun k => stop k = true) m.
Proof.
  unfold returns_after. intros n m. split.
  - intros [f H]. revert n H. induction f as [|f IH]; intros n H; cbn in H; destruct (stop n) eqn:E.
    + injection H as ->. apply first_from_here; auto.
    + discriminate.
    + injection H as ->. apply first_from_here; auto.
    + apply first_from_next; [congruence|]. apply IH. exact H.
  - intros H. destruct H as (L & Hm & N). exists (m - n)%nat.
    remember (m - n)%nat as d eqn:Ed. revert n L N Ed. induction d as [|d IH]; intros n L N Ed.
    + assert (m = n) by lia. subst m. cbn. rewrite Hm. reflexivity.
    + cbn. destruct (stop n) eqn:E.
      * exfalso. apply (N n); [lia|exact E].
      * apply IH; [lia| |lia]. intros k Hk. apply N. lia.
Qed.

Lemma gloop_forever stop n : (forall k, (n <= k)%nat -> stop k = false) -> waits_forever (fun f => gloop f stop n).
Proof.
  intros H f. revert n H. induction f as [|f IH]; intros n H; cbn; rewrite (H n) by lia; [reflexivity|].
  apply IH. intros k Hk. apply H. lia.
Qed.

Lemma gloop_mono stop : forall f n r, gloop f stop n = Some r -> exists m, r = Ok m.
Proof.
  induction f as [|f IH]; intros n r H; cbn in H; destruct (stop n); try discriminate; try (injection H as <-; eauto).
  eapply IH; eauto.
Qed.

Lemma value_gloop w v : forall f n, value_loop f w v n = gloop f (fun k => Z.eqb (w k) v) n.
Proof. induction f as [|f IH]; intros n; cbn; destruct (Z.eqb (w n) v); cbn; auto. Qed.

Lemma change_gloop w old : forall f n, change_loop f w old n = gloop f (fun k => negb (Z.eqb (w k) old)) n.
Proof. induction f as [|f IH]; intros n; cbn; destruct (Z.eqb (w n) old); cbn; auto. Qed.

Lemma allvalid_gloop p ws : forall f n, allvalid_loop f (p :: ws) n = gloop f (fun k => forallb (fun w => negb (Z.eqb (w k) 0)) (p :: ws)) n.
Proof.
  induction f as [|f IH]; intros n; cbn [allvalid_loop gloop]; destruct (forallb _ (p :: ws)); cbn [negb]; auto.
Qed.

Definition risen (w : nat -> Z) (n : nat) : bool :=
  match n with O => false | S k => Z.eqb (w k) 0 && negb (Z.eqb (w n) 0) end.
Definition fallen (w : nat -> Z) (n : nat) : bool :=
  match n with O => false | S k => negb (Z.eqb (w k) 0) && Z.eqb (w n) 0 end.

Lemma rising_gloop w : forall f n, rising_loop f w (w (Nat.pred n)) n = gloop f (risen w) n.
Proof.
  induction f as [|f IH]; intros n; cbn [rising_loop gloop].
  - destruct n as [|n]; cbn [Nat.pred risen]; [rewrite Z.eqb_refl, orb_true_r; reflexivity|].
    destruct (Z.eqb_spec (w n) 0) as [E|E]; cbn; [|reflexivity]. rewrite E. destruct (Z.eqb (w (S n)) 0); reflexivity.
  - specialize (IH (S n)). cbn [Nat.pred] in IH.
    destruct n as [|n]; cbn [Nat.pred risen]; [rewrite Z.eqb_refl, orb_true_r; exact IH|].
    destruct (Z.eqb_spec (w n) 0) as [E|E]; cbn; [|exact IH]. rewrite E. destruct (Z.eqb (w (S n)) 0); cbn; [exact IH|reflexivity].
Qed.

Lemma falling_gloop w : forall f n, falling_loop f w (w (Nat.pred n)) n = gloop f (fallen w) n.
Proof.
  induction f as [|f IH]; intros n; cbn [falling_loop gloop].
  - destruct n as [|n]; cbn [Nat.pred fallen]; [rewrite Z.eqb_refl, orb_true_r; reflexivity|].
    destruct (Z.eqb_spec (w (S n)) 0) as [E|E]; cbn [negb orb]; [|rewrite andb_false_r; reflexivity].
    rewrite E, andb_true_r, Z.eqb_sym. destruct (Z.eqb (w n) 0); reflexivity.
  - specialize (IH (S n)). cbn [Nat.pred] in IH.
    destruct n as [|n]; cbn [Nat.pred fallen]; [rewrite Z.eqb_refl, orb_true_r; exact IH|].
    destruct (Z.eqb_spec (w (S n)) 0) as [E|E]; cbn [negb orb]; [|rewrite andb_false_r; exact IH].
    rewrite E, andb_true_r, Z.eqb_sym. destruct (Z.eqb (w n) 0); cbn; [rewrite E in IH; exact IH|reflexivity].
Qed.

Lemma returns_ext t t' m : (forall f, t f = t' f) -> (returns_after t m <-> returns_after t' m).
Proof. intros H. unfold returns_after. split; intros [f E]; exists f; congruence. Qed.

Lemma first_ext lo (P Q : nat -> Prop) m : (forall k, P k <-> Q k) -> (first_from lo P m <-> first_from lo Q m).
Proof.
  intros H. unfold first_from. split; intros (A & B & C); split; auto; split; try (apply H; exact B);
    intros k Hk X; apply (C k Hk); apply H; exact X.
Qed.

Lemma value_iff w v delay m :
  returns_after (fun f => value_trig f w v delay) m <-> first_from (Z.to_nat delay) (fun k => w k = v) m.
Proof.
  unfold value_trig. rewrite (returns_ext _ _ m (fun f => value_gloop w v f _)), gloop_iff.
  apply first_ext. intros k. apply Z.eqb_eq.
Qed.

Lemma value_never w v delay : (forall k, (Z.to_nat delay <= k)%nat -> w k <> v) -> waits_forever (fun f => value_trig f w v delay).
Proof.
  intros H f. unfold value_trig. rewrite value_gloop. apply gloop_forever. intros k Hk. apply Z.eqb_neq. auto.
Qed.

Lemma value_only_returns w v delay f r : value_trig f w v delay = Some r -> exists m, r = Ok m.
Proof. unfold value_trig. rewrite value_gloop. apply gloop_mono. Qed.

Lemma allvalid_iff p ws delay m :
  returns_after (fun f => allvalid_trig f (p :: ws) delay) m <->
  first_from (Z.to_nat delay) (fun k => forall w, In w (p :: ws) -> w k <> 0%Z) m.
Proof.
  assert (forall f, allvalid_trig f (p :: ws) delay = allvalid_loop f (p :: ws) (Z.to_nat delay)) as E.
  { intros f. unfold allvalid_trig. destruct (Z.to_nat delay); reflexivity. }
  rewrite (returns_ext _ _ m E), (returns_ext _ _ m (fun f => allvalid_gloop p ws f _)), gloop_iff.
  apply first_ext. intros k. rewrite forallb_forall. split; intros H w Hw; specialize (H w Hw).
  - apply negb_true_iff, Z.eqb_neq in H. exact H.
  - apply negb_true_iff, Z.eqb_neq. exact H.
Qed.

Lemma allvalid_never p ws delay : (forall k, (Z.to_nat delay <= k)%nat -> exists w, In w (p :: ws) /\ w k = 0%Z) ->
  waits_forever (fun f => allvalid_trig f (p :: ws) delay).
Proof.
  intros H f. assert (allvalid_trig f (p :: ws) delay = allvalid_loop f (p :: ws) (Z.to_nat delay)) as ->.
  { unfold allvalid_trig. destruct (Z.to_nat delay); reflexivity. }
  rewrite allvalid_gloop. apply gloop_forever. intros k Hk. destruct (H k Hk) as (w & Hw & E).
  apply not_true_iff_false. rewrite forallb_forall. intros X. specialize (X w Hw). rewrite E in X. discriminate.
Qed.

Lemma change_iff w m :
  returns_after (fun f => change_trig f w) m <-> first_from 1 (fun k => w k <> w (k - 1)%nat) m.
Proof.
  unfold change_trig. rewrite (returns_ext _ _ m (fun f => change_gloop w (w 0%nat) f 0)), gloop_iff.
  assert (forall k, (negb (Z.eqb (w k) (w 0%nat)) = true) <-> w k <> w 0%nat) as Hb.
  { intros k. rewrite negb_true_iff. apply Z.eqb_neq. }
  rewrite (first_ext 0 _ _ m Hb). rewrite first_from_next by (intros X; apply X; reflexivity).
  assert (forall j, (forall k, (1 <= k <= j)%nat -> w k = w (k - 1)%nat) -> w j = w 0%nat) as Hprev.
  { induction j as [|j IH]; intros H; [reflexivity|]. rewrite (H (S j)) by lia.
    replace (S j - 1)%nat with j by lia. apply IH. intros k Hk. apply H. lia. }
  assert (forall k, (forall i, (1 <= i < k)%nat -> ~ w i <> w 0%nat) -> forall i, (i < k)%nat -> w i = w 0%nat) as Hc.
  { intros k H i Hi. destruct i as [|i]; [reflexivity|]. destruct (Z.eq_dec (w (S i)) (w 0%nat)) as [E|E]; [exact E|].
    exfalso. apply (H (S i)); [lia|exact E]. }
  split; intros (L & Hm & N).
  - split; [exact L|]. pose proof (Hc m N) as Hc'. split.
    + rewrite (Hc' (m - 1)%nat) by lia. exact Hm.
    + intros k Hk X. apply X. rewrite (Hc' k) by lia. rewrite (Hc' (k - 1)%nat) by lia. reflexivity.
  - assert (forall j, (j < m)%nat -> w j = w 0%nat) as Hc'.
    { intros j Hj. apply Hprev. intros k Hk. destruct (Z.eq_dec (w k) (w (k - 1)%nat)) as [E|E]; [exact E|].
      exfalso. apply (N k); [lia|exact E]. }
    split; [exact L|]. split.
    + rewrite <- (Hc' (m - 1)%nat) by lia. exact Hm.
    + intros k Hk X. apply X. apply Hc'. lia.
Qed.

Lemma change_never w : (forall k, w (S k) = w k) -> waits_forever (fun f => change_trig f w).
Proof.
  intros H f. unfold change_trig. rewrite change_gloop. apply gloop_forever. intros k _.
  assert (w k = w 0%nat) as -> by (induction k as [|k IH]; [reflexivity|congruence]). rewrite Z.eqb_refl. reflexivity.
Qed.

Lemma rising_iff w m :
  returns_after (fun f => rising_trig f w) m <-> first_from 1 (fun k => w (k - 1)%nat = 0%Z /\ w k <> 0%Z) m.
Proof.
  unfold rising_trig. change (w 0%nat) with (w (Nat.pred 0)).
  rewrite (returns_ext _ _ m (fun f => rising_gloop w f 0)), gloop_iff.
  rewrite first_from_next by (cbn; discriminate).
  unfold first_from. split; intros (L & Hm & N); (split; [exact L|]).
  - destruct m as [|m]; [lia|]. cbn [risen] in Hm. replace (S m - 1)%nat with m by lia.
    apply andb_prop in Hm as [H1 H2]. apply Z.eqb_eq in H1. apply negb_true_iff, Z.eqb_neq in H2.
    split; [auto|]. intros k Hk [X Y]. apply (N k Hk). destruct k as [|k]; [lia|]. cbn [risen].
    replace (S k - 1)%nat with k in X by lia. rewrite X. cbn. apply negb_true_iff, Z.eqb_neq. exact Y.
  - destruct m as [|m]; [lia|]. replace (S m - 1)%nat with m in Hm by lia. destruct Hm as [H1 H2].
    split; [cbn [risen]; rewrite H1; cbn; apply negb_true_iff, Z.eqb_neq; exact H2|].
    intros k Hk X. apply (N k Hk). destruct k as [|k]; [lia|]. cbn [risen] in X. replace (S k - 1)%nat with k by lia.
    apply andb_prop in X as [X1 X2]. apply Z.eqb_eq in X1. apply negb_true_iff, Z.eqb_neq in X2. auto.
Qed.

Lemma rising_never w : (forall k, ~ (w k = 0%Z /\ w (S k) <> 0%Z)) -> waits_forever (fun f => rising_trig f w).
Proof.
  intros H f. unfold rising_trig. change (w 0%nat) with (w (Nat.pred 0)). rewrite rising_gloop. apply gloop_forever.
  intros [|k] _; [reflexivity|]. cbn [risen]. apply not_true_iff_false. intros X. apply (H k).
  apply andb_prop in X as [X1 X2]. apply Z.eqb_eq in X1. apply negb_true_iff, Z.eqb_neq in X2. auto.
Qed.

Lemma falling_iff w m :
  returns_after (fun f => falling_trig f w) m <-> first_from 1 (fun k => w (k - 1)%nat <> 0%Z /\ w k = 0%Z) m.
Proof.
  unfold falling_trig. change (w 0%nat) with (w (Nat.pred 0)).
  rewrite (returns_ext _ _ m (fun f => falling_gloop w f 0)), gloop_iff.
  rewrite first_from_next by (cbn; discriminate).
  assert (forall k, fallen w (S k) = true <-> w k <> 0%Z /\ w (S k) = 0%Z) as Hf.
  { intros k. cbn [fallen]. rewrite andb_true_iff, negb_true_iff, Z.eqb_neq, Z.eqb_eq. reflexivity. }
  unfold first_from. split; intros (L & Hm & N); (split; [exact L|]); (destruct m as [|m]; [lia|]).
  - replace (S m - 1)%nat with m by lia. split; [apply Hf; exact Hm|].
    intros k Hk X. apply (N k Hk). destruct k as [|k]; [lia|]. replace (S k - 1)%nat with k in X by lia. apply Hf. exact X.
  - replace (S m - 1)%nat with m in Hm by lia. split; [apply Hf; exact Hm|].
    intros k Hk X. apply (N k Hk). destruct k as [|k]; [lia|]. replace (S k - 1)%nat with k by lia. apply Hf. exact X.
Qed.

Lemma falling_never w : (forall k, ~ (w k <> 0%Z /\ w (S k) = 0%Z)) -> waits_forever (fun f => falling_trig f w).
Proof.
  intros H f. unfold falling_trig. change (w 0%nat) with (w (Nat.pred 0)). rewrite falling_gloop. apply gloop_forever.
  intros [|k] _; [reflexivity|]. cbn [fallen]. apply not_true_iff_false. intros X. apply (H k).
  apply andb_prop in X as [X1 X2]. apply Z.eqb_eq in X2. apply negb_true_iff, Z.eqb_neq in X1. auto.
Qed.

(** conditions that may raise *)
Lemma cond_ok f : forall n m, returns_after (fun fu => cond_loop fu f n) m <->
  ((n <= m)%nat /\ f m = Ok true /\ forall k, (n <= k < m)%nat -> f k = Ok false).
Proof.
  unfold returns_after, clock_cycles. intros n m. split.
  - intros [fu H]. revert n H. induction fu as [|fu IH]; intros n H; cbn in H; destruct (f n) as [[|]|e] eqn:E; try discriminate; cbn in H.
    + injection H as ->. repeat split; auto. intros; lia.
    + injection H as ->. repeat split; auto. intros; lia.
    + unfold clock_cycles in H. replace (n + Z.to_nat 1)%nat with (S n) in H by (cbn; lia).
      destruct (IH _ H) as (L & A & B). repeat split; [lia|exact A|]. intros k Hk.
      destruct (Nat.eq_dec k n) as [->|]; [exact E|]. apply B. lia.
  - intros (L & A & B). exists (m - n)%nat. remember (m - n)%nat as d eqn:Ed. revert n L B Ed.
    induction d as [|d IH]; intros n L B Ed.
    + assert (m = n) by lia. subst. cbn. rewrite A. reflexivity.
    + cbn. rewrite (B n) by lia. cbn. unfold clock_cycles. replace (n + Z.to_nat 1)%nat with (S n) by (cbn; lia).
      apply IH; [lia| |lia]. intros k Hk. apply B. lia.
Qed.

Lemma cond_exn f e : forall n, (exists fu, cond_loop fu f n = Some (Exn e)) <->
  exists m, (n <= m)%nat /\ f m = Exn e /\ forall k, (n <= k < m)%nat -> f k = Ok false.
Proof.
  intros n. split.
  - intros [fu H]. revert n H. induction fu as [|fu IH]; intros n H; cbn in H; destruct (f n) as [[|]|e'] eqn:E; try discriminate; cbn in H.
    + injection H as ->. exists n. repeat split; auto. intros; lia.
    + unfold clock_cycles in H. replace (n + Z.to_nat 1)%nat with (S n) in H by (cbn; lia).
      destruct (IH _ H) as (m & L & A & B). exists m. repeat split; [lia|exact A|]. intros k Hk.
      destruct (Nat.eq_dec k n) as [->|]; [exact E|]. apply B. lia.
    + injection H as ->. exists n. repeat split; auto. intros; lia.
  - intros (m & L & A & B). exists (m - n)%nat. remember (m - n)%nat as d eqn:Ed. revert n L B Ed.
    induction d as [|d IH]; intros n L B Ed.
    + assert (m = n) by lia. subst. cbn. rewrite A. reflexivity.
    + cbn. rewrite (B n) by lia. cbn. unfold clock_cycles. replace (n + Z.to_nat 1)%nat with (S n) by (cbn; lia).
      apply IH; [lia| |lia]. intros k Hk. apply B. lia.
Qed.

Lemma cond_never f n : (forall k, (n <= k)%nat -> f k = Ok false) -> waits_forever (fun fu => cond_loop fu f n).
Proof.
  intros H fu. revert n H. induction fu as [|fu IH]; intros n H; cbn; rewrite (H n) by lia; cbn; [reflexivity|].
  apply IH. unfold clock_cycles. intros k Hk. apply H. lia.
Qed.

Lemma allvalid_none fu delay :
  allvalid_trig fu [] delay = if Z.leb delay 0 then Some (Ok 0%nat) else Some (Exn IndexError).
Proof.
  unfold allvalid_trig. destruct (Z.leb_spec delay 0) as [H|H].
  - replace (Z.to_nat delay) with 0%nat by lia. destruct fu; reflexivity.
  - destruct (Z.to_nat delay) eqn:E; [lia|reflexivity].
Qed.
