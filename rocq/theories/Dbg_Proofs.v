(** Reading of arguments: [split], [int] and [lower] against the grammar. *)
From Coq Require Import List ZArith Bool Ascii String Lia.
From Verif Require Import Py Dbg_Model Dbg_Spec.
Import ListNotations.
Open Scope list_scope.

Arguments figure : simpl never.
Arguments is_ws : simpl never.
Lemma is_ws_blank c : is_ws c = true <-> blank c.
Proof.
  unfold is_ws, blank, code. generalize (nat_of_ascii c) as n. intros n. rewrite orb_true_iff, !andb_true_iff, !Nat.leb_le. simpl. split; [|lia].
  intros [H|H]; lia.
Qed.
Lemma is_ws_not c : is_ws c = false <-> ~ blank c.
Proof. rewrite <- is_ws_blank. destruct (is_ws c); split; congruence. Qed.

Lemma split_word u : Forall (fun c => ~ blank c) u -> forall w s, split_from w (u ++ s) = split_from (w ++ u) s.
Proof. induction 1 as [|c u Hc Hu IH]; intros w s; simpl; [now rewrite app_nil_r|]. apply is_ws_not in Hc as ->. rewrite IH, <- app_assoc. reflexivity. Qed.
Lemma spaced_split s l : spaced s l -> split s = l.
Proof.
  unfold split. induction 1 as [|c s l Hc H IH|w Hw Fw|w c s l Hw Fw Hc H IH]; auto.
  - simpl. apply is_ws_blank in Hc as ->. exact IH.
  - pose proof (split_word w Fw [] []) as E. rewrite app_nil_r in E. rewrite E. destruct w; [contradiction|reflexivity].
  - rewrite split_word by auto. simpl. apply is_ws_blank in Hc as ->. rewrite IH. destruct w; [contradiction|reflexivity].
Qed.
Lemma split_from_spaced s : forall w, Forall (fun c => ~ blank c) w -> spaced (w ++ s) (split_from w s).
Proof.
  induction s as [|c s IH]; intros w Fw; simpl.
  - rewrite app_nil_r. destruct w as [|a w]; [constructor|]. apply sp_last; [discriminate|auto].
  - destruct (is_ws c) eqn:E.
    + apply is_ws_blank in E. specialize (IH [] (Forall_nil _)). simpl in IH. destruct w as [|a w]; [apply (sp_blank c s); auto|]. apply (sp_word (a :: w) c s); [discriminate|auto|auto|auto].
    + apply is_ws_not in E. specialize (IH (w ++ [c])). rewrite <- app_assoc in IH. apply IH. apply Forall_app. split; auto.
Qed.
Lemma split_spaced s l : split s = l <-> spaced s l.
Proof. split; [intros <-; apply (split_from_spaced s []); constructor|apply spaced_split]. Qed.

Lemma digit_figure n : n < 10 -> digit (figure n) = Some (Z.of_nat n).
Proof. intros H. do 10 (destruct n as [|n]; [reflexivity|]). lia. Qed.
Lemma digit_some c z : digit c = Some z -> exists n, n < 10 /\ c = figure n /\ z = Z.of_nat n.
Proof.
  unfold digit, code. destruct (Nat.leb_spec 48 (nat_of_ascii c)), (Nat.leb_spec (nat_of_ascii c) 57); simpl; try discriminate. intros E. injection E as <-.
  exists (nat_of_ascii c - 48). split; [lia|]. split; auto. unfold figure. replace (48 + (nat_of_ascii c - 48)) with (nat_of_ascii c) by lia. now rewrite ascii_nat_embedding.
Qed.
Lemma figures_from s z : figures s z -> forall t, digits_from 0 false (s ++ t) = digits_from z true t.
Proof.
  induction 1 as [n H|s z n F IH H|s z n F IH H]; intros t.
  - cbn [app digits_from]. rewrite digit_figure by auto. f_equal.
  - rewrite <- app_assoc. rewrite IH. cbn [app digits_from]. rewrite digit_figure by auto. reflexivity.
  - rewrite <- app_assoc. rewrite IH. cbn [app digits_from]. replace (digit "_") with (@None Z) by reflexivity. replace (Ascii.eqb "_" "_" && true) with true by reflexivity. rewrite digit_figure by auto. reflexivity.
Qed.
Lemma from_figures t : forall s acc z, figures s acc -> digits_from acc true t = Some z -> figures (s ++ t) z.
Proof.
  assert (X : forall k t, List.length t <= k -> forall s acc z, figures s acc -> digits_from acc true t = Some z -> figures (s ++ t) z).
  { induction k as [|k IH]; intros t0 Hk s acc z F E.
    - destruct t0; simpl in *; [|lia]. rewrite app_nil_r. congruence.
    - destruct t0 as [|c t0]; simpl in *; [rewrite app_nil_r; congruence|]. destruct (digit c) as [d|] eqn:Ed.
      + apply digit_some in Ed as (n & Hn & -> & ->). change (figure n :: t0) with ([figure n] ++ t0). rewrite app_assoc. apply (IH t0) with (acc := (10 * acc + Z.of_nat n)%Z); [lia|apply fg_more; auto|exact E].
      + destruct (Ascii.eqb c "_") eqn:Ec; [|discriminate]. apply Ascii.eqb_eq in Ec as ->. simpl in E. destruct t0 as [|c t0]; simpl in *; [discriminate|]. destruct (digit c) as [d|] eqn:Ed2.
        * apply digit_some in Ed2 as (n & Hn & -> & ->). change ("_"%char :: figure n :: t0) with (["_"%char; figure n] ++ t0). rewrite app_assoc. apply (IH t0) with (acc := (10 * acc + Z.of_nat n)%Z); [lia|apply fg_under; auto|exact E].
        * rewrite andb_false_r in E. discriminate. }
  intros s acc z F E. apply (X (List.length t) t (le_n _) s acc z F E).
Qed.
Lemma digits_figures s z : digits_from 0 false s = Some z <-> figures s z.
Proof.
  split.
  - destruct s as [|c s]; simpl; [discriminate|]. destruct (digit c) as [d|] eqn:Ed.
    + apply digit_some in Ed as (n & Hn & -> & ->). intros E. change (figure n :: s) with ([figure n] ++ s). apply from_figures with (acc := Z.of_nat n); [constructor; auto|]. rewrite <- E. f_equal.
    + rewrite andb_false_r. discriminate.
  - intros F. pose proof (figures_from s z F []) as E. rewrite app_nil_r in E. exact E.
Qed.
Lemma figures_first s z : figures s z -> exists n r, n < 10 /\ s = figure n :: r.
Proof. induction 1 as [n H|s z n F (k & r & Hk & ->) H|s z n F (k & r & Hk & ->) H]; [exists n, []; auto|simpl; eauto..]. Qed.
Lemma figures_last s z : figures s z -> exists n r, n < 10 /\ s = r ++ [figure n].
Proof. destruct 1 as [n H|s z n F H|s z n F H]; [exists n, []; auto|exists n, s; auto|exists n, (s ++ ["_"%char]); rewrite <- app_assoc; auto]. Qed.
Lemma figure_not_blank n : n < 10 -> is_ws (figure n) = false.
Proof. intros H. do 10 (destruct n as [|n]; [reflexivity|]). lia. Qed.
Lemma figure_not_sign n : n < 10 -> Ascii.eqb (figure n) "+" = false /\ Ascii.eqb (figure n) "-" = false.
Proof. intros H. do 10 (destruct n as [|n]; [split; reflexivity|]). lia. Qed.
Lemma signed_ends t z : signed t z -> exists c r r' n, t = c :: r /\ is_ws c = false /\ n < 10 /\ t = r' ++ [figure n].
Proof.
  destruct 1 as [s z F|s z F|s z F].
  - destruct (figures_first s z F) as (n & r & Hn & E), (figures_last s z F) as (k & r' & Hk & E'). exists (figure n), r, r', k. repeat split; auto. apply figure_not_blank; auto.
  - destruct (figures_last s z F) as (k & r' & Hk & ->). exists "+"%char, (r' ++ [figure k]), ("+"%char :: r'), k. repeat split; auto.
  - destruct (figures_last s z F) as (k & r' & Hk & ->). exists "-"%char, (r' ++ [figure k]), ("-"%char :: r'), k. repeat split; auto.
Qed.
Lemma lstrip_blanks a s : blanks a -> lstrip (a ++ s) = lstrip s.
Proof. induction 1 as [|c a Hc Ha IH]; auto. simpl. apply is_ws_blank in Hc as ->. exact IH. Qed.
Lemma lstrip_parts s : exists a, blanks a /\ s = a ++ lstrip s.
Proof. induction s as [|c s (a & Ha & E)]; [exists []; split; constructor|]. simpl. destruct (is_ws c) eqn:Ec; [|exists []; split; [constructor|reflexivity]]. exists (c :: a). split; [constructor; auto; now apply is_ws_blank|simpl; congruence]. Qed.
Lemma blanks_rev a : blanks a -> blanks (rev a).
Proof. apply Forall_rev. Qed.
Lemma strip_parts s : exists a b, blanks a /\ blanks b /\ s = a ++ strip s ++ b.
Proof.
  destruct (lstrip_parts s) as (a & Ha & E). destruct (lstrip_parts (rev (lstrip s))) as (b & Hb & E2). exists a, (rev b). split; [auto|]. split; [now apply blanks_rev|].
  unfold strip. rewrite <- rev_app_distr, <- E2, rev_involutive. exact E.
Qed.
Lemma strip_signed a t b z : blanks a -> blanks b -> signed t z -> strip (a ++ t ++ b) = t.
Proof.
  intros Ha Hb S. destruct (signed_ends t z S) as (c & r & r' & n & E & Hc & Hn & E'). unfold strip. rewrite lstrip_blanks by auto.
  assert (X : lstrip (t ++ b) = t ++ b) by (rewrite E; simpl; now rewrite Hc). rewrite X, rev_app_distr, lstrip_blanks by (now apply blanks_rev).
  assert (Y : lstrip (rev t) = rev t) by (rewrite E', rev_app_distr; cbn [rev app lstrip]; rewrite (figure_not_blank n Hn); reflexivity). rewrite Y. apply rev_involutive.
Qed.
Lemma py_int_numeral s z : py_int s = Some z <-> numeral s z.
Proof.
  split.
  - unfold py_int. destruct (strip_parts s) as (a & b & Ha & Hb & E). destruct (strip s) as [|c r] eqn:Es; [discriminate|]. intros H. exists a, (c :: r), b. split; auto. split; auto. split; auto.
    destruct (Ascii.eqb c "+") eqn:E1; [apply Ascii.eqb_eq in E1 as ->; apply sg_plus; now apply digits_figures|].
    destruct (Ascii.eqb c "-") eqn:E2; [|apply sg_none; now apply digits_figures].
    apply Ascii.eqb_eq in E2 as ->. destruct (digits_from 0 false r) as [y|] eqn:Ey; [|discriminate]. simpl in H. injection H as <-. apply sg_minus. now apply digits_figures.
  - intros (a & t & b & -> & Ha & S & Hb). unfold py_int. rewrite (strip_signed a t b z Ha Hb S). destruct S as [t z F|t z F|t z F].
    + destruct (figures_first t z F) as (n & r & Hn & ->). destruct (figure_not_sign n Hn) as [-> ->]. now apply digits_figures.
    + simpl. now apply digits_figures.
    + simpl. apply digits_figures in F as ->. reflexivity.
Qed.
Lemma py_int_none s : py_int s = None <-> ~ exists z, numeral s z.
Proof.
  split; [intros E (z & N); apply py_int_numeral in N; congruence|]. intros H. destruct (py_int s) as [z|] eqn:E; auto. exfalso. apply H. exists z. now apply py_int_numeral.
Qed.

Lemma lower1_spells x y : 97 <= nat_of_ascii y <= 122 -> lower1 x = y <-> (x = y \/ (65 <= nat_of_ascii x <= 90 /\ nat_of_ascii y = nat_of_ascii x + 32)).
Proof.
  intros Hy. unfold lower1, code. destruct (Nat.leb_spec 65 (nat_of_ascii x)), (Nat.leb_spec (nat_of_ascii x) 90); simpl.
  - split.
    + intros <-. right. split; [lia|]. rewrite nat_ascii_embedding; lia.
    + intros [->|[_ E]]; [lia|]. rewrite <- E. now rewrite ascii_nat_embedding.
  - split; [auto|]. intros [E|[E _]]; [auto|lia].
  - split; [auto|]. intros [E|[E _]]; [auto|lia].
  - lia.
Qed.
Lemma lower_spells b : Forall (fun y => 97 <= nat_of_ascii y <= 122) b -> forall t, lower t = b <-> spells t b.
Proof.
  induction 1 as [|y b Hy Hb IH]; intros t; unfold lower, spells in *.
  - destruct t; simpl; split; intros H; try constructor; try discriminate; inversion H.
  - destruct t as [|x t]; simpl; [split; [discriminate|intros H; inversion H]|]. split.
    + intros E. injection E as E1 E2. constructor; [now apply lower1_spells|now apply IH].
    + intros H. inversion H; subst. f_equal; [now apply lower1_spells|now apply IH].
Qed.
Lemma str_eqb_eq a b : str_eqb a b = true <-> a = b.
Proof. unfold str_eqb. destruct (list_eq_dec ascii_dec a b); split; congruence. Qed.
Lemma small_bin : Forall (fun y => 97 <= nat_of_ascii y <= 122) bin.
Proof. repeat constructor; simpl; lia. Qed.
Lemma small_hex : Forall (fun y => 97 <= nat_of_ascii y <= 122) hex.
Proof. repeat constructor; simpl; lia. Qed.
Lemma small_dec : Forall (fun y => 97 <= nat_of_ascii y <= 122) dec.
Proof. repeat constructor; simpl; lia. Qed.
Definition base_s (b : base) : str := match b with Bin => bin | Hex => hex | Dec => dec end.
Lemma base_of_spells t b : base_of (lower t) = Some b <-> spells t (base_s b).
Proof.
  assert (S : Forall (fun y => 97 <= nat_of_ascii y <= 122) (base_s b)) by (destruct b; [apply small_bin|apply small_hex|apply small_dec]).
  rewrite <- lower_spells by exact S. unfold base_of, str_eqb. change bin_s with bin. change hex_s with hex. change dec_s with dec.
  destruct (list_eq_dec ascii_dec (lower t) bin) as [->|N1]; [split; [intros E; injection E as <-; reflexivity|destruct b; [reflexivity|discriminate|discriminate]]|].
  destruct (list_eq_dec ascii_dec (lower t) hex) as [->|N2]; [split; [intros E; injection E as <-; reflexivity|destruct b; [discriminate|reflexivity|discriminate]]|].
  destruct (list_eq_dec ascii_dec (lower t) dec) as [->|N3]; [split; [intros E; injection E as <-; reflexivity|destruct b; [discriminate|discriminate|reflexivity]]|].
  split; [discriminate|]. destruct b; simpl; contradiction.
Qed.
