(** Lemmas about the two-bit counter model. *)
From Coq Require Import ZArith List Bool Lia ZifyBool.
From Verif Require Import TwoBits_Model.
Import ListNotations.
Open Scope Z_scope.

(** Specification: a walk on 0..3 clipped on both sides at every move. *)
Definition clip03 (x : Z) : Z := if x <? 0 then 0 else if 3 <? x then 3 else x.
Inductive walk : Z -> list bool -> Z -> Prop :=
| walk_nil c : walk c [] c
| walk_up c h c' : walk (clip03 (c + 1)) h c' -> walk c (true :: h) c'
| walk_down c h c' : walk (clip03 (c - 1)) h c' -> walk c (false :: h) c'.

Lemma tb_run_walk h : forall c, 0 <= c <= 3 -> walk c h (tb_run c h) /\ 0 <= tb_run c h <= 3.
Proof.
  unfold tb_run, tb_init. induction h as [|t h IH]; intros c Hc; cbn [fold_left].
  - split; [constructor|exact Hc].
  - assert (tb_update c t = clip03 (if t then c + 1 else c - 1)) as E.
    { unfold tb_update, clip03. destruct t.
      - destruct (Z.ltb_spec (c + 1) 0), (Z.ltb_spec 3 (c + 1)); lia.
      - destruct (Z.ltb_spec (c - 1) 0), (Z.ltb_spec 3 (c - 1)); lia. }
    assert (0 <= tb_update c t <= 3) as Hr by (unfold tb_update; destruct t; lia).
    destruct (IH _ Hr) as [Hw Hb]. split; [|exact Hb].
    rewrite E in *. destruct t; constructor; exact Hw.
Qed.

Lemma walk_fun c h a b : walk c h a -> walk c h b -> a = b.
Proof.
  intros Ha; revert b; induction Ha; intros b0 Hb; inversion Hb; subst; auto.
Qed.

Lemma tb_correct c h c' : 0 <= c <= 3 -> (tb_run c h = c' <-> walk c h c').
Proof.
  intros Hc. destruct (tb_run_walk h c Hc) as [Hw _]. split.
  - intros <-; exact Hw.
  - intros H. eapply walk_fun; eauto.
Qed.

Lemma tb_predict c h : 0 <= c <= 3 ->
  0 <= tb_run c h <= 3 /\
  (tb_get_prediction (tb_run c h) = 1 <-> tb_run c h = 2 \/ tb_run c h = 3) /\
  (tb_get_prediction (tb_run c h) = 0 <-> tb_run c h = 0 \/ tb_run c h = 1).
Proof.
  intros Hc. destruct (tb_run_walk h c Hc) as [_ Hb]. split; [exact Hb|].
  unfold tb_get_prediction. rewrite Z.gtb_ltb.
  destruct (Z.ltb_spec 1 (tb_run c h)); split; split; lia.
Qed.

Lemma tb_two_same c h t : 0 <= c <= 3 ->
  tb_get_prediction (tb_run c (h ++ [t; t])) = if t then 1 else 0.
Proof.
  intros Hc. unfold tb_run, tb_init in *. rewrite fold_left_app.
  destruct (tb_run_walk h c Hc) as [_ Hb]. unfold tb_run, tb_init in Hb.
  revert Hb; generalize (fold_left tb_update h c); intros x Hb.
  cbn [fold_left]. unfold tb_get_prediction, tb_update. rewrite Z.gtb_ltb.
  destruct t; match goal with |- context [1 <? ?x] => destruct (Z.ltb_spec 1 x) end; lia.
Qed.

(** One opposite outcome does not change the prediction of a saturated counter (hysteresis). *)
Lemma tb_hysteresis c h t : 0 <= c <= 3 ->
  tb_get_prediction (tb_run c (h ++ [t; t; t; negb t])) = if t then 1 else 0.
Proof.
  intros Hc. unfold tb_run, tb_init in *. rewrite fold_left_app.
  destruct (tb_run_walk h c Hc) as [_ Hb]. unfold tb_run, tb_init in Hb.
  revert Hb; generalize (fold_left tb_update h c); intros x Hb.
  cbn [fold_left]. unfold tb_get_prediction, tb_update. rewrite Z.gtb_ltb.
  destruct t; cbn [negb]; match goal with |- context [1 <? ?x] => destruct (Z.ltb_spec 1 x) end; lia.
Qed.
