(** The end of a test: cancel_all_tasks and the last step. *)
From Coq Require Import List Bool Arith ZArith Lia Permutation.
From Verif Require Import Py Prio_Model Loop_Model Loop_Spec Loop_Proofs Loop2_Proofs Loop3_Proofs Loop4_Proofs Loop5_Proofs Loop6_Proofs Loop7_Proofs Loop8_Proofs Loop9_Proofs Loop10_Proofs Loop2_Spec Loop13_Proofs Loop17_Proofs Loop20_Proofs.
Import ListNotations.
Open Scope nat_scope.

Section Last.
Context {mem : Type}.
Notation prog := (@prog mem). Notation state := (@state mem). Notation body := (@body mem). Notation task := (@task mem).
Notation fut := (@fut mem). Notation kind := (@kind mem).
Implicit Types (s : state) (F : list fut).
Context (shuffle : list id -> list id) (dut delayers : mem -> mem).
Notation step := (step shuffle dut delayers). Notation steps := (steps shuffle dut delayers). Notation others := (others shuffle).

(** * The clock task before it calls cancel_all_tasks or dut.Step *)
Fixpoint fineb (b : body) : Prop :=
  match b with
  | BClk CCancel | BClk CGathered | BClk (CStep _) => False
  | BEv _ _ _ k | BGet _ _ _ k => forall r, fineb (k r)
  | _ => True
  end.
Definition finek (k : res lval -> body) : Prop := forall r, fineb (k r).
Definition Fine s : Prop := linked (fun _ => finek) (coreof s) /\ forall t b, cur s = Some (t, b) -> fineb b.
Lemma noclk_fine (b : body) : noclkb b -> fineb b.
Proof. induction b as [ | | |e f r k IH|q f r k IH| | ]; simpl; auto; try contradiction. Qed.
Lemma start_fine (b : body) : fineb b -> finek (start b). Proof. intros H [v|e]; simpl; auto. Qed.
Lemma fine_stores (b : body) : fineb b -> stores (fun _ => finek) b.
Proof.
  assert (O : forall o k, finek k -> opstores (fun _ => finek) o k).
  { intros o k H0. destruct o; simpl in *; auto; try (intros f0 r; exact H0); apply start_fine; exact I. }
  destruct b as [[v|e|o kk]|[v|e|o kk] ev todo sb|[]|e f r kk|q f [v|e] kk|test|[v|e|o kk]]; cbn [fineb stores opstores]; intros H; auto; try contradiction; try (apply O; intros r; exact I); try (apply start_fine; exact I); try congruence.
  intros f0 r. exact H.
Qed.
Lemma fine_step fire s : Wf s -> Fine s -> (forall t, cur s <> Some (t, BClk CTail)) -> Fine (step fire s).
Proof.
  intros W [L1 L2] N2. pose proof W as [I K]. split.
  - eapply mstar_linked; [|exact L1]. apply (step_core shuffle dut delayers (fun _ => finek)); auto. intros t1 b Hc. apply fine_stores. eauto.
  - intros t' b' Hc'. destruct (step_cur shuffle dut delayers fire s t' b' W Hc') as [[b [Hc Hn]]|[Hc [h [r0 [n [st [cbs0 [k0 [w0 [m0 [Hr [Hb [Ho [E0 ->]]]]]]]]]]]]]].
    + specialize (L2 _ _ Hc). destruct b as [[v|e|o kk]|[v|e|o kk] ev todo sb|c|e f0 r0 kk|q f0 [v|e] kk|test|[v|e|o kk]]; cbn [nextb fineb] in *; try contradiction; try (subst b'; exact Logic.I);
        try (subst b'; auto; fail); try (destruct Hn as [r1 [_ ->]]; try exact Logic.I; auto; fail).
      destruct c as [| | |[|[h ev] todo] sb| | | |last]; try contradiction; try (subst b'; exact Logic.I); [| |now elim (N2 t')].
      * destruct Hn as [->|[_ [_ ->]]]; exact Logic.I.
      * subst b'. destruct sb; exact Logic.I.
    + assert (Hin : In h (ready s)) by (rewrite Hr; now left). destruct (handle_live _ I h t' Hin Ho) as [cbs' [k' [w' [m' E']]]]. cbn [snd coreof] in E'. rewrite E0 in E'. injection E' as -> <- <- <- <-.
      assert (Hcn : forall b, cur s <> Some (t', b)) by congruence. pose proof (L1 t' _ _ _ _ E0 Hcn) as X. destruct w0 as [f0|]; [destruct X as [kd [fu0 [_ [_ X]]]]|]; apply X.
Qed.
(** While the clock task runs, the other tasks do not matter. *)
Lemma fine_clk s c b : All s -> clock s = Some c -> cur s = Some (c, b) -> fineb b -> Fine s.
Proof.
  intros [EV C] CS Hc Hb. pose proof (v_linked _ EV) as [L1 _]. split.
  - intros t1 cbs k w m E Hn. assert (EK : finek k).
    { intros r. apply noclk_fine. apply (proj2 (C t1 ltac:(intros X; rewrite CS in X; injection X as <-; exact (Hn _ Hc)))) with (1 := E). }
    pose proof (L1 t1 cbs k w m E Hn) as X. destruct w as [f|]; auto. destruct X as [kd [fu [X1 [X2 _]]]]. eauto.
  - intros t1 b1 X. rewrite Hc in X. injection X as <- <-. exact Hb.
Qed.
Lemma init_fine test m : Fine (init test m : state).
Proof.
  split; [|discriminate]. intros t cbs k w mu E _. destruct t as [|[|t]]; simpl in E; try discriminate. injection E as _ <- <- _. intros [v|e]; exact I.
Qed.
Lemma clock_noclk s c : Clk1 s -> clock s = Some c -> (forall b, cur s <> Some (c, b)) -> forall t b, cur s = Some (t, b) -> noclkb b.
Proof. intros C CS Hn t b Hc. apply (proj1 (C t ltac:(intros X; rewrite CS in X; injection X as <-; exact (Hn _ Hc))) _ Hc). Qed.
Lemma nstep_idle fire s c : Clk1 s -> clock s = Some c -> (forall b, cur s <> Some (c, b)) -> nstep (step fire s) = nstep s.
Proof. intros C CS Hn. rewrite nstep_step. destruct (cur s) as [[t b]|] eqn:Hc; auto. pose proof (clock_noclk s c C CS ltac:(intros b0 X; rewrite Hc in X; exact (Hn _ X)) t b Hc) as X. destruct b as [| |[]| | | |]; auto; contradiction. Qed.

(** * The phases of the clock task *)
Definition dead (l : list id) s : Prop := forall t, In t l -> exists fu, nth_error (futs s) t = Some fu /\ pending fu = false.
Lemma dead_step l fire s : Wf s -> dead l s -> dead l (step fire s).
Proof.
  intros W D t Ht. destruct (D t Ht) as [fu [E P]]. destruct (step_fext shuffle dut delayers fire s W t fu E) as [fu' [E' [_ X]]]. exists fu'. split; auto. unfold pending in *. rewrite (X P). exact P.
Qed.
Lemma gat_dead g l s r : Gat g l s -> state_of s g = Some (Finished r) -> dead l s.
Proof.
  intros [[fu [E [K Z]]] R _ _] X t Ht. unfold state_of, fget in X. rewrite E in X. injection X as X. specialize (Z r X). destruct (R t Ht) as [fx [Ex P]]. exists fx. split; auto.
  destruct P as [P|P]; auto. apply tokb_In in P. pose proof (tokF_le g (futs s) t _ Ex) as Y. unfold tok in Z. cbn [coreof fst snd] in Z. lia.
Qed.
Definition canceled s0 s (c : id) s1 : Prop := steps s0 s1 /\ steps s1 s /\ cur s1 = Some (c, BClk CCancel) /\ nstep s1 = nstep s /\ tdone s1 = Some true /\ clock s = Some c.
Inductive phase s0 s : Prop :=
| ph_fine : Fine s -> phase s0 s
| ph_cancel c : cur s = Some (c, BClk CCancel) -> tdone s = Some true -> clock s = Some c -> phase s0 s
| ph_gather c s1 g : canceled s0 s c s1 -> Susp c (start (BClk CGathered)) (Some g) s -> Gat g (others s1 c) s -> phase s0 s
| ph_last c s1 : canceled s0 s c s1 -> dead (others s1 c) s -> cur s = Some (c, BClk CGathered) \/ Susp c (start (BClk (CStep true))) None s \/ cur s = Some (c, BClk (CStep true)) -> phase s0 s
| ph_step c : cur s = Some (c, BClk (CStep false)) -> tdone s <> Some true -> clock s = Some c -> phase s0 s.
Context (shuffled : forall l, Permutation l (shuffle l)).
Lemma others_iff s c t : In t (others s c) <-> unfinished s t /\ t <> c /\ t <> 0.
Proof.
  unfold Loop20_Proofs.others, unfinished. split.
  - intros X. apply (Permutation_in _ (Permutation_sym (shuffled _))) in X. apply filter_In in X. destruct X as [X Y]. apply andb_true_iff in Y. destruct Y as [Y1 Y2]. apply negb_true_iff in Y1, Y2. apply Nat.eqb_neq in Y1, Y2. auto.
  - intros [X [Y1 Y2]]. apply (Permutation_in _ (shuffled _)). apply filter_In. split; auto. apply Nat.eqb_neq in Y1, Y2. now rewrite Y1, Y2.
Qed.
Lemma live_len s t : unfinished s t -> t < List.length (futs s).
Proof. intros X. unfold unfinished, live in X. apply filter_In in X. destruct X as [X _]. apply in_seq in X. lia. Qed.
Lemma canceled_step fire s0 s c s1 : canceled s0 s c s1 -> nstep (step fire s) = nstep s -> canceled s0 (step fire s) c s1.
Proof. intros [A [B [C [D [E G]]]]] N. unfold canceled. repeat split; auto; [now apply steps_step|congruence|now apply clock_step]. Qed.
Lemma phase_step fire s0 s : steps s0 s -> All s -> Fresh s -> phase s0 s -> phase s0 (step fire s).
Proof.
  intros R A FR P. pose proof A as [EV C]. pose proof (v_wf _ EV) as W. pose proof W as [I K]. pose proof (step_all shuffle dut delayers fire s A) as A'. destruct P as [FI|c Hc TD CS|c s1 g CA SU GA|c s1 CA DE Ph|c Hc TD CS].
  - destruct (cur s) as [[t b]|] eqn:Hc; [|apply ph_fine, fine_step; auto; congruence]. assert (D : b = BClk CTail \/ b <> BClk CTail) by (destruct b as [| |[]| | | |]; auto; right; discriminate).
    destruct D as [->|D]; [|apply ph_fine, fine_step; auto; congruence]. assert (CS : clock s = Some t) by (eapply clock_of; eauto). assert (CS' := clock_step shuffle dut delayers fire s t CS).
    assert (X : step fire s = go s t (BClk (match tdone s with Some true => CCancel | _ => CStep false end))) by (unfold Loop_Model.step; now rewrite Hc). rewrite X in *.
    destruct (tdone s) as [[]|] eqn:TD; [apply (ph_cancel _ _ t)|apply (ph_step _ _ t)|apply (ph_step _ _ t)]; auto; cbn [tdone go set_cur]; rewrite TD; discriminate.
  - assert (CA : canceled s0 (step fire s) c s).
    { unfold canceled. repeat split; auto; [apply steps_step, steps_refl|rewrite nstep_step, Hc; reflexivity|now apply clock_step]. }
    destruct (cur_live _ I c _ Hc) as [cbs [k [m E]]]. cbn [coreof snd] in E. destruct (others s c) as [|x l] eqn:El.
    + apply (ph_last _ _ c s); auto; [intros t; rewrite El; contradiction|]. right. left. unfold Loop_Model.step. rewrite Hc. cbn [exec_body exec_clk]. fold (others s c). rewrite El. cbn [fold_left]. eapply suspend0_susp. exact E.
    + apply (ph_gather _ _ c s (List.length (futs s))); auto.
      * unfold Loop_Model.step. rewrite Hc. cbn [exec_body exec_clk]. fold (others s c). rewrite El. set (l2 := x :: l). rewrite cancels_len. destruct (cancels_task l2 s c _ _ _ _ _ E) as [m1 E1]. pose proof (cancels_len l2 s) as LN. set (s1 := fold_left cancel_top l2 s) in *. set (s2 := falloc s1 _).
        assert (LC : c < List.length (futs s)) by (apply nth_error_Some; congruence).
        assert (E2 : fget s2 c = Some (mkt Pending cbs k None m1)) by (unfold s2, fget, falloc; cbn [set_futs futs]; rewrite nth_error_app1 by lia; exact E1).
        destruct (on_dones_task (List.length (futs s)) l2 s2 c _ _ _ _ _ E2) as [cb3 E3]. eapply suspend_susp; [exact E3|lia].
      * apply gat_start; auto; [congruence|]. intros f Hf. apply others_iff in Hf. now apply live_len.
  - destruct CA as [X1 [X2 [X3 [X4 [X5 X6]]]]]. assert (NS : nstep (step fire s) = nstep s) by (eapply nstep_idle; eauto; apply SU). assert (CA : canceled s0 (step fire s) c s1) by (apply canceled_step; auto; unfold canceled; auto 10).
    destruct (susp_step shuffle dut delayers fire c _ _ s W SU) as [SU'|[r [Hc' [RS [Hn _]]]]]; [apply (ph_gather _ _ c s1 g); auto; now apply gat_step|].
    destruct r as [v|e]; cbn [start] in Hc'; [|apply ph_fine; eapply fine_clk; eauto; [now apply clock_step|exact Logic.I]].
    destruct RS as [[X _]|[st [X [Y Z]]]]; [discriminate|]. destruct st as [|r|]; [congruence| |discriminate]. apply (ph_last _ _ c s1); auto. apply dead_step; auto. eapply gat_dead; eauto.
  - destruct CA as [X1 [X2 [X3 [X4 [X5 X6]]]]]. assert (CA : nstep (step fire s) = nstep s -> canceled s0 (step fire s) c s1) by (apply canceled_step; unfold canceled; auto 10). pose proof (dead_step _ fire s W DE) as DE'. destruct Ph as [Hc|[SU|Hc]].
    + assert (NS : nstep (step fire s) = nstep s) by (rewrite nstep_step, Hc; reflexivity). apply (ph_last _ _ c s1); auto. right. left. destruct (cur_live _ I c _ Hc) as [cbs [k [m E]]]. cbn [coreof snd] in E. unfold Loop_Model.step. rewrite Hc. cbn [exec_body exec_clk]. eapply suspend0_susp. exact E.
    + assert (NS : nstep (step fire s) = nstep s) by (eapply nstep_idle; eauto; apply SU). destruct (susp_step shuffle dut delayers fire c _ _ s W SU) as [SU'|[r [Hc' [RS [Hn _]]]]]; [apply (ph_last _ _ c s1); auto|].
      destruct r as [v|e]; cbn [start] in Hc'; [|apply ph_fine; eapply fine_clk; eauto; [now apply clock_step|exact Logic.I]]. apply (ph_last _ _ c s1); auto.
    + apply ph_fine. apply (fine_clk _ c (BClk CRound)); auto; [now apply clock_step| |exact Logic.I]. unfold Loop_Model.step. rewrite Hc. reflexivity.
  - apply ph_fine. apply (fine_clk _ c (BClk CRound)); auto; [now apply clock_step| |exact Logic.I]. unfold Loop_Model.step. rewrite Hc. reflexivity.
Qed.
Lemma reach_phase test m s : steps (init test m) s -> phase (init test m) s.
Proof.
  intros R. remember (init test m) as s0 eqn:E. induction R as [s|s s1 fire R IH]; [subst; apply ph_fine, init_fine|]. specialize (IH E). subst. apply phase_step; auto; [eapply reach_all; eauto|eapply reach_fresh; eauto].
Qed.
(** Before the last step every task that cancel_all_tasks cancels is done. *)
Lemma step_cancelled test m s c : steps (init test m) s -> at_step s c -> tdone s = Some true ->
  exists s1, steps (init test m) s1 /\ steps s1 s /\ cur s1 = Some (c, BClk CCancel) /\ nstep s1 = nstep s /\ tdone s1 = Some true /\ forall t, unfinished s1 t -> t <> c -> t <> 0 -> ~ unfinished s t.
Proof.
  intros R [l Hl] TD. assert (Z : forall b, cur s = Some (c, b) -> b = BClk (CStep l)) by congruence. assert (CS : clock s = Some c) by (apply (clock_of s c _ (proj2 (reach_all shuffle dut delayers test m s R)) Hl); intros []).
  destruct (reach_phase test m s R) as [[_ X]|c1 Hc _ _|c1 s1 g CA SU _|c1 s1 CA DE _|c1 Hc X _]; try congruence.
  - now elim (X _ _ Hl).
  - exfalso. destruct CA as [_ [_ [_ [_ [_ CA]]]]]. assert (c1 = c) by congruence. subst. elim (proj1 SU _ Hl).
  - destruct CA as [A1 [A2 [A3 [A4 [A5 A6]]]]]. assert (c1 = c) by congruence. subst c1. exists s1. repeat split; auto. intros t U N1 N2 U'. destruct (DE t) as [fu [E P]]; [apply others_iff; auto|].
    unfold unfinished in U'. apply live_iff in U'. unfold islive in U'. rewrite E in U'. destruct fu as [[] ? ?]; try discriminate.
Qed.
End Last.
