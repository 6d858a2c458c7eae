(** Components: the task that runs [main]. *)
From Coq Require Import List Bool Arith ZArith Lia Permutation.
From Verif Require Import Py Prio_Model Loop_Model Loop_Spec Loop2_Spec LoopProg_Model Comp_Model Loop_Proofs Loop2_Proofs Loop3_Proofs Loop4_Proofs Loop5_Proofs Loop6_Proofs Loop7_Proofs Loop8_Proofs Loop9_Proofs Loop10_Proofs Loop13_Proofs Loop17_Proofs Loop20_Proofs Loop21_Proofs Loop23_Proofs P_Loop P_Loop2.
Import ListNotations.
Open Scope nat_scope.

Section Comp.
Context {mem : Type}.
Notation prog := (@prog mem). Notation state := (@state mem). Notation body := (@body mem). Notation task := (@task mem).
Notation fut := (@fut mem). Notation kind := (@kind mem).
Implicit Types (s : state).
Context (shuffle : list id -> list id) (dut delayers : mem -> mem).
Notation step := (step shuffle dut delayers). Notation steps := (steps shuffle dut delayers).

Definition again_k (main : prog) (r : res lval) : prog := match r with Ok _ => component main | Exn e => Raise e end.
Definition look_k (main : prog) (r : res lval) : prog :=
  match r with Ok (VBool true) => Let (OEvWait 0) (fun _ => main) | Ok _ => Op OSleep0 (again_k main) | Exn e => Raise e end.
Definition prog_id (p : prog) : prog := match p with Ret v => Ret v | Raise e => Raise e | Op o k => Op o k end.
Lemma component_unfold main : component main = Op OHasClock (look_k main).
Proof. assert (E : forall p : prog, p = prog_id p) by (intros []; reflexivity). rewrite (E (component main)). reflexivity. Qed.

(** * A task without a waiter keeps the clock task from leaving __other_tasks_done *)
Lemma step_early_gen fire s : Wf s -> Early s -> (forall c, cur s = Some (c, BClk CCheck) -> has_unwait s c = true) -> Early (step fire s).
Proof.
  intros W [L1 L2] HU. pose proof W as [I K]. split.
  - eapply mstar_linked; [|exact L1]. apply (step_core shuffle dut delayers (fun _ => earlyk)); auto. intros t1 b Hc. apply early_stores. eauto.
  - intros t' b' Hc'. destruct (step_cur shuffle dut delayers fire s t' b' W Hc') as [[b [Hc Hn]]|[Hc [h [r0 [n [st [cbs0 [k0 [w0 [m0 [Hr [Hb [Ho [E0 ->]]]]]]]]]]]]]].
    + specialize (L2 _ _ Hc). destruct b as [[v|e|o kk]|[v|e|o kk] ev todo sb|c|e f0 r0 kk|q f0 [v|e] kk|test|[v|e|o kk]]; cbn [nextb early] in *; try contradiction; try (subst b'; exact Logic.I);
        try (subst b'; auto; fail); try (destruct Hn as [r1 [_ ->]]; try exact Logic.I; auto; fail).
      destruct c as [| | |[|[h ev] todo] sb| | | |last]; try contradiction; try (subst b'; exact Logic.I). destruct Hn as [->|[U _]]; [exact Logic.I|]. rewrite (HU _ Hc) in U. discriminate.
    + assert (Hin : In h (ready s)) by (rewrite Hr; now left). destruct (handle_live _ I h t' Hin Ho) as [cbs' [k' [w' [m' E']]]]. cbn [snd coreof] in E'. rewrite E0 in E'. injection E' as -> <- <- <- <-.
      assert (Hcn : forall b, cur s <> Some (t', b)) by congruence. pose proof (L1 t' _ _ _ _ E0 Hcn) as X. destruct w0 as [f0|]; [destruct X as [kd [fu0 [_ [_ X]]]]|]; apply X.
Qed.
Lemma susp_unwait t k s : Susp t k None s -> forall c, cur s = Some (c, BClk CCheck) -> has_unwait s c = true.
Proof.
  intros [Hn [cbs [m E]]] c Hc. destruct (has_unwait s c) eqn:U; auto. exfalso. destruct (quiet_check s c U t) as [f1 [W1 _]].
  - unfold islive. now rewrite E.
  - intros ->. eapply Hn; eauto.
  - rewrite (waitof_task _ _ _ _ _ _ _ E) in W1. discriminate.
Qed.
Lemma early_nstep fire s : Early s -> nstep (step fire s) = nstep s.
Proof. intros [_ E]. rewrite nstep_step. destruct (cur s) as [[t b]|] eqn:Hc; auto. specialize (E _ _ eq_refl). destruct b as [| |[]| | | |]; auto; contradiction. Qed.
Lemma noclock_early s : All s -> clock s = None -> Early s.
Proof.
  intros [EV C] CN. pose proof (v_linked _ EV) as [L1 _]. split.
  - intros t1 cbs k w m E Hn. assert (EK : earlyk k) by (intros r; apply noclk_early; apply (proj2 (C t1 ltac:(congruence))) with (1 := E)).
    pose proof (L1 t1 cbs k w m E Hn) as X. destruct w as [f|]; auto. destruct X as [kd [fu [X1 [X2 _]]]]. eauto.
  - intros t1 b X. apply noclk_early. apply (proj1 (C t1 ltac:(congruence)) _ X).
Qed.

(** * HThrow *)
Definition nothrow (t : id) (c : @core mem) : Prop := forall e, ~ In (HThrow t e) (snd (fst c)).
Lemma m1_nothrow N S t (c c1 : @core mem) : m1 N S c c1 -> nothrow t c -> nothrow t c1 \/ ((exists w k, N w k) /\ exists b, fst (fst c) = Some (t, b)).
Proof.
  assert (SC : forall r f l, (forall e : exn, ~ In (HThrow t e) r) -> forall e, ~ In (HThrow t e) (r ++ map (sched f) l)).
  { intros r f l H e X. apply in_app_or in X as [X|X]; [now apply H in X|]. apply in_map_iff in X as [[] [X _]]; discriminate. }
  unfold nothrow. intros H NT. destruct H; cbn [fst snd] in *; auto.
  - left. intros e X. apply in_app_or in X as [X|[X|[]]]; [now apply NT in X|]. subst h. contradiction.
  - left. intros e X. apply in_app_or in X as [X|[X|[]]]; [now apply NT in X|discriminate].
  - destruct (Nat.eq_dec t0 t) as [->|Hn]; [right; eauto 6|]. left. intros e X. apply in_app_or in X as [X|[X|[]]]; [now apply NT in X|]. destruct H0; subst h; congruence.
  - left. intros e X. apply (NT e). now right.
  - left. intros e X. apply (NT e). now right.
Qed.
Lemma mstar_nothrow N S t (c c1 : @core mem) : (resumes S -> forall w k, ~ N w k) -> mstar N S c c1 -> (forall b, fst (fst c) <> Some (t, b)) -> nothrow t c -> nothrow t c1.
Proof.
  intros NR H. induction H as [c|c c1 c2 H H0 IH]; intros Hc NT; auto. assert (D : (forall w k, ~ N w k) \/ ~ resumes S \/ forall b, fst (fst c1) <> Some (t, b)).
  { destruct H; cbn [fst snd] in *; auto; try (right; right; intros b0 X; congruence). }
  destruct (m1_nothrow N S t c c1 H NT) as [X|[_ [b Hb]]]; [|now apply Hc in Hb].
  destruct D as [D|D].
  - clear - D X H0. induction H0 as [c|c c1 c2 H H0 IH]; auto. apply IH. destruct (m1_nothrow N S t c c1 H X) as [Y|[[w [k Y]] _]]; auto. now apply D in Y.
  - apply IH; auto. intros b Hb. destruct D as [D|D]; [|now apply D in Hb]. destruct (m1_curback N S t b c c1 H Hb) as [[b0 Hb0]|HR]; [now apply Hc in Hb0|contradiction].
Qed.
Lemma all_stores (N : option (id * kind) -> (res lval -> body) -> Prop) (b : body) : (forall w k, N w k) -> stores N b.
Proof. intros Y. destruct b as [[v|e|o kk]|[v|e|o kk] ev todo sb|[]|e f r kk|q f [v|e] kk|test|[v|e|o kk]]; cbn [stores opstores]; auto; try (destruct o; cbn [opstores]; auto). Qed.
Lemma step_nothrow fire s t : Wf s -> (forall b, cur s <> Some (t, b)) -> nothrow t (coreof s) -> nothrow t (coreof (step fire s)).
Proof.
  intros W Hn NT. pose proof W as [I K]. pose (N := fun (_ : option (id * kind)) (_ : res lval -> body) => cur s <> None).
  assert (HN : forall t b, cur s = Some (t, b) -> stores N b) by (intros t1 b X; apply all_stores; intros w k; unfold N; congruence).
  pose proof (step_core shuffle dut delayers N fire s I K HN) as M. apply (mstar_nothrow N (Sof s) t _ _) with (2 := M); auto.
Qed.
Lemma susp_step0 fire t k s : Wf s -> Susp t k None s -> nothrow t (coreof s) ->
  (Susp t k None (step fire s) /\ nothrow t (coreof (step fire s))) \/
  (cur s = None /\ tdone (step fire s) = tdone s /\ (cur (step fire s) = Some (t, k (Ok VNone)) \/ (cur (step fire s) = Some (t, k CE) /\ exists tk, tget s t = Some tk /\ k_must tk = true))).
Proof.
  intros W SU NT. destruct (susp_step shuffle dut delayers fire t k None s W SU) as [X|[r [H1 [H2 [H3 H4]]]]].
  - left. split; auto. apply step_nothrow; auto. apply SU.
  - right. split; auto. split; auto. destruct H2 as [[-> H2]|[->|[e [H2 _]]]]; auto. now apply NT in H2.
Qed.

(** * Before the clock exists *)
Definition spin (main : prog) (W : prog -> body) (t : id) s : Prop :=
  cur s = Some (t, W (component main)) \/ cur s = Some (t, W (Op OSleep0 (again_k main))) \/ (Susp t (fun r => W (again_k main r)) None s /\ nothrow t (coreof s)).
Definition wait_k (main : prog) : res lval -> prog := thenv (fun _ : lval => main).
Lemma wrap_early W (p : prog) : wrap W -> early (W p). Proof. intros [->| ->]; exact I. Qed.
Lemma wrap_nocheck W (p : prog) : wrap W -> W p <> BClk CCheck. Proof. intros [->| ->]; discriminate. Qed.
Lemma spin_step test m main W t fire s : wrap W -> steps (init test m) s -> Early s -> spin main W t s ->
  (nstep (step fire s) = nstep s /\ Early (step fire s) /\ spin main W t (step fire s)) \/
  (nstep (step fire s) = nstep s /\ cur (step fire s) = Some (t, W (Op (OEvWait 0) (wait_k main)))) \/
  (cur (step fire s) = Some (t, W (Raise CancelledError)) /\ (nocancel test -> tdone (step fire s) = Some true)).
Proof.
  intros HW R EA SP. destruct (reach_linked _ _ _ _ _ _ R) as [WF _]. pose proof (early_nstep fire s EA) as NS. destruct SP as [Hc|[Hc|[SU NT]]].
  - assert (EA' : Early (step fire s)) by (apply step_early_gen; auto; intros c X; rewrite Hc in X; injection X as _ X; now apply wrap_nocheck in X).
    assert (Hc0 := Hc). rewrite component_unfold in Hc. pose proof (step_op shuffle dut delayers W fire s t _ _ HW Hc) as X. cbn [exec_op] in X. destruct (clock s).
    + right. left. split; auto. rewrite X. reflexivity.
    + left. split; auto. split; auto. right. left. rewrite X. reflexivity.
  - assert (EA' : Early (step fire s)) by (apply step_early_gen; auto; intros c X; rewrite Hc in X; injection X as _ X; now apply wrap_nocheck in X).
    pose proof (step_op shuffle dut delayers W fire s t _ _ HW Hc) as X. cbn [exec_op] in X. left. split; auto. split; auto. right. right. destruct (cur_task s t _ WF Hc) as [cbs [k0 [w [mu Et]]]]. rewrite X. split; [eapply suspend0_susp; eauto|].
    assert (N0 : nothrow t (coreof s)).
    { intros e Y. pose proof (proj1 WF) as I. pose proof (i_cnt _ I t) as CN. cbn [coreof fst snd] in CN. rewrite Hc in CN. cbn [cntc] in CN. rewrite Nat.eqb_refl in CN. pose proof (cnth_In t (HThrow t e) (ready s) Y eq_refl). unfold islive in CN. destruct (nth_error (futs s) t) as [[[] ? []]|]; lia. }
    intros e Y. cbn [coreof fst snd] in *. unfold suspend0, tget in Y. rewrite Et in Y. cbn [mkt k_must] in Y. cbn [ready set_cur push set_ready] in Y. apply in_app_or in Y as [Y|[Y|[]]]; [|discriminate]. apply (N0 e). cbn [coreof fst snd].
    unfold tput in Y. rewrite Et in Y. exact Y.
  - assert (EA' : Early (step fire s)) by (apply step_early_gen; auto; eapply susp_unwait; eauto).
    destruct (susp_step0 fire t _ s WF SU NT) as [[X Y]|[X [Y [Z|[Z [tk [T M]]]]]]].
    + left. split; auto. split; auto. right. right. auto.
    + left. split; auto. split; auto. left. exact Z.
    + right. right. split; auto. intros NC. rewrite Y. exact (must_tdone _ _ _ _ _ _ _ _ NC R T M).
Qed.
Lemma spin_track test m main W t s s' : wrap W -> steps (init test m) s -> Early s -> spin main W t s -> steps s s' ->
  (nstep s' = nstep s /\ Early s' /\ spin main W t s') \/
  (exists s1, steps s s1 /\ steps s1 s' /\ nstep s1 = nstep s /\ cur s1 = Some (t, W (Op (OEvWait 0) (wait_k main)))) \/
  (exists s1, steps s s1 /\ steps s1 s' /\ cur s1 = Some (t, W (Raise CancelledError)) /\ (nocancel test -> tdone s1 = Some true)).
Proof.
  intros HW R0 EA SP R. induction R as [s|s s1 fire R IH]; auto. destruct (IH R0 EA SP) as [[X1 [X2 X3]]|[[s2 [X1 [X2 X3]]]|[s2 [X1 [X2 X3]]]]].
  - assert (R1 : steps (init test m) s1) by (exact (steps_trans _ _ _ _ _ _ R0 R)). assert (R2 : steps s (step fire s1)) by (apply steps_step; exact R). destruct (spin_step test m main W t fire s1 HW R1 X2 X3) as [[Y1 [Y2 Y3]]|[[Y1 Y2]|Y]].
    + left. split; [congruence|auto].
    + right. left. exists (step fire s1). split; auto. split; [apply steps_refl|]. split; [congruence|auto].
    + right. right. exists (step fire s1). split; auto. split; [apply steps_refl|]. auto.
  - right. left. exists s2. split; auto. split; [apply steps_step; exact X2|auto].
  - right. right. exists s2. split; auto. split; [apply steps_step; exact X2|auto].
Qed.
(** From the start of its coroutine. *)
Lemma comp_W test m main W t s s' : wrap W -> steps (init test m) s -> cur s = Some (t, W (component main)) -> steps s s' ->
  (exists s1, steps s s1 /\ steps s1 s' /\ cur s1 = Some (t, W main) /\ nstep s1 = S (nstep s)) \/
  (exists s1, steps s s1 /\ steps s1 s' /\ cur s1 = Some (t, W (Raise CancelledError)) /\ (nocancel test -> tdone s1 = Some true)) \/
  (nstep s' = nstep s /\ ((Early s' /\ spin main W t s') \/ cur s' = Some (t, W (component main)) \/ cur s' = Some (t, W (Op (OEvWait 0) (wait_k main))))) \/
  (inside_wait s' t 0 /\ (nstep s' <= S (nstep s) \/ (nocancel test -> tdone s' = Some true))).
Proof.
  intros HW R0 Hc R. pose proof (reach_all _ _ _ _ _ _ R0) as A.
  assert (WAIT : forall s1, steps s s1 -> steps s1 s' -> nstep s1 = nstep s -> cur s1 = Some (t, W (Op (OEvWait 0) (wait_k main))) ->
    (exists s1, steps s s1 /\ steps s1 s' /\ cur s1 = Some (t, W main) /\ nstep s1 = S (nstep s)) \/
    (exists s1, steps s s1 /\ steps s1 s' /\ cur s1 = Some (t, W (Raise CancelledError)) /\ (nocancel test -> tdone s1 = Some true)) \/
    (nstep s' = nstep s /\ cur s' = Some (t, W (Op (OEvWait 0) (wait_k main)))) \/
    (inside_wait s' t 0 /\ (nstep s' <= S (nstep s) \/ (nocancel test -> tdone s' = Some true)))).
  { intros s1 R1 R2 N1 H1. assert (R01 : steps (init test m) s1) by (exact (steps_trans _ _ _ _ _ _ R0 R1)).
    destruct (wait_one shuffle dut delayers test m s1 s' t W _ HW R01 H1 R2) as [->|[[X Y]|[[s2 [Q1 [Q2 [Q3 Q4]]]]|[[s2 [Q1 [Q2 [Q3 Q4]]]]|[X Y]]]]].
    - auto.
    - right. right. right. split; auto. left. lia.
    - left. exists s2. split; [exact (steps_trans _ _ _ _ _ _ R1 Q1)|]. split; auto. split; [exact Q3|lia].
    - right. left. exists s2. split; [exact (steps_trans _ _ _ _ _ _ R1 Q1)|]. auto.
    - right. right. right. auto. }
  destruct (clock s) as [c|] eqn:CL.
  - destruct (steps_first _ _ _ _ _ R) as [->|[fire R1]]; [right; right; left; auto|]. assert (Hc0 := Hc). rewrite component_unfold in Hc. pose proof (step_op shuffle dut delayers W fire s t _ _ HW Hc) as X. cbn [exec_op] in X. rewrite CL in X.
    destruct (WAIT (step fire s)) as [Y|[Y|[[Y1 Y2]|Y]]]; auto; [apply steps_step, steps_refl|rewrite X; reflexivity|rewrite X; reflexivity|]. right; right; left. auto.
  - pose proof (noclock_early s A CL) as EA. destruct (spin_track test m main W t s s' HW R0 EA (or_introl Hc) R) as [[X1 [X2 X3]]|[[s1 [X1 [X2 [X3 X4]]]]|X]]; auto.
    + right. right. left. auto.
    + destruct (WAIT s1 X1 X2 X3 X4) as [Y|[Y|[[Y1 Y2]|Y]]]; auto. right; right; left. auto.
Qed.

(** * From its creation *)
Context (shuffled : forall l, Permutation l (shuffle l)).
Lemma step_cycle test m s c l : steps (init test m) s -> cur s = Some (c, BClk (CStep l)) -> tdone s = Some true \/ l = false.
Proof.
  intros R Hc. pose proof (reach_all _ _ _ _ _ _ R) as [EV C]. assert (CS : clock s = Some c) by (eapply clock_of; eauto).
  destruct (reach_phase shuffle dut delayers shuffled test m s R) as [FI|c1 Hc1 TD CS1|c1 s1 g CA SU GA|c1 s1 CA DE Ph|c1 Hc1 TD CS1].
  - exfalso. exact (proj2 FI _ _ Hc).
  - congruence.
  - exfalso. destruct CA as [_ [_ [_ [_ [_ CS1]]]]]. assert (c1 = c) by congruence. subst c1. exact (proj1 SU _ Hc).
  - left. destruct CA as [R1 [R2 [_ [_ [TD _]]]]]. exact (steps_tdone shuffle dut delayers test m s1 s R1 TD R2).
  - right. congruence.
Qed.
Lemma born_step test m main t fire s : tame test -> steps (init test m) s -> tdone s <> Some true -> Susp t (start (BProg (component main))) None s -> nothrow t (coreof s) ->
  (nstep (step fire s) = nstep s /\ Susp t (start (BProg (component main))) None (step fire s) /\ nothrow t (coreof (step fire s))) \/
  (nstep (step fire s) = nstep s /\ cur (step fire s) = Some (t, BProg (component main))) \/
  (cur (step fire s) = Some (t, BProg (Raise CancelledError)) /\ (nocancel test -> tdone (step fire s) = Some true)).
Proof.
  intros TA R TD SU NT. destruct (reach_linked _ _ _ _ _ _ R) as [WF _]. assert (NS : nstep (step fire s) = nstep s).
  { rewrite nstep_step. destruct (cur s) as [[c b]|] eqn:Hc; auto. destruct b as [| |[| | | | | | |l]| | | |]; auto. exfalso. destruct (step_cycle test m s c l R Hc) as [X| ->]; [contradiction|].
    destruct (C33_step_with_cancellation_partial shuffle dut delayers test m s c TA R Hc) as [X _]. destruct SU as [Hn [cbs [mu E]]]. destruct (X t) as [f [[k [T1 T2]] _]].
    - apply live_iff. unfold islive. now rewrite E.
    - intros ->. now apply Hn in Hc.
    - unfold tget, fget in T1. rewrite E in T1. injection T1 as <-. discriminate. }
  destruct (susp_step0 fire t _ s WF SU NT) as [X|[X [Y [Z|[Z [tk [T M]]]]]]].
  - left. auto.
  - right. left. auto.
  - right. right. split; auto. intros NC. rewrite Y. exact (must_tdone _ _ _ _ _ _ _ _ NC R T M).
Qed.
Lemma born_track test m main t s s' : tame test -> steps (init test m) s -> Susp t (start (BProg (component main))) None s -> nothrow t (coreof s) -> steps s s' ->
  tdone s' = Some true \/
  (nstep s' = nstep s /\ Susp t (start (BProg (component main))) None s' /\ nothrow t (coreof s')) \/
  (exists s1, steps s s1 /\ steps s1 s' /\ nstep s1 = nstep s /\ cur s1 = Some (t, BProg (component main))) \/
  (exists s1, steps s s1 /\ steps s1 s' /\ cur s1 = Some (t, BProg (Raise CancelledError)) /\ (nocancel test -> tdone s1 = Some true)).
Proof.
  intros TA R0 SU NT R. induction R as [s|s s1 fire R IH]; auto. assert (R1 : steps (init test m) s1) by (exact (steps_trans _ _ _ _ _ _ R0 R)). assert (R2 : steps s (step fire s1)) by (apply steps_step; exact R).
  destruct (IH R0 SU NT) as [X|[[X1 [X2 X3]]|[[s2 [X1 [X2 X3]]]|[s2 [X1 [X2 X3]]]]]].
  - left. apply (steps_tdone shuffle dut delayers test m s1); auto. apply steps_step, steps_refl.
  - assert (D : tdone s1 = Some true \/ tdone s1 <> Some true) by (destruct (tdone s1) as [[]|]; auto; right; discriminate).
    destruct D as [D|D]; [left; apply (steps_tdone shuffle dut delayers test m s1); auto; apply steps_step, steps_refl|]. right.
    destruct (born_step test m main t fire s1 TA R1 D X2 X3) as [[Y1 [Y2 Y3]]|[[Y1 Y2]|Y]].
    + left. split; [congruence|auto].
    + right. left. exists (step fire s1). split; auto. split; [apply steps_refl|]. split; [congruence|auto].
    + right. right. exists (step fire s1). split; auto. split; [apply steps_refl|]. auto.
  - right. right. left. exists s2. split; auto. split; [apply steps_step; exact X2|auto].
  - right. right. right. exists s2. split; auto. split; [apply steps_step; exact X2|auto].
Qed.
Lemma born test m main t W k fire s : steps (init test m) s -> wrap W -> cur s = Some (t, W (Let (OCreate (component main)) k)) ->
  Susp (List.length (futs s)) (start (BProg (component main))) None (step fire s) /\ nothrow (List.length (futs s)) (coreof (step fire s)) /\ nstep (step fire s) = nstep s /\ tdone (step fire s) = tdone s.
Proof.
  intros R HW Hc. destruct (reach_linked _ _ _ _ _ _ R) as [WF _]. unfold Let in Hc. pose proof (step_op shuffle dut delayers W fire s t _ _ HW Hc) as X. cbn [exec_op] in X. rewrite X.
  assert (Lt : t < List.length (futs s)) by (destruct (cur_task s t _ WF Hc) as [cbs [k0 [w [mu Et]]]]; apply nth_error_Some; unfold fget in Et; congruence). split; [|split; [|split; reflexivity]].
  - split; [intros b Y; cbn [cur go set_cur] in Y; injection Y as Y _; lia|]. exists [], false. cbn [futs go set_cur spawn push set_ready falloc set_futs]. rewrite nth_app_new, Nat.eqb_refl. reflexivity.
  - intros e Y. cbn [coreof fst snd ready go set_cur spawn push set_ready falloc set_futs] in Y. apply in_app_or in Y as [Y|[Y|[]]]; [|discriminate]. destruct (handle_live _ (proj1 WF) _ _ Y eq_refl) as [? [? [? [? Z]]]]. cbn [snd coreof] in Z.
    assert (List.length (futs s) < List.length (futs s)) by (apply nth_error_Some; congruence). lia.
Qed.
End Comp.
