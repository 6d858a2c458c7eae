(** There is one clock task; a task that awaits the clock event is resumed after exactly one dut.Step. *)
From Coq Require Import List Bool Arith ZArith Lia.
From Verif Require Import Py Prio_Model Loop_Model Loop_Spec Loop_Proofs Loop2_Proofs Loop3_Proofs Loop4_Proofs Loop7_Proofs Loop8_Proofs Loop9_Proofs.
Import ListNotations.
Open Scope nat_scope.

Section Clock.
Context {mem : Type}.
Notation prog := (@prog mem). Notation state := (@state mem). Notation body := (@body mem). Notation task := (@task mem).
Notation fut := (@fut mem). Notation kind := (@kind mem).
Implicit Types (s : state) (F : list fut).
Context (shuffle : list id -> list id) (dut delayers : mem -> mem).
Notation step := (step shuffle dut delayers). Notation steps := (steps shuffle dut delayers).

(** * Where stored continuations come from *)
Lemma m1_cont N S t st cbs k w m (c c1 : @core mem) : m1 N S c c1 -> nth_error (snd c1) t = Some (mkt st cbs k w m) ->
  (exists st0 cbs0 w0 m0, nth_error (snd c) t = Some (mkt st0 cbs0 k w0 m0)) \/
  (exists w, N w k) /\ ((exists b, fst (fst c) = Some (t, b)) \/ (List.length (snd c) <= t /\ exists tk, S (KTask tk) Pending)).
Proof.
  intros H E. destruct H; cbn [fst snd] in *.
  - left. rewrite (put_nth_get _ _ _ _ t H) in E. destruct (Nat.eqb_spec t f) as [->|]; eauto 10. injection E as -> <- ->. discriminate.
  - left. rewrite (put_nth_get _ _ _ _ t H) in E. destruct (Nat.eqb_spec t t0) as [->|]; [|unfold mkt in *; eauto 10]. injection E as <- <- <- <- <-. eauto 10.
  - left. rewrite (put_nth_get _ _ _ _ t H) in E. destruct (Nat.eqb_spec t f) as [->|]; [|unfold mkt in *; eauto 10]. injection E as <- _ ->. unfold mkt. eauto 10.
  - eauto 10.
  - left. rewrite (put_nth_get _ _ _ _ t H) in E. destruct (Nat.eqb_spec t f) as [->|]; [|unfold mkt in *; eauto 10]. injection E as <- <- ->. destruct k0; contradiction.
  - left. rewrite nth_app_new in E. destruct (Nat.eqb_spec t (List.length F)); [|eauto 10]. injection E as <- <- ->. discriminate.
  - rewrite nth_app_new in E. destruct (Nat.eqb_spec t (List.length F)) as [->|]; [|left; eauto 10]. injection E as <- <- <- <- <-. right. split; [eauto|]. right. split; eauto.
  - left. eauto 10.
  - rewrite (put_nth_get _ _ _ _ t H) in E. destruct (Nat.eqb_spec t t0) as [->|]; [|left; eauto 10]. injection E as <- <- <- <- <-. right. split; eauto.
  - assert (E1 : nth_error (put_nth t0 (mkt st0 cbs0 k1 (Some f) m0) F) f = Some (mk_fut Pending cbs' kd)).
    { rewrite (put_nth_get _ _ _ _ f H). destruct (Nat.eqb_spec f t0); [congruence|assumption]. }
    rewrite (put_nth_get _ _ _ _ t E1) in E. destruct (Nat.eqb_spec t f) as [->|].
    + injection E as <- _ ->. left. unfold mkt. eauto 10.
    + rewrite (put_nth_get _ _ _ _ t H) in E. destruct (Nat.eqb_spec t t0) as [->|]; [|left; eauto 10]. injection E as <- <- <- <- <-. right. split; eauto.
  - left. rewrite (put_nth_get _ _ _ _ t H) in E. destruct (Nat.eqb_spec t t0) as [->|]; [|eauto 10]. injection E as <- <- <- <- <-. eauto 10.
  - left. rewrite (put_nth_get _ _ _ _ t H0) in E. destruct (Nat.eqb_spec t t0) as [->|]; [|eauto 10]. injection E as <- <- <- <- <-. eauto 10.
  - left. eauto 10.
Qed.
Lemma m1_curback N S t b (c c1 : @core mem) : m1 N S c c1 -> fst (fst c1) = Some (t, b) -> (exists b0, fst (fst c) = Some (t, b0)) \/ resumes S.
Proof. intros H E. destruct H; cbn [fst snd] in *; eauto; try discriminate. injection E as <- <-. eauto. Qed.
Lemma mstar_cont N S t (c c1 : @core mem) : (resumes S -> forall w k, ~ N w k) -> mstar N S c c1 -> forall st cbs k w m, nth_error (snd c1) t = Some (mkt st cbs k w m) ->
  (exists st0 cbs0 w0 m0, nth_error (snd c) t = Some (mkt st0 cbs0 k w0 m0)) \/
  (exists w, N w k) /\ ((exists b, fst (fst c) = Some (t, b)) \/ (List.length (snd c) <= t /\ exists tk, S (KTask tk) Pending)).
Proof.
  intros NR H. induction H as [c|c c1 c2 H H0 IH]; intros st cbs k w m E; [left; eauto|].
  destruct (IH _ _ _ _ _ E) as [[st0 [cbs0 [w0 [m0 E1]]]]|[[w1 HN] [[b Hb]|[L X]]]].
  - eapply m1_cont; eauto.
  - destruct (m1_curback N S t b c c1 H Hb) as [[b0 Hb0]|HR]; [|now apply NR in HN]. right. split; eauto.
  - right. split; eauto. right. split; auto. pose proof (m1_length N S c c1 H). lia.
Qed.

(** * One clock task *)
Fixpoint noclkb (b : body) : Prop :=
  match b with BClk _ | BHook _ _ _ _ => False | BEv _ _ _ k | BGet _ _ _ k => forall r, noclkb (k r) | _ => True end.
Definition noclkk (k : res lval -> body) : Prop := forall r, noclkb (k r).
Definition Clk1 s : Prop := forall t, clock s <> Some t ->
  (forall b, cur s = Some (t, b) -> noclkb b) /\ (forall st cbs k w m, nth_error (futs s) t = Some (mkt st cbs k w m) -> noclkk k).
Definition spawning (o : @op mem prog) : Prop := match o with OCreate _ | OStartClock => True | _ => False end.
Definition spawns (b : body) : Prop := match b with BProg (Op o _) | BHook (Op o _) _ _ _ | BTest (Op o _) => spawning o | _ => False end.
Lemma spawning_dec (o : @op mem prog) : spawning o \/ ~ spawning o. Proof. destruct o; simpl; auto. Qed.
Lemma spawns_dec (b : body) : spawns b \/ ~ spawns b.
Proof. destruct b as [[v|e|o kk]|[v|e|o kk] ev todo sb|c|e f r kk|q f [v|e] kk|test|[v|e|o kk]]; simpl; auto using spawning_dec. Qed.
Lemma noclk_stores (b : body) : ~ spawns b -> noclkb b -> stores (fun _ => noclkk) b.
Proof.
  assert (O : forall o k, ~ spawning o -> noclkk k -> opstores (fun _ => noclkk) o k).
  { intros o k H H0. destruct o; simpl in *; auto; try (exfalso; apply H; exact I); intros f0 r; exact H0. }
  destruct b as [[v|e|o kk]|[v|e|o kk] ev todo sb|c|e f r kk|q f [v|e] kk|test|[v|e|o kk]]; cbn [spawns noclkb stores opstores]; intros HS H; auto; try contradiction; try (apply O; [exact HS|intros r; exact I]).
  - intros f0 r0. exact H.
  - intros f r r0. exact I.
Qed.
Lemma nextb_noclk s t b b' : nextb s t b b' -> noclkb b -> noclkb b'.
Proof.
  intros Hn H. destruct b as [[v|e|o kk]|[v|e|o kk] ev todo sb|c|e f r kk|q f [v|e] kk|test|[v|e|o kk]]; cbn [nextb noclkb] in *; try contradiction; try (subst b'; auto; exact I);
    try (destruct Hn as [r [_ ->]]; try exact I; auto; fail).
Qed.
Lemma clock_step fire s c : clock s = Some c -> clock (step fire s) = Some c.
Proof.
  intros H. rewrite (fr_clock _ _ (step_fr shuffle dut delayers fire s)). unfold seff. destruct (cur s) as [[t b]|]; auto.
  assert (Q : forall o, clock (oeff s t o) = Some c).
  { intros o. destruct o as [f|m|fl| |p|f|f| |e|e|e| |q v|q|q| |h z d|l| |]; auto; [destruct d; auto|]. simpl. now rewrite H. }
  destruct b as [[v|e|o kk]|[v|e|o kk] ev todo sb|c0|e f r kk|q f [v|e] kk|test|[v|e|o kk]]; auto; [destruct ev; auto|]. destruct c0 as [| | |[]| | | |]; auto.
Qed.
Lemma spawn_futs s t b fire : cur s = Some (t, b) -> spawns b ->
  (exists p, futs (step fire s) = futs s ++ [mkt Pending [] (start (BProg p)) None false]) \/ futs (step fire s) = futs s \/
  (clock (step fire s) = Some (List.length (futs s)) /\ futs (step fire s) = futs s ++ [mkt Pending [] (start (BClk CInit)) None false]).
Proof.
  intros Hc HS. unfold Loop_Model.step. rewrite Hc. destruct b as [[v|e|o kk]|[v|e|o kk] ev todo sb|c|e f r kk|q f [v|e] kk|test|[v|e|o kk]]; simpl in HS; try contradiction; destruct o; simpl in HS; try contradiction; cbn [exec_body exec_op];
    try (left; eexists; reflexivity); destruct (clock s) eqn:Cl; auto.
Qed.
Lemma step_clk1 fire s : Wf s -> Clk1 s -> Clk1 (step fire s).
Proof.
  intros W C t Ht. pose proof W as [I K]. assert (Ht0 : clock s <> Some t) by (intros X; apply Ht; now apply clock_step). destruct (C t Ht0) as [C1 C2]. split.
  - intros b' Hc'. destruct (step_cur shuffle dut delayers fire s t b' W Hc') as [[b [Hc Hn]]|[Hc [h [r [n [st [cbs [k [w [m [Hr [Hb [Ho [E ->]]]]]]]]]]]]]].
    + eapply nextb_noclk; eauto.
    + exact (C2 _ _ _ _ _ E _).
  - intros st cbs k w m E. destruct (cur s) as [[t0 b]|] eqn:Hc.
    + destruct (spawns_dec b) as [HS|HS].
      * destruct (spawn_futs s t0 b fire Hc HS) as [[p X]|[X|[X0 X]]]; rewrite X in E; eauto; rewrite nth_app_new in E; destruct (Nat.eqb_spec t (List.length (futs s))) as [->|]; eauto; [|now contradiction Ht].
        injection E as _ _ <- _ _. intros [v|e]; exact Logic.I.
      * set (N := fun (_ : option (id * kind)) (k : res lval -> body) => clock s <> Some t0 -> noclkk k).
        assert (HN : forall t b, cur s = Some (t, b) -> stores N b).
        { intros t1 b1 X. rewrite Hc in X. injection X as <- <-. destruct (option_map (Nat.eqb t0) (clock s)) as [[|]|] eqn:Q.
          - assert (Y : forall w k, N w k). { intros w0 k0 Z. destruct (clock s) as [c|]; [|discriminate]. injection Q as Q. apply Nat.eqb_eq in Q. congruence. }
            clear - Y. destruct b as [[v|e|o kk]|[v|e|o kk] ev todo sb|[]|e f r kk|q f [v|e] kk|test|[v|e|o kk]]; cbn [stores opstores]; auto; try (destruct o; cbn [opstores]; auto).
          - assert (Y : clock s <> Some t0). { intros Z. rewrite Z in Q. simpl in Q. rewrite Nat.eqb_refl in Q. discriminate. }
            pose proof (noclk_stores b HS (proj1 (C t0 Y) b Hc)) as X. clear - X. destruct b as [[v|e|o kk]|[v|e|o kk] ev todo sb|[]|e f r kk|q f [v|e] kk|test|[v|e|o kk]]; cbn [stores opstores] in *; unfold N; auto; try (destruct o; cbn [opstores] in *; auto; intuition auto; fail); intuition auto.
          - assert (Y : clock s <> Some t0). { intros Z. rewrite Z in Q. discriminate. }
            pose proof (noclk_stores b HS (proj1 (C t0 Y) b Hc)) as X. clear - X. destruct b as [[v|e|o kk]|[v|e|o kk] ev todo sb|[]|e f r kk|q f [v|e] kk|test|[v|e|o kk]]; cbn [stores opstores] in *; unfold N; auto; try (destruct o; cbn [opstores] in *; auto; intuition auto; fail); intuition auto. }
        assert (M := step_core shuffle dut delayers N fire s I K HN).
        assert (NR : resumes (Sof s) -> forall w k, ~ N w k) by (intros X; simpl in X; congruence).
        destruct (mstar_cont N (Sof s) t _ _ NR M _ _ _ _ _ E) as [[st0 [cbs0 [w0 [m0 E0]]]]|[[w0 Nk] [[b0 Hb]|[_ [tk X]]]]].
        -- eauto.
        -- cbn [coreof fst] in Hb. rewrite Hc in Hb. injection Hb as -> <-. now apply Nk.
        -- exfalso. destruct X as [[_ X]|[[X _]|X]]; [discriminate| |].
           ++ unfold creates in X. rewrite Hc in X. destruct b as [[v|e|o kk]|[v|e|o kk] ev todo sb|[]|e f r kk|q f [v|e] kk|test|[v|e|o kk]]; simpl in X, HS; try contradiction; try discriminate; destruct X as [[p ->]| ->]; now apply HS.
           ++ unfold finals, final in X. rewrite Hc in X. destruct b as [[v|[] |o kk]|[v|e|o kk] ev todo sb|[]|e f r kk|q f [v|e] kk|test|[v|[] |o kk]]; try contradiction; simpl in X; try discriminate; destruct (k_must tk); discriminate.
    + assert (M := step_core shuffle dut delayers (fun _ _ => False) fire s I K ltac:(intros ? ? X; congruence)).
      destruct (mstar_cont (fun _ _ => False) (Sof s) t _ _ ltac:(auto) M _ _ _ _ _ E) as [[st0 [cbs0 [w0 [m0 E0]]]]|[[w0 []] _]]. eauto.
Qed.
Lemma init_clk1 test m : Clk1 (init test m : state).
Proof.
  intros t _. split; [discriminate|]. intros st cbs k w mu E. destruct t as [|[|t]]; simpl in E; try discriminate. injection E as _ _ <- _ _. intros [v|e]; exact I.
Qed.

(** * The clock task before __other_tasks_done returns *)
Fixpoint early (b : body) : Prop :=
  match b with
  | BClk CInit | BClk CRound | BClk CCheck => True
  | BClk _ | BHook _ _ _ _ => False
  | BEv _ _ _ k | BGet _ _ _ k => forall r, early (k r)
  | _ => True
  end.
Definition earlyk (k : res lval -> body) : Prop := forall r, early (k r).
Definition Early s : Prop := linked (fun _ => earlyk) (coreof s) /\ forall t b, cur s = Some (t, b) -> early b.
Lemma noclk_early (b : body) : noclkb b -> early b.
Proof. induction b as [ | | |e f r k IH|q f r k IH| | ]; simpl; auto; try contradiction. Qed.
Lemma start_early (b : body) : early b -> earlyk (start b). Proof. intros H [v|e]; simpl; auto. Qed.
Lemma early_stores (b : body) : early b -> stores (fun _ => earlyk) b.
Proof.
  assert (O : forall o k, earlyk k -> opstores (fun _ => earlyk) o k).
  { intros o k H0. destruct o; simpl in *; auto; try (intros f0 r; exact H0); apply start_early; exact I. }
  destruct b as [[v|e|o kk]|[v|e|o kk] ev todo sb|[]|e f r kk|q f [v|e] kk|test|[v|e|o kk]]; cbn [early stores opstores]; intros H; auto; try contradiction; try (apply O; intros r; exact I); try (apply start_early; exact I).
  - intros f0 r. exact H.
  - intros f r. intros r0. exact I.
Qed.
Lemma step_early fire s t cbs k f fu m r : Wf s -> (forall b, cur s <> Some (t, b)) -> nth_error (futs s) t = Some (mkt Pending cbs k (Some f) m) ->
  nth_error (futs s) f = Some fu -> f_st fu = Finished r -> Early s -> Early (step fire s).
Proof.
  intros W Ht E Ef St [L1 L2]. pose proof W as [I K]. split.
  - eapply mstar_linked; [|exact L1]. apply (step_core shuffle dut delayers (fun _ => earlyk)); auto. intros t1 b Hc. apply early_stores. eauto.
  - intros t' b' Hc'. destruct (step_cur shuffle dut delayers fire s t' b' W Hc') as [[b [Hc Hn]]|[Hc [h [r0 [n [st [cbs0 [k0 [w0 [m0 [Hr [Hb [Ho [E0 ->]]]]]]]]]]]]]].
    + specialize (L2 _ _ Hc). destruct b as [[v|e|o kk]|[v|e|o kk] ev todo sb|c|e f0 r0 kk|q f0 [v|e] kk|test|[v|e|o kk]]; cbn [nextb early] in *; try contradiction; try (subst b'; exact Logic.I);
        try (subst b'; auto; fail); try (destruct Hn as [r1 [_ ->]]; try exact Logic.I; auto; fail).
      destruct c as [| | |[|[h ev] todo] sb| | | |last]; try contradiction; try (subst b'; exact Logic.I). destruct Hn as [->|[U _]]; [exact Logic.I|].
      exfalso. destruct (quiet_check s t' U t) as [f1 [W1 Q]].
      * unfold islive. now rewrite E.
      * intros ->. eapply Ht; eauto.
      * rewrite (waitof_task _ _ _ _ _ _ _ E) in W1. injection W1 as <-. exact (Q fu r Ef St).
    + assert (Hin : In h (ready s)) by (rewrite Hr; now left). destruct (handle_live _ I h t' Hin Ho) as [cbs' [k' [w' [m' E']]]]. cbn [snd coreof] in E'. rewrite E0 in E'. injection E' as -> <- <- <- <-.
      assert (Hcn : forall b, cur s <> Some (t', b)) by congruence. pose proof (L1 t' _ _ _ _ E0 Hcn) as X. destruct w0 as [f0|]; [destruct X as [kd [fu0 [_ [_ X]]]]|]; apply X.
Qed.

(** * A task awaiting the clock event *)
Definition CE : res lval := Exn CancelledError.
(** Suspended in the wait, [n0]: number of steps when it started to wait. *)
Definition InWait (n0 : nat) (t : id) (kb : res lval -> body) s : Prop :=
  exists f fu cbs m, (forall b, cur s <> Some (t, b)) /\ nth_error (futs s) t = Some (mkt Pending cbs (fun r => BEv 0 f r kb) (Some f) m) /\
    nth_error (futs s) f = Some fu /\ f_kind fu = KEv 0 /\
    ((f_st fu = Pending /\ nstep s = n0) \/ (f_st fu = Finished (Ok (VBool true)) /\ nstep s = S n0 /\ Early s) \/ f_st fu = Canc).
Definition Leaving (n0 : nat) (t : id) (kb : res lval -> body) s : Prop :=
  exists f r, cur s = Some (t, BEv 0 f r kb) /\ ((r = Ok (VBool true) /\ nstep s = S n0) \/ r = CE).
Definition Left_ (n0 : nat) (t : id) (kb : res lval -> body) s : Prop :=
  (cur s = Some (t, kb (Ok (VBool true))) /\ nstep s = S n0) \/ cur s = Some (t, kb CE).
Definition All s : Prop := Evi s /\ Clk1 s.
Lemma step_all fire s : All s -> All (step fire s).
Proof. intros [A B]. split; [now apply step_evi|]. apply step_clk1; auto. apply A. Qed.
Lemma reach_all test m s : steps (init test m) s -> All s.
Proof.
  intros R. split; [eapply reach_evi; eauto|]. assert (X : Wf s /\ Clk1 s); [|apply X].
  apply (steps_ind_inv shuffle dut delayers (fun s => Wf s /\ Clk1 s) _ _) in R; auto; [|split; [apply init_wf|apply init_clk1]]. intros fire s0 [A B]. split; [now apply step_wf|now apply step_clk1].
Qed.
Lemma steps_all s s' : All s -> steps s s' -> All s'.
Proof. intros A R. apply (steps_ind_inv shuffle dut delayers All _ _) in R; auto. intros; now apply step_all. Qed.
Lemma nstep_step fire s : nstep (step fire s) = match cur s with Some (_, BClk (CStep _)) => S (nstep s) | _ => nstep s end.
Proof.
  rewrite (fr_nstep _ _ (step_fr shuffle dut delayers fire s)). unfold seff. destruct (cur s) as [[t b]|]; auto.
  assert (Q : forall o, nstep (oeff s t o) = nstep s).
  { intros o. destruct o as [f|m|fl| |p|f|f| |e|e|e| |q v|q|q| |h z d|l| |]; auto; [destruct d; auto|]. simpl. destruct (clock s); auto. }
  destruct b as [[v|e|o kk]|[v|e|o kk] ev todo sb|c0|e f r kk|q f [v|e] kk|test|[v|e|o kk]]; auto; [destruct ev; auto|]. destruct c0 as [| | |[]| | | |]; auto.
Qed.
Lemma sets0 s : All s -> sets s = Some 0 -> exists t l, cur s = Some (t, BClk (CStep l)).
Proof.
  intros [[_ _ H _ _ [ws Z]] _] X. unfold sets in X. destruct (cur s) as [[t b]|] eqn:Hc; [|discriminate].
  assert (Q : forall o, opsets s o <> Some 0).
  { intros o Y. unfold opsets in Y. destruct o; try discriminate. destruct (nth_error (evs s) e) as [ev|] eqn:Ee; [|discriminate]. destruct (e_priv ev) eqn:P; [discriminate|]. injection Y as ->. rewrite Z in Ee. injection Ee as <-. discriminate. }
  pose proof (h_cur _ H _ _ Hc) as HB. destruct b as [[v|e|o kk]|[v|e|o kk] ev todo sb|[]|e f r kk|q f [v|e] kk|test|[v|e|o kk]]; try discriminate; try (now apply Q in X); eauto.
  destruct HB as [HB _]. congruence.
Qed.
Lemma early_after_step fire s t l : All s -> cur s = Some (t, BClk (CStep l)) -> Early (step fire s).
Proof.
  intros [EV C] Hc. pose proof (v_wf _ EV) as W. pose proof W as [I K]. pose proof (v_linked _ (step_evi shuffle dut delayers fire s EV)) as [L1 _].
  assert (CS : clock s = Some t).
  { destruct (option_map (Nat.eqb t) (clock s)) as [[|]|] eqn:Q.
    - destruct (clock s) as [c|]; [|discriminate]. injection Q as Q. apply Nat.eqb_eq in Q. congruence.
    - exfalso. apply (proj1 (C t ltac:(intros Z; rewrite Z in Q; simpl in Q; rewrite Nat.eqb_refl in Q; discriminate)) _ Hc).
    - exfalso. apply (proj1 (C t ltac:(intros Z; rewrite Z in Q; discriminate)) _ Hc). }
  pose proof (clock_step fire s t CS) as CS'. pose proof (step_clk1 fire s W C) as C'. assert (Hc' : cur (step fire s) = Some (t, BClk CRound)) by (unfold Loop_Model.step; rewrite Hc; reflexivity). split.
  - intros t1 cbs k w m E Hn. assert (EK : earlyk k).
    { intros r. apply noclk_early. apply (proj2 (C' t1 ltac:(intros X; rewrite CS' in X; injection X as <-; exact (Hn _ Hc')))) with (1 := E). }
    pose proof (L1 t1 cbs k w m E Hn) as X. destruct w as [f|]; auto. destruct X as [kd [fu [X1 [X2 _]]]]. eauto.
  - intros t1 b X. rewrite Hc' in X. injection X as <- <-. exact Logic.I.
Qed.
Lemma inwait_step fire n0 t kb s : All s -> InWait n0 t kb s -> InWait n0 t kb (step fire s) \/ Leaving n0 t kb (step fire s).
Proof.
  intros A [f [fu [cbs [m [Hc [E [Ef [Kf Ph]]]]]]]]. pose proof A as [EV C]. pose proof (v_wf _ EV) as W. pose proof W as [I K].
  destruct (step_task shuffle dut delayers fire s t cbs _ (Some f) m W Hc E) as [[Hc' [cbs' [m' E']]]|[Hn [h [r [n [Hr [Hb [Ho [Hc' HF]]]]]]]]].
  - left. assert (M := True_ms_kin shuffle dut delayers fire s I K). destruct (mstar_evolve _ _ f _ _ M fu Ef) as [fu' [Ef' [Kf' Ev]]]; [now rewrite Kf|]. cbn [snd coreof] in Ef'.
    exists f, fu', cbs', m'. split; [auto|]. split; [auto|]. split; [auto|]. split; [congruence|]. rewrite Kf in Ev. destruct Ev as [Ev|[Ev1 [Ev2 Ev3]]].
    + rewrite Ev. destruct Ph as [[P N]|[[P [N EA]]|P]]; [|right; left|auto].
      * left. split; auto. rewrite nstep_step. destruct (cur s) as [[t0 b0]|] eqn:Hc0; auto. destruct b0 as [| |[| | | | | | |l]| | | | ]; auto. exfalso.
        destruct (v_reg _ EV f fu 0 Ef Kf P) as [ev [Ee [Hf V]]]. destruct (setsev_done shuffle dut delayers fire s 0 ev f fu) as [fu3 [E3 P3]]; auto; [unfold setsev; now rewrite Hc0|now rewrite Kf|].
        rewrite Ef' in E3. injection E3 as <-. unfold pending in P3. rewrite Ev, P in P3. discriminate.
      * split; [auto|]. split; [|eapply step_early; eauto]. rewrite nstep_step. destruct (cur s) as [[t0 b0]|] eqn:Hc0; auto. destruct b0 as [| |[| | | | | | |l]| | | | ]; auto. exfalso. exact (proj2 EA _ _ Hc0).
    + destruct Ev3 as [[_ X]|[[_ X]|[X Y]]]; [auto|contradiction|]. right. left. split; [auto|]. destruct (sets0 s A X) as [t0 [l Hc0]]. split; [|eapply early_after_step; eauto].
      rewrite nstep_step, Hc0. destruct Ph as [[P N]|[[P _]|P]]; congruence.
  - right. exists f, (if m then CE else hres (futs s) h). split; [exact Hc'|]. destruct m; [now right|].
    assert (Hin : In h (ready s)) by (rewrite Hr; now left). pose proof (waitof_task _ _ _ _ _ _ _ E) as WT.
    assert (HW : h = HWake t f /\ pending fu = false).
    { destruct h as [x|x e|x f''|g| |f'']; simpl in Ho; try discriminate; injection Ho as ->.
      + pose proof (i_step _ I t Hin) as X. cbn [snd coreof] in X. congruence.
      + pose proof (i_throw _ I t e Hin) as X. cbn [snd coreof] in X. congruence.
      + destruct (i_wake _ I t f'' Hin) as [X [fu' [X1 X2]]]. cbn [snd coreof] in X, X1. assert (f'' = f) by congruence. subst f''. rewrite Ef in X1. injection X1 as <-. auto. }
    destruct HW as [-> P]. cbn [hres]. rewrite Ef. rewrite nstep_step, Hn. unfold pending in P. destruct Ph as [[P0 _]|[[P0 [N _]]|P0]]; rewrite P0 in *; try discriminate; cbn [outcome]; auto.
Qed.
Lemma leaving_step fire n0 t kb s : Leaving n0 t kb s -> Left_ n0 t kb (step fire s).
Proof.
  intros [f [r [Hc Ph]]]. unfold Left_. rewrite nstep_step, Hc. unfold Loop_Model.step. rewrite Hc. cbn [exec_body go set_cur cur]. destruct Ph as [[-> N]| ->]; auto.
Qed.
Lemma wait_track n0 t kb s s' : All s -> InWait n0 t kb s -> steps s s' ->
  InWait n0 t kb s' \/ Leaving n0 t kb s' \/ exists s0 fire, steps s s0 /\ steps (step fire s0) s' /\ Leaving n0 t kb s0.
Proof.
  intros A IW R. induction R as [s|s s1 fire R IH]; auto. destruct (IH A IW) as [X|[X|[s2 [fire2 [R1 [R2 X]]]]]].
  - pose proof (steps_all s s1 A R) as A1. destruct (inwait_step fire n0 t kb s1 A1 X); auto.
  - right; right. exists s1, fire. split; auto. split; [apply steps_refl|auto].
  - right; right. exists s2, fire2. split; auto. split; auto. now apply steps_step.
Qed.
(** Entering the wait. *)
Lemma wait_enter s t kb cbs k m ws : nth_error (futs s) t = Some (mkt Pending cbs k None m) -> nth_error (evs s) 0 = Some (mk_event false ws true) ->
  InWait (nstep s) t kb (exec_op s t (OEvWait 0) kb).
Proof.
  intros E Z. unfold exec_op. rewrite Z. cbn [e_val e_waiters e_priv]. set (f := List.length (futs s)). set (s1 := eput _ _ _).
  assert (Lt : t < f) by (apply nth_error_Some; congruence).
  assert (E1 : fget s1 t = Some (mkt Pending cbs k None m)). { unfold fget. simpl. rewrite nth_app_new. destruct (Nat.eqb_spec t (List.length (futs s))); [lia|exact E]. }
  assert (F1 : fget s1 f = Some (mk_fut Pending [] (KEv 0))). { unfold fget. simpl. rewrite nth_app_new. unfold f. now rewrite Nat.eqb_refl. }
  assert (NS : nstep (suspend s1 t f (fun r => BEv 0 f r kb)) = nstep s) by exact (fr_nstep _ _ (fr_suspend s1 t f _)).
  exists f. unfold InWait. rewrite NS. unfold suspend. unfold tget. rewrite E1. cbn [mkt]. destruct (Nat.eqb_spec t f) as [X|_]; [lia|].
  set (s2 := tput s1 t _).
  assert (E2 : fget s2 t = Some (mkt Pending cbs (fun r => BEv 0 f r kb) (Some f) m)). { unfold s2, tput. rewrite E1. unfold fget. simpl. rewrite (put_nth_get _ _ _ _ t E1), Nat.eqb_refl. reflexivity. }
  assert (F2 : fget s2 f = Some (mk_fut Pending [] (KEv 0))). { unfold s2, tput. rewrite E1. unfold fget. simpl. rewrite (put_nth_get _ _ _ _ f E1). destruct (Nat.eqb_spec f t); [lia|exact F1]. }
  assert (OD : on_done s2 f (CbWake t) = fput s2 f (mk_fut Pending [CbWake t] (KEv 0))) by (unfold on_done; rewrite F2; reflexivity). rewrite OD. set (s3 := fput s2 f _).
  assert (F3 : fget s3 f = Some (mk_fut Pending [CbWake t] (KEv 0))) by (unfold s3, fget; simpl; rewrite (put_nth_get _ _ _ _ f F2), Nat.eqb_refl; reflexivity).
  assert (E3 : fget s3 t = Some (mkt Pending cbs (fun r => BEv 0 f r kb) (Some f) m)) by (unfold s3, fget; simpl; rewrite (put_nth_get _ _ _ _ t F2); destruct (Nat.eqb_spec t f); [lia|exact E2]).
  cbn [k_must]. destruct m.
  - cbn [futs set_cur].
    assert (L3 : exists n, List.length (futs s3) = S n). { destruct (futs s3) eqn:X; [|eexists; reflexivity]. unfold fget in F3. rewrite X in F3. destruct f; discriminate. }
    destruct L3 as [n L3]. rewrite L3. cbn [cancel]. change (fget (set_cur s3 None) f) with (fget s3 f). rewrite F3. cbn [pending f_st f_kind].
    unfold settle. change (fget (set_cur s3 None) f) with (fget s3 f). rewrite F3. cbn [is_task f_kind]. unfold conclude. change (fget (set_cur s3 None) f) with (fget s3 f). rewrite F3. cbn [pending f_st f_kind f_cbs].
    set (s4 := push _ _). assert (F4 : fget s4 f = Some (mk_fut Canc [] (KEv 0))) by (unfold s4, fget; simpl; rewrite (put_nth_get _ _ _ _ f F3), Nat.eqb_refl; reflexivity).
    assert (E4 : fget s4 t = Some (mkt Pending cbs (fun r => BEv 0 f r kb) (Some f) true)) by (unfold s4, fget; cbn [futs push set_ready fput set_futs set_cur]; rewrite (put_nth_get _ _ _ _ t F3); destruct (Nat.eqb_spec t f); [lia|exact E3]).
    rewrite E4. cbn [k_cont k_wait mkt]. set (s5 := tput s4 t _).
    assert (F5 : fget s5 f = Some (mk_fut Canc [] (KEv 0))). { unfold s5, tput. rewrite E4. unfold fget. cbn [futs fput set_futs]. rewrite (put_nth_get _ _ _ _ f E4). destruct (Nat.eqb_spec f t); [lia|exact F4]. }
    assert (E5 : fget s5 t = Some (mkt Pending cbs (fun r => BEv 0 f r kb) (Some f) false)). { unfold s5, tput. rewrite E4. unfold fget. cbn [futs fput set_futs]. rewrite (put_nth_get _ _ _ _ t E4), Nat.eqb_refl. reflexivity. }
    assert (C5 : cur s5 = None) by (unfold s5, tput; rewrite E4; reflexivity).
    eexists _, cbs, false. split; [intros b X; rewrite C5 in X; discriminate|]. split; [exact E5|]. split; [exact F5|]. split; [reflexivity|]. auto.
  - eexists _, cbs, false. split; [intros b X; discriminate|]. split; [exact E3|]. split; [exact F3|]. split; [reflexivity|]. auto.
Qed.
Lemma steps_first s s' : steps s s' -> s' = s \/ exists fire, steps (step fire s) s'.
Proof.
  induction 1 as [s|s s1 fire R [->|[fire0 IH]]]; auto; right; [exists fire; apply steps_refl|]. exists fire0. now apply steps_step.
Qed.
Lemma steps_trans s s1 s2 : steps s s1 -> steps s1 s2 -> steps s s2.
Proof. intros R1 R2. induction R2; auto. apply steps_step; auto. Qed.
(** A running task whose next operation is to await the clock event. *)
Lemma wait_once t kb b s s' : All s -> cur s = Some (t, b) -> (forall fire, exists s0, futs s0 = futs s /\ evs s0 = evs s /\ nstep s0 = nstep s /\ step fire s = exec_op s0 t (OEvWait 0) kb) -> steps s s' ->
  s' = s \/ InWait (nstep s) t kb s' \/ Leaving (nstep s) t kb s' \/ exists s1 fire, steps s s1 /\ steps (step fire s1) s' /\ Leaving (nstep s) t kb s1.
Proof.
  intros A Hc HO R. destruct (steps_first _ _ R) as [->|[fire R1]]; auto. right. destruct (HO fire) as [s0 [H1 [H2 [H3 H4]]]].
  destruct (cur_live _ (proj1 (v_wf _ (proj1 A))) t b Hc) as [cbs [k [m E]]]. cbn [snd coreof] in E. destruct (v_zero _ (proj1 A)) as [ws Z].
  assert (IW : InWait (nstep s) t kb (step fire s)) by (rewrite H4, <- H3; eapply wait_enter; [rewrite H1; exact E|rewrite H2; exact Z]).
  destruct (wait_track _ _ _ _ _ (step_all fire s A) IW R1) as [X|[X|[s1 [fire1 [X1 [X2 X3]]]]]]; auto. right; right. exists s1, fire1. split; auto. eapply steps_trans; [|exact X1]. apply steps_step, steps_refl.
Qed.
End Clock.
