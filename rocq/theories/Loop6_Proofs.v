(** Tests that use neither asyncio.gather nor timers: the ready queue holds nothing but task steps and the stop handle. *)
From Coq Require Import List Bool Arith ZArith Lia.
From Verif Require Import Py Prio_Model Loop_Model Loop_Spec Loop_Proofs Loop2_Proofs Loop3_Proofs Loop4_Proofs Loop5_Proofs.
Import ListNotations.
Open Scope nat_scope.

Section NG.
Context {mem : Type}.
Notation prog := (@prog mem). Notation state := (@state mem). Notation body := (@body mem). Notation task := (@task mem).
Notation fut := (@fut mem). Notation kind := (@kind mem).
Implicit Types (s : state) (F : list fut).
Context (shuffle : list id -> list id) (dut delayers : mem -> mem).
Notation step := (step shuffle dut delayers). Notation steps := (steps shuffle dut delayers).

Definition directk (k : kind) : Prop := match k with KTimer | KFired | KGather _ => False | _ => True end.
Definition directc (c : cb) : Prop := match c with CbCount _ => False | _ => True end.
Definition directf (fu : fut) : Prop := directk (f_kind fu) /\ Forall directc (f_cbs fu).
Definition directh (h : handle) : Prop := match h with HCount _ | HTimer _ => False | _ => True end.
Definition Ng (c : @core mem) : Prop := Forall directh (snd (fst c)) /\ forall f fu, nth_error (snd c) f = Some fu -> directf fu.
Lemma directc_sched f l : Forall directc l -> Forall directh (map (sched f) l).
Proof. induction 1 as [|[] l H HF IH]; simpl; constructor; auto. Qed.
Lemma m1_ng N (S : @perm mem) (c c1 : @core mem) : ~ S KTimer Pending -> ~ S KFired Pending -> (forall n, ~ S (KGather n) Pending) -> m1 N S c c1 -> Ng c -> Ng c1.
Proof.
  intros S1 S3 S2 H [A B]. destruct H; cbn [fst snd] in *.
  - destruct (B f _ H) as [X Y]. simpl in X, Y. split; cbn [fst snd].
    + apply Forall_app; split; auto. now apply directc_sched.
    + intros x fu E. rewrite (put_nth_get _ _ _ _ x H) in E. destruct (Nat.eqb x f); [|eauto]. injection E as <-. split; simpl; auto.
  - destruct (B t _ H) as [X Y]. split; auto. intros x fu E. cbn [snd] in E. rewrite (put_nth_get _ _ _ _ x H) in E. destruct (Nat.eqb x t); [|eauto]. injection E as <-. split; auto.
  - exfalso. now apply (S2 0).
  - exfalso. destruct h; try contradiction; [now apply (S2 0)|]. destruct H as [st [cbs E]]. now destruct (B _ _ E).
  - exfalso. destruct (B f _ H) as [X _]. simpl in X. destruct k; simpl in *; auto.
  - split; auto. intros x fu E. cbn [snd] in E. rewrite nth_app_new in E. destruct (Nat.eqb x (List.length F)); [|eauto]. injection E as <-. split; simpl; auto.
    destruct k; simpl; auto; try (now apply S1 in H1); try (now apply S2 in H1); now apply S3 in H1.
  - split; cbn [fst snd].
    + apply Forall_app; split; auto. constructor; auto; exact I.
    + intros x fu E. rewrite nth_app_new in E. destruct (Nat.eqb x (List.length F)); [|eauto]. injection E as <-. split; simpl; auto.
  - split; auto.
  - destruct (B t _ H) as [X Y]. split; cbn [fst snd].
    + apply Forall_app; split; auto. constructor; auto. destruct H0 as [-> | ->]; exact I.
    + intros x fu E. rewrite (put_nth_get _ _ _ _ x H) in E. destruct (Nat.eqb x t); [|eauto]. injection E as <-. split; simpl; auto.
  - assert (E1 : nth_error (put_nth t (mkt st cbs k (Some f) m) F) f = Some (mk_fut Pending cbs' kd)).
    { rewrite (put_nth_get _ _ _ _ f H). destruct (Nat.eqb_spec f t); [congruence|assumption]. }
    split; auto. intros x fu E. cbn [snd] in E. rewrite (put_nth_get _ _ _ _ x E1) in E. destruct (Nat.eqb x f).
    + injection E as <-. destruct (B f _ H0) as [X Y]. split; auto. simpl in *. apply Forall_app; split; auto. constructor; auto; exact I.
    + rewrite (put_nth_get _ _ _ _ x H) in E. destruct (Nat.eqb x t); [|eauto]. injection E as <-. destruct (B t _ H) as [X Y]. split; auto; exact I.
  - destruct (B t _ H) as [X Y]. simpl in Y. split; cbn [fst snd].
    + apply Forall_app; split; auto. now apply directc_sched.
    + intros x fu E. rewrite (put_nth_get _ _ _ _ x H) in E. destruct (Nat.eqb x t); [|eauto]. injection E as <-. split; simpl; auto.
  - inversion A; subst. destruct (B t _ H0) as [X Y]. split; auto. intros x fu E. cbn [snd] in E. rewrite (put_nth_get _ _ _ _ x H0) in E. destruct (Nat.eqb x t); [|eauto]. injection E as <-. split; auto; exact I.
  - inversion A; subst. split; auto.
Qed.
Definition Hk0 (d : bool) (p : prog) : Prop := True.
Lemma direct_creates s : Good direct_op Hk0 s -> NC s -> ~ creates s KTimer /\ ~ creates s KFired /\ forall n, ~ creates s (KGather n).
Proof.
  intros G [O C U P Q]. unfold creates. destruct (cur s) as [[t b]|] eqn:Hc; [|auto]. pose proof (g_cur _ _ _ G _ _ Hc) as X. specialize (U _ _ eq_refl).
  assert (Z : forall o, direct_op o -> ~ opcreates o (@KTimer mem) /\ ~ opcreates o (@KFired mem) /\ forall n, ~ opcreates o (@KGather mem n)).
  { intros o H. split; [intros E; simpl in E; subst; exact H|split; [exact (fun x => x)|]]. intros n [l ->]. exact H. }
  destruct b as [[v|e|o kk]|[v|e|o kk] ev todo sb|[]|e f r kk|q f [v|e] kk|test|[v|e|o kk]]; simpl in X, U; auto; try contradiction; try (repeat split; try intros n; discriminate).
  - apply Z. apply allp_op in X. apply X.
  - apply Z. destruct X as [[X _] _]. simpl in X. apply allp_op in X. apply X.
  - apply Z. apply allp_op in X. apply X.
Qed.
Lemma step_ng fire s : Wf s -> Good direct_op Hk0 s -> NC s -> Ng (coreof s) -> Ng (coreof (step fire s)).
Proof.
  intros [I K] G N0 H. destruct (direct_creates s G N0) as [C1 [C3 C2]]. pose proof (nc_nocancels s N0) as NX.
  eapply (mstar_inv _ (Sof s) Ng); [|exact (True_ms_kin shuffle dut delayers fire s I K)|exact H].
  intros c0 c1 X. eapply m1_ng; [| | |exact X].
  - intros [[Y _]|[[Y _]|Y]]; auto.
  - intros [[Y _]|[[Y _]|Y]]; [auto|auto|discriminate].
  - intros n [[Y _]|[[Y _]|Y]]; [auto|now apply (C2 n)|destruct Y; discriminate].
Qed.
Lemma reach_ng test m s : nocancel test -> allp direct_op test -> steps (init test m) s -> tdone s = Some true \/ Ng (coreof s).
Proof.
  intros T D R. cut (Calmx test s /\ Good direct_op Hk0 s /\ (tdone s = Some true \/ Ng (coreof s))); [tauto|].
  apply (steps_ind_inv shuffle dut delayers (fun s => Calmx test s /\ Good direct_op Hk0 s /\ (tdone s = Some true \/ Ng (coreof s))) _ _) in R; auto.
  - intros fire s0 [X [G0 N0]]. split; [|split].
    + destruct X as [W0 [L0 [T0 [O0 M0]]]]. split; [now apply step_wf|]. split; [now apply step_linked|]. split; [now apply step_thr|]. split; [now apply step_once|].
      destruct (tdone s0) as [[|]|] eqn:E; [left; eapply step_tdone; eauto| |]; (destruct M0 as [M0|M0]; [discriminate|right; apply step_nc; auto; intros c _; congruence]).
    + apply step_good; auto; unfold Hk0; auto. apply X.
    + destruct X as [W0 [L0 [T0 [O0 [M0|M0]]]]]; [left; eapply step_tdone; eauto|]. destruct N0 as [N0|N0]; [left; eapply step_tdone; eauto|]. right. now apply step_ng.
  - split; [|split].
    + apply (reach_nc shuffle dut delayers test m); auto. constructor.
    + apply init_good; auto.
    + right. split; [repeat constructor|]. intros [|[|f]] fu E; simpl in E; try discriminate. injection E as <-. repeat constructor.
Qed.
(** At dut.Step outside the last cycle. *)
Lemma cycle_quiet test m s c : tame test -> nocancel test -> steps (init test m) s -> at_cycle s c ->
  forall t, islive (futs s) t = true -> t <> c -> exists f fu, waitof (futs s) t = Some (Some f) /\ nth_error (futs s) f = Some fu /\ f_st fu = Pending.
Proof.
  intros T1 T2 R Hc t L Hn. pose proof (cycle_tdone _ _ _ _ _ _ _ T1 R Hc) as TD. destruct (reach_nc _ _ _ _ _ _ T2 R) as [W [Lk [_ [_ [X|X]]]]]; [contradiction|].
  destruct (reach_p33 _ _ _ _ _ _ T1 R) as [_ [_ P]]. destruct (p_stage _ P _ _ Hc eq_refl t L Hn) as [f [Wt F]].
  destruct (live_task _ _ L) as [cbs [k [w [mu E]]]]. rewrite (waitof_task _ _ _ _ _ _ _ E) in Wt. injection Wt as ->.
  assert (Hcn : forall b, cur s <> Some (t, b)) by (intros b; unfold at_cycle in Hc; congruence).
  destruct (proj1 Lk t _ _ _ _ E Hcn) as [kd [fu [Ef _]]]. cbn [snd coreof] in Ef. exists f, fu. split; [apply (waitof_task _ _ _ _ _ _ _ E)|]. split; auto.
  destruct (n_ok _ X f fu Ef) as [[Y _] _]. specialize (F fu). destruct (f_st fu); auto; [exfalso; eapply F; eauto|congruence].
Qed.
Lemma cycle_norun test m s c : tame test -> nocancel test -> steps (init test m) s -> at_cycle s c -> forall h t, In h (ready s) -> owner h <> Some t.
Proof.
  intros T1 T2 R Hc h t Hh Ho. pose proof (cycle_tdone _ _ _ _ _ _ _ T1 R Hc) as TD. destruct (reach_nc _ _ _ _ _ _ T2 R) as [W [Lk [_ [_ [X|X]]]]]; [contradiction|].
  destruct (reach_p33 _ _ _ _ _ _ T1 R) as [_ [_ P]].
  destruct (quiet_ready _ _ _ W Hc (p_stage _ P _ _ Hc eq_refl) h t Hh Ho) as [f [fu [_ [_ [E C]]]]]. destruct (n_ok _ X f fu E) as [[Y _] _]. contradiction.
Qed.
Lemma cycle_empty test m s c : tame test -> nocancel test -> allp direct_op test -> steps (init test m) s -> at_cycle s c -> forall h, In h (ready s) -> h = HStop.
Proof.
  intros T1 T2 T3 R Hc h Hh. pose proof (cycle_tdone _ _ _ _ _ _ _ T1 R Hc) as TD. destruct (reach_ng _ _ _ T2 T3 R) as [X|[X _]]; [contradiction|].
  cbn [fst snd coreof] in X. rewrite Forall_forall in X. specialize (X h Hh). pose proof (cycle_norun _ _ _ _ T1 T2 R Hc h) as Y. destruct h; simpl in *; auto; try contradiction; exfalso; eapply Y; eauto.
Qed.
(** Cancellation allowed. *)
Lemma cycle_canc test m s c : tame test -> steps (init test m) s -> at_cycle s c ->
  (forall t, islive (futs s) t = true -> t <> c -> exists f fu, waitof (futs s) t = Some (Some f) /\ nth_error (futs s) f = Some fu /\ (f_st fu = Pending \/ f_st fu = Canc)) /\
  (forall h t, In h (ready s) -> owner h = Some t -> exists f fu, waitof (futs s) t = Some (Some f) /\ nth_error (futs s) f = Some fu /\ f_st fu = Canc).
Proof.
  intros T1 R Hc. destruct (reach_linked _ _ _ _ _ _ R) as [W Lk]. destruct (reach_p33 _ _ _ _ _ _ T1 R) as [_ [_ P]]. split.
  - intros t L Hn. destruct (p_stage _ P _ _ Hc eq_refl t L Hn) as [f [Wt F]].
    destruct (live_task _ _ L) as [cbs [k [w [mu E]]]]. rewrite (waitof_task _ _ _ _ _ _ _ E) in Wt. injection Wt as ->.
    assert (Hcn : forall b, cur s <> Some (t, b)) by (intros b; unfold at_cycle in Hc; congruence).
    destruct (proj1 Lk t _ _ _ _ E Hcn) as [kd [fu [Ef _]]]. cbn [snd coreof] in Ef. exists f, fu. split; [apply (waitof_task _ _ _ _ _ _ _ E)|]. split; auto.
    specialize (F fu). destruct (f_st fu); auto. exfalso; eapply F; eauto.
  - intros h t Hh Ho. destruct (quiet_ready _ _ _ W Hc (p_stage _ P _ _ Hc eq_refl) h t Hh Ho) as [f [fu [_ X]]]. eauto.
Qed.
End NG.
