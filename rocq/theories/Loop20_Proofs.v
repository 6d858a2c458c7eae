(** asyncio.gather: the number of children a gather future still waits for. *)
From Coq Require Import List Bool Arith ZArith Lia.
From Verif Require Import Py Prio_Model Loop_Model Loop_Spec Loop_Proofs Loop2_Proofs Loop3_Proofs Loop4_Proofs Loop8_Proofs.
Import ListNotations.
Open Scope nat_scope.

Section Gather.
Context {mem : Type}.
Notation prog := (@prog mem). Notation state := (@state mem). Notation body := (@body mem). Notation task := (@task mem).
Notation fut := (@fut mem). Notation kind := (@kind mem).
Implicit Types (s : state) (F : list fut).
Context (shuffle : list id -> list id) (dut delayers : mem -> mem).
Notation step := (step shuffle dut delayers). Notation steps := (steps shuffle dut delayers).

(** * Tokens of the gather future [g]: callbacks on its children and callbacks that are about to run *)
Definition cbof (g : id) (c : cb) : bool := match c with CbCount g' => Nat.eqb g' g | _ => false end.
Definition hof (g : id) (h : handle) : bool := match h with HCount g' => Nat.eqb g' g | _ => false end.
Definition tokb (g : id) (l : list cb) : nat := List.length (filter (cbof g) l).
Definition tokh (g : id) (r : list handle) : nat := List.length (filter (hof g) r).
Definition tokF (g : id) (F : list fut) : nat := list_sum (map (fun fu => tokb g (f_cbs fu)) F).
Definition tok (g : id) (c : @core mem) : nat := tokh g (snd (fst c)) + tokF g (snd c).
Lemma tokh_app g r r' : tokh g (r ++ r') = tokh g r + tokh g r'. Proof. unfold tokh. now rewrite filter_app, app_length. Qed.
Lemma tokb_app g r r' : tokb g (r ++ r') = tokb g r + tokb g r'. Proof. unfold tokb. now rewrite filter_app, app_length. Qed.
Lemma tokF_app g F x : tokF g (F ++ [x]) = tokF g F + tokb g (f_cbs x).
Proof. unfold tokF. rewrite map_app. unfold list_sum. rewrite fold_right_app. simpl. rewrite Nat.add_0_r. induction (map (fun fu => tokb g (f_cbs fu)) F) as [|y l IH]; simpl; lia. Qed.
Lemma tokh_sched g f l : tokh g (map (sched f) l) = tokb g l.
Proof. unfold tokh, tokb. induction l as [|[]l IH]; simpl; auto. destruct (Nat.eqb g0 g); simpl; auto. Qed.
Lemma tokF_put g F f x a : nth_error F f = Some x -> tokF g (put_nth f a F) + tokb g (f_cbs x) = tokF g F + tokb g (f_cbs a).
Proof. apply (put_nth_sum (fun fu => tokb g (f_cbs fu))). Qed.
Lemma tokb_In g l : In (CbCount g) l -> 1 <= tokb g l.
Proof.
  intros H. unfold tokb. assert (X : In (CbCount g) (filter (cbof g) l)) by (apply filter_In; split; auto; simpl; apply Nat.eqb_refl). destruct (filter (cbof g) l); simpl in *; [contradiction|lia].
Qed.
Lemma tokF_le g F f x : nth_error F f = Some x -> tokb g (f_cbs x) <= tokF g F.
Proof. apply (sum_In (fun fu => tokb g (f_cbs fu))). Qed.

(** * Steps that leave the gather futures alone *)
Definition same (g : id) F F' : Prop := forall fu n, nth_error F g = Some fu -> f_kind fu = KGather n ->
  exists fu', nth_error F' g = Some fu' /\ f_kind fu' = KGather n /\ (f_st fu' = f_st fu \/ f_st fu' = Canc).
Lemma same_refl g F : same g F F. Proof. intros fu n E K. exists fu. auto. Qed.
Lemma same_trans g F1 F2 F3 : same g F1 F2 -> same g F2 F3 -> same g F1 F3.
Proof. intros A B fu n E K. destruct (A fu n E K) as [f1 [E1 [K1 S1]]]. destruct (B f1 n E1 K1) as [f2 [E2 [K2 S2]]]. exists f2. split; auto. split; auto. destruct S2 as [S2|S2]; auto. rewrite S2. auto. Qed.
Lemma same_put g F f fu a : nth_error F f = Some fu -> (forall n, f_kind fu = KGather n -> f_kind a = KGather n /\ (f_st a = f_st fu \/ f_st a = Canc)) -> same g F (put_nth f a F).
Proof.
  intros E H fu0 n E0 K0. rewrite (put_nth_get _ _ _ _ g E). destruct (Nat.eqb_spec g f) as [->|Hn]; [|exists fu0; auto]. rewrite E in E0. injection E0 as <-. destruct (H n K0) as [H1 H2]. exists a. auto.
Qed.
Lemma same_new g F a : same g F (F ++ [a]).
Proof. intros fu n E K. exists fu. split; auto. rewrite nth_app_new. destruct (Nat.eqb_spec g (List.length F)) as [->|Hn]; auto. assert (Y : nth_error F (List.length F) = None) by now apply nth_error_None. congruence. Qed.
Definition keep (g : id) (c c1 : @core mem) : Prop := tok g c1 = tok g c /\ same g (snd c) (snd c1).
Lemma keep_refl g c : keep g c c. Proof. split; auto. apply same_refl. Qed.
Lemma keep_trans g c1 c2 c3 : keep g c1 c2 -> keep g c2 c3 -> keep g c1 c3.
Proof. intros [A B] [C D]. split; [congruence|eapply same_trans; eauto]. Qed.
Lemma m1_gat N (S : @perm mem) g (c c1 : @core mem) : ~ S (KGather 0) Pending -> ~ resumes S -> (forall n r, ~ S (KGather n) (Finished r)) -> m1 N S c c1 -> keep g c c1.
Proof.
  intros H1 H2 H3 H. destruct H; try (exfalso; tauto); unfold keep, tok; cbn [fst snd].
  - subst st. pose proof (tokF_put g F f _ (mk_fut st' [] k) H) as E. cbn [f_cbs] in E. rewrite tokh_app, tokh_sched. cbn in E. split; [lia|]. eapply same_put; [exact H|]. cbn [f_kind f_st]. intros n ->. split; auto. right.
    destruct st' as [|r0|]; auto; [contradiction|]. exfalso. now apply (H3 n r0).
  - pose proof (tokF_put g F t _ (mkt st cbs k w m') H) as E. cbn [f_cbs mkt] in E. split; [lia|]. eapply same_put; [exact H|]. cbn [f_kind mkt]. discriminate.
  - destruct h; try contradiction. rewrite tokh_app. cbn. split; [lia|apply same_refl].
  - rewrite tokF_app. cbn. split; [lia|apply same_new].
  - rewrite tokF_app, tokh_app. cbn. split; [lia|apply same_new].
  - split; [auto|apply same_refl].
  - pose proof (tokF_put g F t _ (mkt st cbs k None m) H) as E. cbn [f_cbs mkt] in E. rewrite tokh_app. assert (Z : tokh g [h] = 0) by (destruct H0 as [->| ->]; reflexivity). split; [lia|]. eapply same_put; [exact H|]. cbn [f_kind mkt]. discriminate.
  - assert (E1 : nth_error (put_nth t (mkt st cbs k (Some f) m) F) f = Some (mk_fut Pending cbs' kd)) by (rewrite (put_nth_get _ _ _ _ f H); destruct (Nat.eqb_spec f t); [congruence|assumption]).
    pose proof (tokF_put g F t _ (mkt st cbs k (Some f) m) H) as E2. cbn [f_cbs mkt] in E2. pose proof (tokF_put g _ f _ (mk_fut Pending (cbs' ++ [CbWake t]) kd) E1) as E3. cbn [f_cbs] in E3. rewrite tokb_app in E3. cbn in E3. split; [lia|].
    eapply same_trans; [eapply same_put; [exact H|]; cbn [f_kind mkt]; discriminate|]. eapply same_put; [exact E1|]. cbn [f_kind f_st]. auto.
  - pose proof (tokF_put g F t _ (mkt st [] k w m) H) as E. cbn [f_cbs mkt] in E. cbn in E. rewrite tokh_app, tokh_sched. split; [lia|]. eapply same_put; [exact H|]. cbn [f_kind mkt]. discriminate.
Qed.
Lemma mstar_gat N (S : @perm mem) g (c c1 : @core mem) : ~ S (KGather 0) Pending -> ~ resumes S -> (forall n r, ~ S (KGather n) (Finished r)) -> mstar N S c c1 -> keep g c c1.
Proof. intros H1 H2 H3. induction 1; [apply keep_refl|]. eapply keep_trans; [eapply m1_gat; eauto|auto]. Qed.
Lemma on_done_keep g g' s f : g' <> g -> keep g (coreof s) (coreof (on_done s f (CbCount g'))).
Proof.
  intros Hn. unfold on_done, fget. destruct (nth_error (futs s) f) as [fu|] eqn:E; [|apply keep_refl]. destruct (pending fu); unfold keep, tok; cbn [fst snd coreof fput set_futs futs ready push set_ready].
  - pose proof (tokF_put g (futs s) f _ (mk_fut (f_st fu) (f_cbs fu ++ [CbCount g']) (f_kind fu)) E) as X. cbn [f_cbs] in X. rewrite tokb_app in X. assert (Z : tokb g [CbCount g'] = 0) by (unfold tokb; cbn; destruct (Nat.eqb_spec g' g); [congruence|reflexivity]).
    split; [lia|]. eapply same_put; [exact E|]. cbn [f_kind f_st]. auto.
  - rewrite tokh_app. assert (Z : tokh g [sched f (CbCount g')] = 0) by (unfold tokh; cbn; destruct (Nat.eqb_spec g' g); [congruence|reflexivity]). split; [lia|apply same_refl].
Qed.
Lemma on_dones_keep g g' l : g' <> g -> forall s, keep g (coreof s) (coreof (fold_left (fun s f => on_done s f (CbCount g')) l s)).
Proof. intros Hn. induction l as [|f l IH]; intros s; cbn [fold_left]; [apply keep_refl|]. eapply keep_trans; [apply on_done_keep; eauto|apply IH]. Qed.
Definition Sc : @perm mem := mk_perm (fun _ st => st = Canc) False.
Lemma Sc_keep N g (c c1 : @core mem) : mstar N Sc c c1 -> keep g c c1.
Proof. apply mstar_gat; simpl; auto; discriminate. Qed.
Lemma on_dones_len g l : forall s, List.length (futs (fold_left (fun s f => on_done s f (CbCount g)) l s)) = List.length (futs s).
Proof. induction l as [|f l IH]; intros s; cbn [fold_left]; auto. rewrite IH. apply len_on_done. Qed.
Lemma gather_len s t l k : List.length (futs (exec_op s t (OGather l) k)) = S (List.length (futs s)).
Proof.
  unfold exec_op. set (l' := nodup _ _). destruct l' as [|f l']; cbn [go futs set_cur]; [|rewrite on_dones_len]; cbn [falloc set_futs futs]; rewrite app_length; cbn; lia.
Qed.
Lemma gather_keep s t l k g : g <> List.length (futs s) -> keep g (coreof s) (coreof (exec_op s t (OGather l) k)).
Proof.
  intros L. unfold exec_op. set (l' := nodup _ _). destruct l' as [|f l']; cbn [go coreof set_cur].
  - unfold keep, tok. cbn [fst snd coreof falloc set_futs futs ready go set_cur]. rewrite tokF_app. cbn [f_cbs tokb filter List.length]. split; [lia|apply same_new].
  - set (s1 := falloc s _). set (l2 := f :: l'). assert (K1 : keep g (coreof s) (coreof s1)) by (unfold keep, tok; cbn [fst snd coreof falloc set_futs futs ready go set_cur s1]; rewrite tokF_app; cbn [f_cbs tokb filter List.length]; split; [lia|apply same_new]).
    eapply keep_trans; [exact K1|]. destruct (on_dones_keep g (List.length (futs s)) l2 ltac:(lia) s1) as [X Y]. split; [exact X|exact Y].
Qed.
Lemma exec_keep fire s t b g : Wf s -> cur s = Some (t, b) -> g <> List.length (futs s) \/ List.length (futs (step fire s)) <= g -> keep g (coreof s) (coreof (step fire s)).
Proof.
  intros W Hc L. pose proof W as [I K].
  assert (Z : creates s (KGather 0) \/ ~ creates s (KGather 0)).
  { unfold creates. rewrite Hc. destruct b as [[v|e|o kk]|[v|e|o kk] ev todo sb|c|e f r kk|q f [v|e] kk|test|[v|e|o kk]]; auto; try (right; discriminate); try (destruct o; simpl; try (right; intros [x X]; discriminate); left; eauto). destruct c; auto. }
  destruct Z as [Z|Z].
  - unfold creates in Z. rewrite Hc in Z. revert L. unfold Loop_Model.step. rewrite Hc.
    destruct b as [[v|e|o kk]|[v|e|o kk] ev todo sb|c|e f r kk|q f [v|e] kk|test|[v|e|o kk]]; try contradiction; try discriminate Z; try (destruct Z as [l ->]; cbn [exec_body]; rewrite gather_len; intros L; apply gather_keep; destruct L; lia).
    destruct c; try contradiction. cbn [exec_body exec_clk]. set (l := shuffle _). intros L.
    assert (M1 : mstar (fun _ _ => True) Sc (coreof s) (coreof (fold_left cancel_top l s))) by (apply L_fold; intros; apply L_cancel; auto; reflexivity).
    destruct (cur_live _ I t _ Hc) as [cbs [k [m E]]]. cbn [coreof snd] in E.
    assert (C1 : cur (fold_left cancel_top l s) = Some (t, BClk CCancel)) by (rewrite (rest_cur _ _ (rest_fold cancel_top l s (fun s a => rest_cancel _ s a))); exact Hc).
    assert (T1 : exists tk, tget (fold_left cancel_top l s) t = Some tk).
    { destruct (mstar_ext _ _ _ _ M1 t _ E) as [fu' [E' [KR _]]]. cbn [coreof snd] in E'. unfold tget, fget. rewrite E'. destruct fu' as [st' cb' kd]. cbn in KR. destruct kd; try contradiction. eauto. }
    destruct T1 as [tk T1]. destruct l as [|x l].
    + apply (Sc_keep (fun _ _ => True)). eapply L_suspend0; eauto.
    + set (s1 := fold_left cancel_top (x :: l) s) in *. assert (LL : List.length (futs s1) = List.length (futs s)) by (unfold s1; clear; generalize (x :: l); intros y; revert s; induction y as [|f y IH]; intros s; cbn [fold_left]; auto; rewrite IH; apply len_cancel).
      rewrite len_suspend, on_dones_len in L. cbn [falloc set_futs futs] in L. rewrite app_length in L. cbn [List.length] in L.
      eapply keep_trans; [eapply Sc_keep; exact M1|]. set (s2 := falloc s1 _).
      assert (K1 : keep g (coreof s1) (coreof s2)) by (unfold s2, keep, tok; cbn [fst snd coreof falloc set_futs futs ready go set_cur]; rewrite tokF_app; cbn [f_cbs tokb filter List.length]; split; [lia|apply same_new]). eapply keep_trans; [exact K1|].
      set (l2 := x :: l). set (s3 := fold_left (fun s f => on_done s f (CbCount (List.length (futs s1)))) l2 s2). eapply keep_trans; [apply (on_dones_keep g (List.length (futs s1)) l2); lia|]. fold s3.
      assert (M3 : mstar (fun _ _ => True) (mk_perm (fun _ _ => True) False) (coreof s2) (coreof s3)) by (apply L_fold; intros; apply L_count; exact Logic.I).
      assert (C3 : cur s3 = Some (t, BClk CCancel)) by (unfold s3; rewrite (rest_cur _ _ (rest_fold (fun s f => on_done s f (CbCount (List.length (futs s1)))) l2 s2 (fun s a => rest_on_done s a _))); exact C1).
      assert (T3 : exists tk3, tget s3 t = Some tk3).
      { pose proof (tget_new s1 (mk_fut Pending [] (KGather (List.length (x :: l)))) t tk T1) as T2. fold s2 in T2. destruct (tget_fut _ _ _ T2) as [st [cb Et]].
        destruct (mstar_ext _ _ _ _ M3 t _ Et) as [fu' [E' [KR _]]]. cbn [coreof snd] in E'. unfold tget, fget. rewrite E'. destruct fu' as [st' cb' kd]. cbn in KR. destruct kd; try contradiction. eauto. }
      destruct T3 as [tk3 T3].
      assert (P3 : fpending s3 (List.length (futs s1)) = true).
      { assert (X : forall l s0, fpending s0 (List.length (futs s1)) = true -> fpending (fold_left (fun s f => on_done s f (CbCount (List.length (futs s1)))) l s0) (List.length (futs s1)) = true).
        { intros l0. induction l0 as [|f l0 IH]; intros s0 P0; cbn [fold_left]; auto. apply IH. unfold on_done. destruct (fget s0 f) as [fu|] eqn:Ef; auto. destruct (pending fu) eqn:Pf; [|exact P0].
          unfold fpending, fget in *. cbn [fput set_futs futs]. rewrite (put_nth_get _ _ _ _ _ Ef). destruct (Nat.eqb _ f); auto. }
        apply X. unfold s2. apply fpending_new. }
      apply (Sc_keep (fun _ _ => True)). eapply L_suspend; eauto; try (intros; exact Logic.I). reflexivity.
  - eapply mstar_gat; [| | |exact (True_ms_kin shuffle dut delayers fire s I K)]; cbn [Sof settles resumes].
    + intros [[_ X]|[[X _]|[_ X]]]; auto; discriminate.
    + congruence.
    + intros n r [[_ X]|[[_ X]|[X _]]]; congruence.
Qed.
Lemma settle_tok g s f st : tok g (coreof (settle s f st)) = tok g (coreof s).
Proof.
  unfold settle, conclude, fget. destruct (nth_error (futs s) f) as [fu|] eqn:E; auto. destruct (is_task (f_kind fu)); auto. destruct (pending fu); auto. unfold tok. cbn [fst snd coreof push set_ready fput set_futs futs ready].
  pose proof (tokF_put g (futs s) f _ (mk_fut st [] (f_kind fu)) E) as X. cbn [f_cbs] in X. rewrite tokh_app, tokh_sched. cbn in X. lia.
Qed.
Lemma settle_nth s f st g fu : nth_error (futs s) g = Some fu -> exists fu', nth_error (futs (settle s f st)) g = Some fu' /\ f_kind fu' = f_kind fu /\ (f_st fu' = f_st fu \/ (g = f /\ f_st fu' = st)).
Proof.
  intros E. unfold settle, conclude, fget. destruct (nth_error (futs s) f) as [fx|] eqn:Ef; [|exists fu; auto]. destruct (is_task (f_kind fx)); [exists fu; auto|]. destruct (pending fx); [|exists fu; auto].
  cbn [push set_ready fput set_futs futs]. rewrite (put_nth_get _ _ _ _ g Ef). destruct (Nat.eqb_spec g f) as [->|]; [|exists fu; auto]. rewrite E in Ef. injection Ef as <-. exists (mk_fut st [] (f_kind fu)). auto.
Qed.
Lemma settle_keep g s f st : (st = Canc \/ g <> f) -> keep g (coreof s) (coreof (settle s f st)).
Proof.
  intros H. split; [apply settle_tok|]. intros fu n E K. destruct (settle_nth s f st g fu E) as [fu' [E' [K' S']]]. exists fu'. split; auto. split; [congruence|]. destruct S' as [S'|[-> S']]; auto. destruct H as [->|H]; auto. congruence.
Qed.
Lemma fire1_keep g s f : keep g (coreof s) (coreof (fire1 s f)).
Proof.
  unfold fire1, fget. destruct (nth_error (futs s) f) as [[st cbs []]|] eqn:E; try apply keep_refl. unfold keep, tok. cbn [fst snd coreof push set_ready fput set_futs futs ready].
  pose proof (tokF_put g (futs s) f _ (mk_fut st cbs KFired) E) as X. cbn [f_cbs] in X. rewrite tokh_app. cbn [tokh filter hof List.length]. split; [cbn; lia|]. eapply same_put; [exact E|]. cbn. discriminate.
Qed.
Lemma pop_tok g s h r n : ready s = h :: r -> tok g (coreof s) = (if hof g h then 1 else 0) + tok g (coreof (set_batch (set_ready s r) n)).
Proof. intros Hr. unfold tok. cbn [fst snd coreof set_batch set_ready ready futs]. rewrite Hr. unfold tokh. cbn [filter]. destruct (hof g h); reflexivity. Qed.
Lemma resume_keep g s t r : keep g (coreof s) (coreof (resume s t r)).
Proof.
  unfold resume. destruct (tget s t) as [k|] eqn:T; [|apply keep_refl]. destruct (tget_fut _ _ _ T) as [st [cbs E]]. unfold tput. rewrite E. unfold keep, tok. cbn [fst snd coreof go set_cur fput set_futs futs ready f_st f_cbs].
  pose proof (tokF_put g (futs s) t _ (mk_fut st cbs (KTask (mk_task (k_cont k) None false))) E) as X. cbn [f_cbs] in X. split; [lia|]. eapply same_put; [exact E|]. cbn. discriminate.
Qed.

(** * The futures that have a callback of the gather future [g] *)
Definition allcb (g : id) (P : id -> Prop) F : Prop := forall x fu, nth_error F x = Some fu -> In (CbCount g) (f_cbs fu) -> P x.
Lemma allcb_put g P F f fu a : allcb g P F -> nth_error F f = Some fu -> (In (CbCount g) (f_cbs a) -> In (CbCount g) (f_cbs fu) \/ P f) -> allcb g P (put_nth f a F).
Proof.
  intros A E H x fx Ex Hx. rewrite (put_nth_get _ _ _ _ x E) in Ex. destruct (Nat.eqb_spec x f) as [->|]; [|eauto]. injection Ex as <-. destruct (H Hx); eauto.
Qed.
Lemma allcb_new g P F a : allcb g P F -> f_cbs a = [] -> allcb g P (F ++ [a]).
Proof. intros A E x fx Ex Hx. rewrite nth_app_new in Ex. destruct (Nat.eqb x (List.length F)); [injection Ex as <-; rewrite E in Hx; contradiction|eauto]. Qed.
Lemma m1_acb N (S : @perm mem) g P (c c1 : @core mem) : ~ S (KGather 0) Pending -> m1 N S c c1 -> allcb g P (snd c) -> allcb g P (snd c1).
Proof.
  intros H1 H A. destruct H; try (exfalso; tauto); cbn [fst snd] in *; auto; try (eapply allcb_put; eauto; cbn; tauto); try (apply allcb_new; auto).
  eapply allcb_put; [eapply allcb_put; [exact A|exact H|cbn; auto]|rewrite (put_nth_get _ _ _ _ f H); destruct (Nat.eqb_spec f t); [congruence|exact H0]|].
  cbn. intros X. apply in_app_or in X as [X|[X|[]]]; auto. discriminate.
Qed.
Lemma mstar_acb N (S : @perm mem) g P (c c1 : @core mem) : ~ S (KGather 0) Pending -> mstar N S c c1 -> allcb g P (snd c) -> allcb g P (snd c1).
Proof. intros H1. induction 1; auto. intros. apply IHmstar. eapply m1_acb; eauto. Qed.
Lemma Sc_acb N g P (c c1 : @core mem) : mstar N Sc c c1 -> allcb g P (snd c) -> allcb g P (snd c1).
Proof. apply mstar_acb. cbn. discriminate. Qed.
Lemma on_done_acb g g' P s f : g' <> g \/ P f -> allcb g P (futs s) -> allcb g P (futs (on_done s f (CbCount g'))).
Proof.
  intros H A. unfold on_done, fget. destruct (nth_error (futs s) f) as [fu|] eqn:E; auto. destruct (pending fu); auto. cbn [fput set_futs futs]. eapply allcb_put; eauto. cbn. intros X. apply in_app_or in X as [X|[X|[]]]; auto. injection X as X. destruct H as [H|H]; auto. congruence.
Qed.
Lemma on_dones_acb g g' P l : (forall f, In f l -> g' <> g \/ P f) -> forall s, allcb g P (futs s) -> allcb g P (futs (fold_left (fun s f => on_done s f (CbCount g')) l s)).
Proof. induction l as [|f l IH]; intros H s A; cbn [fold_left]; auto. apply IH; [intros x Hx; apply H; now right|]. apply on_done_acb; auto. apply H. now left. Qed.
Lemma step_acb fire s g P : Wf s -> g < List.length (futs s) -> allcb g P (futs s) -> allcb g P (futs (step fire s)).
Proof.
  intros W L A. pose proof W as [I K].
  assert (Z : creates s (KGather 0) \/ ~ creates s (KGather 0)).
  { unfold creates. destruct (cur s) as [[t b]|]; auto. destruct b as [[v|e|o kk]|[v|e|o kk] ev todo sb|c|e f r kk|q f [v|e] kk|test|[v|e|o kk]]; auto; try (right; discriminate); try (destruct o; simpl; try (right; intros [x X]; discriminate); left; eauto). destruct c; auto. }
  destruct Z as [Z|Z].
  - unfold creates in Z. destruct (cur s) as [[t b]|] eqn:Hc; [|contradiction]. unfold Loop_Model.step. rewrite Hc.
    assert (GA : forall l k, allcb g P (futs (exec_op s t (OGather l) k))).
    { intros l k. unfold exec_op. set (l' := nodup _ _). destruct l' as [|f l']; cbn [go futs set_cur]; [apply allcb_new; auto|]. apply on_dones_acb; [intros; left; lia|]. apply allcb_new; auto. }
    destruct b as [[v|e|o kk]|[v|e|o kk] ev todo sb|c|e f r kk|q f [v|e] kk|test|[v|e|o kk]]; try contradiction; try discriminate Z; try (destruct Z as [l ->]; cbn [exec_body]; apply GA).
    destruct c; try contradiction. cbn [exec_body exec_clk]. set (l := shuffle _).
    assert (M1 : mstar (fun _ _ => True) Sc (coreof s) (coreof (fold_left cancel_top l s))) by (apply L_fold; intros; apply L_cancel; auto; reflexivity).
    pose proof (Sc_acb _ g P _ _ M1 A) as A1. cbn [coreof snd] in A1.
    destruct (cur_live _ I t _ Hc) as [cbs [k [m E]]]. cbn [coreof snd] in E.
    assert (C1 : cur (fold_left cancel_top l s) = Some (t, BClk CCancel)) by (rewrite (rest_cur _ _ (rest_fold cancel_top l s (fun s a => rest_cancel _ s a))); exact Hc).
    assert (T1 : exists tk, tget (fold_left cancel_top l s) t = Some tk).
    { destruct (mstar_ext _ _ _ _ M1 t _ E) as [fu' [E' [KR _]]]. cbn [coreof snd] in E'. unfold tget, fget. rewrite E'. destruct fu' as [st' cb' kd]. cbn in KR. destruct kd; try contradiction. eauto. }
    destruct T1 as [tk T1]. destruct l as [|x l].
    + assert (M : mstar (fun _ _ => True) Sc (coreof (fold_left cancel_top [] s)) (coreof (suspend0 (fold_left cancel_top [] s) t (start (BClk (CStep true)))))) by (eapply L_suspend0; eauto). exact (Sc_acb _ g P _ _ M A1).
    + set (s1 := fold_left cancel_top (x :: l) s) in *. assert (LL : List.length (futs s1) = List.length (futs s)) by (unfold s1; clear; generalize (x :: l); intros y; revert s; induction y as [|f y IH]; intros s; cbn [fold_left]; auto; rewrite IH; apply len_cancel).
      set (s2 := falloc s1 _). assert (A2 : allcb g P (futs s2)) by (apply allcb_new; auto).
      set (l2 := x :: l). pose proof (on_dones_acb g (List.length (futs s1)) P l2 ltac:(intros; left; lia) s2 A2) as A3. set (s3 := fold_left (fun s f => on_done s f (CbCount (List.length (futs s1)))) l2 s2) in *.
      assert (M3 : mstar (fun _ _ => True) (mk_perm (fun _ _ => True) False) (coreof s2) (coreof s3)) by (apply L_fold; intros; apply L_count; exact Logic.I).
      assert (C3 : cur s3 = Some (t, BClk CCancel)) by (unfold s3; rewrite (rest_cur _ _ (rest_fold (fun s f => on_done s f (CbCount (List.length (futs s1)))) l2 s2 (fun s a => rest_on_done s a _))); exact C1).
      assert (T3 : exists tk3, tget s3 t = Some tk3).
      { pose proof (tget_new s1 (mk_fut Pending [] (KGather (List.length (x :: l)))) t tk T1) as T2. fold s2 in T2. destruct (tget_fut _ _ _ T2) as [st [cb Et]].
        destruct (mstar_ext _ _ _ _ M3 t _ Et) as [fu' [E' [KR _]]]. cbn [coreof snd] in E'. unfold tget, fget. rewrite E'. destruct fu' as [st' cb' kd]. cbn in KR. destruct kd; try contradiction. eauto. }
      destruct T3 as [tk3 T3].
      assert (P3 : fpending s3 (List.length (futs s1)) = true).
      { assert (X : forall l s0, fpending s0 (List.length (futs s1)) = true -> fpending (fold_left (fun s f => on_done s f (CbCount (List.length (futs s1)))) l s0) (List.length (futs s1)) = true).
        { intros l0. induction l0 as [|f l0 IH]; intros s0 P0; cbn [fold_left]; auto. apply IH. unfold on_done. destruct (fget s0 f) as [fu|] eqn:Ef; auto. destruct (pending fu) eqn:Pf; [|exact P0].
          unfold fpending, fget in *. cbn [fput set_futs futs]. rewrite (put_nth_get _ _ _ _ _ Ef). destruct (Nat.eqb _ f); auto. }
        apply X. unfold s2. apply fpending_new. }
      assert (M : mstar (fun _ _ => True) Sc (coreof s3) (coreof (suspend s3 t (List.length (futs s1)) (start (BClk CGathered))))) by (eapply L_suspend; eauto; try (intros; exact Logic.I); reflexivity).
      exact (Sc_acb _ g P _ _ M A3).
  - change (allcb g P (snd (coreof (step fire s)))). eapply (mstar_acb _ _ g P (coreof s)); [|exact (True_ms_kin shuffle dut delayers fire s I K)|exact A]. cbn [Sof settles]. intros [[_ X]|[[X _]|[_ X]]]; auto; discriminate.
Qed.

(** * A gather future and its children *)
Definition registered (g t : id) F : Prop := exists fu, nth_error F t = Some fu /\ (In (CbCount g) (f_cbs fu) \/ pending fu = false).
Record Gat (g : id) (l : list id) s : Prop := mk_gat
  { ga_need : exists fu, nth_error (futs s) g = Some fu /\ f_kind fu = KGather (tok g (coreof s)) /\ (forall r, f_st fu = Finished r -> tok g (coreof s) = 0);
    ga_reg : forall t, In t l -> registered g t (futs s);
    ga_only : allcb g (fun x => In x l) (futs s);
    ga_pend : forall fu, nth_error (futs s) g = Some fu -> tok g (coreof s) = 0 -> pending fu = false }.
Lemma m1_reg N (S : @perm mem) g t (c c1 : @core mem) : m1 N S c c1 -> registered g t (snd c) -> registered g t (snd c1).
Proof.
  intros H [fu [E P]]. unfold registered. destruct H; cbn [fst snd] in *; try (exists fu; auto; fail).
  - rewrite (put_nth_get _ _ _ _ t H). destruct (Nat.eqb_spec t f) as [->|]; [|eauto]. eexists. split; eauto. right. destruct st'; auto; contradiction.
  - rewrite (put_nth_get _ _ _ _ t H). destruct (Nat.eqb_spec t t0) as [->|]; [|eauto]. rewrite E in H. injection H as ->. eexists. split; eauto; cbn in *; auto.
  - rewrite (put_nth_get _ _ _ _ t H). destruct (Nat.eqb_spec t f) as [->|]; [|eauto]. rewrite E in H. injection H as ->. eexists. split; eauto. cbn [f_cbs] in *. destruct P as [P|P]; [left; apply in_or_app; auto|discriminate].
  - rewrite (put_nth_get _ _ _ _ t H). destruct (Nat.eqb_spec t f) as [->|]; [|eauto]. rewrite E in H. injection H as ->. eexists. split; eauto; cbn in *; auto.
  - rewrite nth_app_new. destruct (Nat.eqb_spec t (List.length F)) as [->|]; [assert (Y : nth_error F (List.length F) = None) by (now apply nth_error_None); congruence|eauto].
  - rewrite nth_app_new. destruct (Nat.eqb_spec t (List.length F)) as [->|]; [assert (Y : nth_error F (List.length F) = None) by (now apply nth_error_None); congruence|eauto].
  - rewrite (put_nth_get _ _ _ _ t H). destruct (Nat.eqb_spec t t0) as [->|]; [|eauto]. rewrite E in H. injection H as ->. eexists. split; eauto; cbn in *; auto.
  - assert (E1 : nth_error (put_nth t0 (mkt st cbs k (Some f) m) F) f = Some (mk_fut Pending cbs' kd)) by (rewrite (put_nth_get _ _ _ _ f H); destruct (Nat.eqb_spec f t0); [congruence|assumption]).
    rewrite (put_nth_get _ _ _ _ t E1). destruct (Nat.eqb_spec t f) as [->|].
    + rewrite E in H0. injection H0 as ->. eexists. split; eauto. cbn [f_cbs] in *. destruct P as [P|P]; [left; apply in_or_app; auto|discriminate].
    + rewrite (put_nth_get _ _ _ _ t H). destruct (Nat.eqb_spec t t0) as [->|]; [|eauto]. rewrite E in H. injection H as ->. eexists. split; eauto; cbn in *; auto.
  - rewrite (put_nth_get _ _ _ _ t H). destruct (Nat.eqb_spec t t0) as [->|]; [|eauto]. eexists. split; eauto. right. destruct st; auto; contradiction.
  - rewrite (put_nth_get _ _ _ _ t H0). destruct (Nat.eqb_spec t t0) as [->|]; [|eauto]. rewrite E in H0. injection H0 as ->. eexists. split; eauto; cbn in *; auto.
Qed.
Lemma mstar_reg N (S : @perm mem) g t (c c1 : @core mem) : mstar N S c c1 -> registered g t (snd c) -> registered g t (snd c1).
Proof. induction 1; auto. intros. apply IHmstar. eapply m1_reg; eauto. Qed.
Lemma gat_keep g l s s' : Gat g l s -> keep g (coreof s) (coreof s') -> (forall t, In t l -> registered g t (futs s')) /\ allcb g (fun x => In x l) (futs s') -> Gat g l s'.
Proof.
  intros [[fu [E [K Z]]] R O P] [T SM] [R' O']. destruct (SM fu _ E K) as [fu' [E' [K' S']]]. cbn [coreof snd] in E'. split; auto.
  - exists fu'. rewrite T. split; auto. split; auto. intros r X. destruct S' as [S'|S']; [apply (Z r); congruence|congruence].
  - rewrite T. intros fx Ex X. rewrite E' in Ex. injection Ex as <-. specialize (P fu E X). unfold pending in *. destruct S' as [S'|S']; rewrite S'; auto.
Qed.
Lemma gat_step fire g l s : Wf s -> Gat g l s -> Gat g l (step fire s).
Proof.
  intros W G. pose proof W as [I K]. assert (R' : (forall t, In t l -> registered g t (futs (step fire s))) /\ allcb g (fun x => In x l) (futs (step fire s))).
  { split; [|apply step_acb; auto; [|apply (ga_only _ _ _ G)]; destruct (ga_need _ _ _ G) as [fu [E _]]; apply nth_error_Some; congruence]. intros t Ht. exact (mstar_reg _ _ g t _ _ (True_ms_kin shuffle dut delayers fire s I K) (ga_reg _ _ _ G t Ht)). }
  destruct (ga_need _ _ _ G) as [fu [E [KG Z]]]. assert (L : g < List.length (futs s)) by (apply nth_error_Some; congruence).
  destruct (cur s) as [[t b]|] eqn:Hc; [eapply gat_keep; eauto; eapply exec_keep; eauto; left; lia|].
  revert R'. unfold Loop_Model.step. rewrite Hc. destruct (batch s) as [|n].
  - destruct (stopping s); [auto|]. intros R'. eapply gat_keep; eauto. change (keep g (coreof s) (coreof (fold_left fire1 fire s))). clear. revert s. induction fire as [|f l IH]; intros s; cbn [fold_left]; [apply keep_refl|]. eapply keep_trans; [apply fire1_keep|apply IH].
  - destruct (ready s) as [|h r] eqn:Hr; [intros R'; eapply gat_keep; eauto; split; [reflexivity|apply same_refl]|]. set (s0 := set_batch (set_ready s r) n).
    pose proof (pop_tok g s h r n Hr) as PT. fold s0 in PT. assert (SM : same g (snd (coreof s)) (snd (coreof s0))) by apply same_refl.
    assert (K0 : hof g h = false -> keep g (coreof s) (coreof s0)) by (intros X; rewrite X in PT; split; [lia|exact SM]).
    destruct h as [x|x e|x f|g0| |f]; cbn [run_handle]; intros R'.
    + eapply gat_keep; [exact G| |exact R']. eapply keep_trans; [apply K0; reflexivity|apply resume_keep].
    + eapply gat_keep; [exact G| |exact R']. eapply keep_trans; [apply K0; reflexivity|apply resume_keep].
    + eapply gat_keep; [exact G| |exact R']. eapply keep_trans; [apply K0; reflexivity|apply resume_keep].
    + cbn [hof] in PT, K0. destruct (Nat.eqb_spec g0 g) as [->|Hn].
      * revert R'. change (fget s0 g) with (nth_error (futs s) g). rewrite E. destruct fu as [st cbs kd]. cbn [f_kind f_st] in *. subst kd. rewrite PT. cbn [Nat.add]. remember (tok g (coreof s0)) as n' eqn:EN0. intros R'.
        set (s1 := fput s0 g (mk_fut st cbs (KGather n'))) in *. assert (T1 : tok g (coreof s1) = n').
        { rewrite EN0. unfold s1, tok. cbn [fst snd coreof fput set_futs futs ready]. pose proof (tokF_put g (futs s0) g _ (mk_fut st cbs (KGather n')) E) as X. cbn [f_cbs] in X. lia. }
        assert (E1 : nth_error (futs s1) g = Some (mk_fut st cbs (KGather n'))) by (cbn [s1 fput set_futs futs]; rewrite (put_nth_get _ _ _ _ g E), Nat.eqb_refl; reflexivity).
        clear EN0. clearbody s1. destruct R' as [R1 R2]. destruct n' as [|n1]; split; auto.
        -- destruct (settle_nth s1 g (Finished (Ok VNone)) g _ E1) as [fu' [E' [K' _]]]. exists fu'. rewrite settle_tok, T1. split; auto.
        -- intros fx Ex _. revert Ex. unfold settle, conclude, fget. rewrite E1. cbn [is_task f_kind]. unfold pending. cbn [f_st]. destruct st; cbn [push set_ready fput set_futs futs]; [rewrite (put_nth_get _ _ _ _ g E1), Nat.eqb_refl|rewrite E1|rewrite E1]; intros X; injection X as <-; reflexivity.
        -- eexists. rewrite T1. split; [exact E1|]. split; [reflexivity|]. cbn [f_st]. intros r0 X. specialize (Z r0 X). lia.
        -- intros fx Ex X. rewrite T1 in X. discriminate.
      * eapply gat_keep; [exact G| |exact R']. eapply keep_trans; [apply K0; reflexivity|]. destruct (fget s0 g0) as [[st cbs []]|] eqn:Eg; try apply keep_refl. destruct need as [|n']; [apply keep_refl|].
        set (s1 := fput s0 g0 (mk_fut st cbs (KGather n'))). assert (K1 : keep g (coreof s0) (coreof s1)).
        { unfold fget in Eg. pose proof (tokF_put g (futs s0) g0 _ (mk_fut st cbs (KGather n')) Eg) as X. cbn [f_cbs] in X. unfold keep, tok, s1. cbn [fst snd coreof fput set_futs futs ready]. split; [lia|].
          intros fx m Ex Kx. exists fx. rewrite (put_nth_get _ _ _ _ g Eg). destruct (Nat.eqb_spec g g0); [congruence|auto]. }
        destruct n'; [|exact K1]. eapply keep_trans; [exact K1|]. apply settle_keep. right. congruence.
    + eapply gat_keep; [exact G| |exact R']. eapply keep_trans; [apply K0; reflexivity|]. split; [reflexivity|apply same_refl].
    + eapply gat_keep; [exact G| |exact R']. eapply keep_trans; [apply K0; reflexivity|]. apply settle_keep. right. intros ->. assert (T : kindof (futs s) f = Some KFired) by (apply (k_ti s K); rewrite Hr; now left). unfold kindof in T. rewrite E in T. cbn in T. congruence.
Qed.
(** When the gather future has a result, no child is unfinished. *)
Lemma gat_done g l s r : Gat g l s -> state_of s g = Some (Finished r) -> forall t, In t l -> islive (futs s) t = false.
Proof.
  intros [[fu [E [K Z]]] R _ _] X t Ht. unfold state_of, fget in X. rewrite E in X. injection X as X. specialize (Z r X). destruct (islive (futs s) t) eqn:L; auto. exfalso. destruct (R t Ht) as [fx [Ex P]]. unfold islive in L. rewrite Ex in L.
  destruct fx as [st cbs kd]. destruct st; try discriminate. destruct P as [P|P]; [|discriminate]. apply tokb_In in P. pose proof (tokF_le g (futs s) t _ Ex) as Y. cbn [f_cbs] in *. unfold tok in Z. cbn [coreof fst snd] in Z. lia.
Qed.

(** * There are no tokens of futures that do not exist yet *)
Lemma fext_len F F' : fext F F' -> List.length F <= List.length F'.
Proof.
  intros H. destruct F as [|x F]; [cbn; lia|]. destruct (nth_error (x :: F) (List.length F)) as [fu|] eqn:E; [|apply nth_error_None in E; cbn in E; lia].
  destruct (H _ _ E) as [fu' [E' _]]. assert (X : List.length F < List.length F') by (apply nth_error_Some; congruence). cbn. lia.
Qed.
Definition Fresh s : Prop := forall g, List.length (futs s) <= g -> tok g (coreof s) = 0.
Lemma fires_tok g fire : forall s, tok g (coreof (fold_left fire1 fire s)) = tok g (coreof s).
Proof. induction fire as [|f l IH]; intros s; cbn [fold_left]; auto. rewrite IH. apply fire1_keep. Qed.
Lemma fresh_step fire s : Wf s -> Fresh s -> Fresh (step fire s).
Proof.
  intros W H g Hg. pose proof W as [I K]. pose proof (fext_len _ _ (mstar_ext _ _ _ _ (True_ms_kin shuffle dut delayers fire s I K))) as LE. cbn [coreof snd] in LE. assert (Z : tok g (coreof s) = 0) by (apply H; lia).
  destruct (cur s) as [[t b]|] eqn:Hc; [destruct (exec_keep fire s t b g W Hc (or_intror Hg)) as [X _]; congruence|]. clear Hg LE. unfold Loop_Model.step. rewrite Hc. destruct (batch s) as [|n].
  - destruct (stopping s); auto. change (tok g (coreof (fold_left fire1 fire s)) = 0). now rewrite fires_tok.
  - destruct (ready s) as [|h r] eqn:Hr; [exact Z|]. set (s0 := set_batch (set_ready s r) n). pose proof (pop_tok g s h r n Hr) as PT. fold s0 in PT. assert (Z0 : tok g (coreof s0) = 0) by lia.
    destruct h as [x|x e|x f|g0| |f]; cbn [run_handle]; try (rewrite (proj1 (resume_keep g s0 _ _)); exact Z0); [|exact Z0|now rewrite settle_tok].
    destruct (fget s0 g0) as [[st cbs []]|] eqn:Eg; auto. destruct need as [|n']; auto. set (s1 := fput s0 g0 (mk_fut st cbs (KGather n'))). assert (Z1 : tok g (coreof s1) = 0).
    { unfold fget in Eg. pose proof (tokF_put g (futs s0) g0 _ (mk_fut st cbs (KGather n')) Eg) as X. cbn [f_cbs] in X. rewrite <- Z0. unfold tok, s1. cbn [fst snd coreof fput set_futs futs ready]. lia. }
    destruct n'; [now rewrite settle_tok|exact Z1].
Qed.
Lemma init_fresh test m : Fresh (init test m : state).
Proof. intros g _. reflexivity. Qed.
Lemma reach_fresh test m s : steps (init test m) s -> Fresh s.
Proof.
  intros R. assert (X : Wf s /\ Fresh s); [|apply X]. apply (steps_ind_inv shuffle dut delayers (fun s => Wf s /\ Fresh s) _ _) in R; auto; [|split; [apply init_wf|apply init_fresh]].
  intros fire s0 [A B]. split; [now apply step_wf|now apply fresh_step].
Qed.

(** * cancel_all_tasks: a gather future for all tasks except the clock task and the main coroutine *)
Lemma on_done_count g s f : f < List.length (futs s) -> tok g (coreof (on_done s f (CbCount g))) = S (tok g (coreof s)) /\ registered g f (futs (on_done s f (CbCount g))) /\ same g (futs s) (futs (on_done s f (CbCount g))).
Proof.
  intros L. unfold on_done, fget. destruct (nth_error (futs s) f) as [fu|] eqn:E; [|apply nth_error_None in E; lia]. destruct (pending fu) eqn:P; unfold tok; cbn [fst snd coreof fput set_futs futs ready push set_ready].
  - pose proof (tokF_put g (futs s) f _ (mk_fut (f_st fu) (f_cbs fu ++ [CbCount g]) (f_kind fu)) E) as X. cbn [f_cbs] in X. rewrite tokb_app in X. assert (Z : tokb g [CbCount g] = 1) by (unfold tokb; cbn; now rewrite Nat.eqb_refl).
    split; [lia|]. split; [|eapply same_put; [exact E|]; cbn [f_kind f_st]; auto]. eexists. rewrite (put_nth_get _ _ _ _ f E), Nat.eqb_refl. split; [reflexivity|]. left. cbn [f_cbs]. apply in_or_app. right. now left.
  - rewrite tokh_app. assert (Z : tokh g [sched f (CbCount g)] = 1) by (unfold tokh; cbn; now rewrite Nat.eqb_refl). split; [lia|]. split; [|apply same_refl]. exists fu. auto.
Qed.
Lemma on_dones_count g l : forall s, (forall f, In f l -> f < List.length (futs s)) ->
  let s' := fold_left (fun s f => on_done s f (CbCount g)) l s in tok g (coreof s') = tok g (coreof s) + List.length l /\ (forall f, In f l -> registered g f (futs s')) /\ same g (futs s) (futs s').
Proof.
  induction l as [|f l IH]; intros s L; cbn [fold_left List.length]; [split; [lia|split; [contradiction|apply same_refl]]|].
  destruct (on_done_count g s f) as [A [B C]]; [apply L; now left|]. destruct (IH (on_done s f (CbCount g))) as [A' [B' C']]; [intros x Hx; rewrite len_on_done; apply L; now right|].
  split; [lia|]. split; [|eapply same_trans; eauto]. intros x [->|Hx]; auto. set (s1 := on_done s x (CbCount g)) in *.
  assert (M : mstar (fun _ _ => True) (mk_perm (fun _ _ => True) False) (coreof s1) (coreof (fold_left (fun s f => on_done s f (CbCount g)) l s1))) by (apply L_fold; intros; apply L_count; exact Logic.I).
  exact (mstar_reg _ _ g x _ _ M B).
Qed.
Definition others (s : state) (c : id) : list id := shuffle (filter (fun x => negb (Nat.eqb x c) && negb (Nat.eqb x 0)) (live s)).
Lemma cancels_len l : forall s, List.length (futs (fold_left cancel_top l s)) = List.length (futs s).
Proof. induction l as [|f l IH]; intros s; cbn [fold_left]; auto. rewrite IH. apply len_cancel. Qed.
Lemma cancels_task l : forall s t st cbs k w m, fget s t = Some (mkt st cbs k w m) -> exists m', fget (fold_left cancel_top l s) t = Some (mkt st cbs k w m').
Proof.
  assert (C : forall n s f t st cbs k w m, fget s t = Some (mkt st cbs k w m) -> exists m', fget (fst (cancel n s f)) t = Some (mkt st cbs k w m')).
  { assert (ST : forall s f st0 t st cbs k w m, fget s t = Some (mkt st cbs k w m) -> fget (settle s f st0) t = Some (mkt st cbs k w m)).
    { intros s f st0 t st cbs k w m E. unfold settle. destruct (fget s f) as [fx|] eqn:Ex; auto. destruct (is_task (f_kind fx)) eqn:Tx; auto. unfold conclude. rewrite Ex. destruct (pending fx); auto.
      unfold fget in *. cbn [futs push set_ready fput set_futs]. rewrite (put_nth_get _ _ _ _ t Ex). destruct (Nat.eqb_spec t f) as [->|]; auto. rewrite E in Ex. injection Ex as <-. discriminate. }
    assert (MU : forall s f fu tk t st cbs k w m, fget s f = Some fu -> f_kind fu = KTask tk -> fget s t = Some (mkt st cbs k w m) -> exists m', fget (tput s f (mk_task (k_cont tk) (k_wait tk) true)) t = Some (mkt st cbs k w m')).
    { intros s f fu tk t st cbs k w m E K Et. unfold tput. rewrite E. unfold fget in *. cbn [futs fput set_futs]. rewrite (put_nth_get _ _ _ _ t E). destruct (Nat.eqb_spec t f) as [->|]; [|eauto]. rewrite E in Et. injection Et as ->. simpl in *. injection K as <-. simpl. unfold mkt. eauto. }
    induction n as [|n IH]; intros s f t st cbs k w m Et; simpl; destruct (fget s f) as [fu|] eqn:E; eauto; destruct (pending fu); eauto; destruct (f_kind fu) as [| | | | |tk] eqn:K; simpl; try (erewrite ST by exact Et; eauto; fail).
    - pose proof (MU _ _ _ _ _ _ _ _ _ _ E K Et) as X0. destruct (k_wait tk); simpl; exact X0.
    - pose proof (MU _ _ _ _ _ _ _ _ _ _ E K Et) as X0. destruct (k_wait tk) as [g|]; simpl; [|exact X0]. pose proof (IH s g t st cbs k w m Et) as X. destruct (cancel n s g) as [s1 []]; simpl in *; auto. }
  induction l as [|f l IH]; intros s t st cbs k w m E; cbn [fold_left]; [eauto|]. destruct (C (List.length (futs s)) s f t _ _ _ _ _ E) as [m1 E1]. exact (IH _ _ _ _ _ _ _ E1).
Qed.
Lemma on_dones_task g l : forall s t st cbs k w m, fget s t = Some (mkt st cbs k w m) -> exists cbs', fget (fold_left (fun s f => on_done s f (CbCount g)) l s) t = Some (mkt st cbs' k w m).
Proof.
  induction l as [|f l IH]; intros s t st cbs k w m E; cbn [fold_left]; [eauto|]. assert (X : exists cbs', fget (on_done s f (CbCount g)) t = Some (mkt st cbs' k w m)).
  { unfold on_done. destruct (fget s f) as [fu|] eqn:Ef; eauto. destruct (pending fu) eqn:P; [|eauto]. unfold fget in *. cbn [futs fput set_futs]. rewrite (put_nth_get _ _ _ _ t Ef). destruct (Nat.eqb_spec t f) as [->|]; [|eauto]. rewrite E in Ef. injection Ef as <-. unfold mkt. cbn. eauto. }
  destruct X as [cbs' X]. eauto.
Qed.
Lemma gat_start fire s c : Wf s -> Fresh s -> cur s = Some (c, BClk CCancel) -> others s c <> [] -> (forall f, In f (others s c) -> f < List.length (futs s)) -> Gat (List.length (futs s)) (others s c) (step fire s).
Proof.
  intros W FR Hc Hne Hl. pose proof W as [I K]. destruct (cur_live _ I c _ Hc) as [cbs [k [m E]]]. cbn [coreof snd] in E. unfold Loop_Model.step. rewrite Hc. cbn [exec_body exec_clk]. fold (others s c).
  destruct (others s c) as [|x l] eqn:El; [congruence|]. set (l2 := x :: l) in *. assert (LN := cancels_len l2 s). set (s1 := fold_left cancel_top l2 s) in *. rewrite LN. set (g := List.length (futs s)) in *.
  assert (M1 : mstar (fun _ _ => True) Sc (coreof s) (coreof s1)) by (apply L_fold; intros; apply L_cancel; auto; reflexivity).
  assert (T1 : tok g (coreof s1) = 0) by (rewrite (proj1 (Sc_keep _ g _ _ M1)); apply FR; unfold g; lia).
  destruct (cancels_task l2 s c _ _ _ _ _ E) as [m1 E1]. fold s1 in E1. set (s2 := falloc s1 _).
  assert (T2 : tok g (coreof s2) = 0) by (rewrite <- T1; unfold s2, tok; cbn [fst snd coreof falloc set_futs futs ready]; rewrite tokF_app; cbn; lia).
  assert (E2 : fget s2 c = Some (mkt Pending cbs k None m1)) by (unfold s2, fget, falloc; cbn [set_futs futs]; rewrite nth_app_new; destruct (Nat.eqb_spec c (List.length (futs s1))) as [->|]; auto; assert (Y : nth_error (futs s1) (List.length (futs s1)) = None) by (now apply nth_error_None); unfold fget in E1; congruence).
  assert (G2 : nth_error (futs s2) g = Some (mk_fut Pending [] (KGather (List.length l2)))) by (unfold s2, falloc; cbn [set_futs futs]; rewrite nth_app_new, LN, Nat.eqb_refl; reflexivity).
  assert (C2 : cur s2 = Some (c, BClk CCancel)) by (unfold s2, s1; change (cur (fold_left cancel_top l2 s) = Some (c, BClk CCancel)); rewrite (rest_cur _ _ (rest_fold cancel_top l2 s (fun s a => rest_cancel _ s a))); exact Hc).
  destruct (on_dones_count g l2 s2) as [T3 [R3 S3]]; [intros f Hf; unfold s2; cbn [falloc set_futs futs]; rewrite app_length, LN; cbn; specialize (Hl f Hf); fold g; lia|].
  destruct (on_dones_task g l2 s2 c _ _ _ _ _ E2) as [cb3 E3]. set (s3 := fold_left (fun s f => on_done s f (CbCount g)) l2 s2) in *.
  assert (C3 : cur s3 = Some (c, BClk CCancel)) by (unfold s3; rewrite (rest_cur _ _ (rest_fold (fun s f => on_done s f (CbCount g)) l2 s2 (fun s a => rest_on_done s a _))); exact C2).
  destruct (S3 _ _ G2 eq_refl) as [fu3 [G3 [K3 St3]]]. cbn [f_st] in St3. assert (P3 : fpending s3 g = true).
  { assert (X : forall l s0, fpending s0 g = true -> fpending (fold_left (fun s f => on_done s f (CbCount g)) l s0) g = true).
    { intros l0. induction l0 as [|f l0 IH]; intros s0 P0; cbn [fold_left]; auto. apply IH. unfold on_done. destruct (fget s0 f) as [fu|] eqn:Ef; auto. destruct (pending fu) eqn:Pf; [|exact P0].
      unfold fpending, fget in *. cbn [fput set_futs futs]. rewrite (put_nth_get _ _ _ _ _ Ef). destruct (Nat.eqb _ f); auto. }
    apply X. unfold fpending, fget. now rewrite G2. }
  assert (M4 : mstar (fun _ _ => True) Sc (coreof s3) (coreof (suspend s3 c g (start (BClk CGathered))))).
  { eapply L_suspend; eauto; try (intros; exact Logic.I); [reflexivity|]. unfold tget. rewrite E3. reflexivity. }
  destruct (Sc_keep _ g _ _ M4) as [T4 S4]. cbn [coreof snd] in S4. destruct (S4 _ _ G3 K3) as [fu4 [G4 [K4 St4]]]. split.
  - exists fu4. split; [exact G4|]. rewrite T4, T3, T2. split; [exact K4|]. intros r X. exfalso. destruct St3 as [St3|St3], St4 as [St4|St4]; congruence.
  - intros t Ht. exact (mstar_reg _ _ g t _ _ M4 (R3 t Ht)).
  - apply (Sc_acb _ g _ _ _ M4). cbn [coreof snd]. apply on_dones_acb; [intros; now right|]. intros y fy Ey Hy. exfalso. apply tokb_In in Hy. pose proof (tokF_le g (futs s2) y fy Ey) as Y. unfold tok in T2. cbn [coreof fst snd] in T2. lia.
  - rewrite T4, T3, T2. intros fx _ X. cbn in X. lia.
Qed.
End Gather.
