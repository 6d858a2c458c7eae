(** The order in which the tasks waiting for the clock event are resumed. *)
From Coq Require Import List Bool Arith ZArith Lia Sorted.
From Verif Require Import Py Prio_Model Loop_Model Loop_Spec Loop2_Spec First_Spec Loop_Proofs Loop2_Proofs Loop3_Proofs Loop4_Proofs Loop5_Proofs Loop6_Proofs Loop7_Proofs Loop8_Proofs Loop9_Proofs Loop10_Proofs Loop13_Proofs Loop14_Proofs Loop16_Proofs Loop22_Proofs.
Import ListNotations.
Open Scope nat_scope.

Section First.
Context {mem : Type}.
Notation prog := (@prog mem). Notation state := (@state mem). Notation body := (@body mem). Notation fut := (@fut mem).
Implicit Types (s : state).
Context (shuffle : list id -> list id) (dut delayers : mem -> mem).
Notation step := (step shuffle dut delayers). Notation steps := (steps shuffle dut delayers).

(** * The waiters of the clock event are in the order of their creation *)
Definition Srt s : Prop := forall ev, nth_error (evs s) 0 = Some ev -> StronglySorted lt (e_waiters ev).
Lemma sorted_new n l : StronglySorted lt l -> Forall (fun x => x < n) l -> StronglySorted lt (l ++ [n]).
Proof.
  intros A B. induction A as [|a l A IH F]; simpl; [repeat constructor|]. inversion B; subst. constructor; auto. apply Forall_app. split; auto.
Qed.
Lemma sorted_remove f l : StronglySorted lt l -> StronglySorted lt (remove1 f l).
Proof.
  unfold remove1. induction 1 as [|a l A IH F]; simpl; [constructor|]. destruct (negb (f =? a)); auto. constructor; auto. apply Forall_forall. intros x X. apply filter_In in X. apply (proj1 (Forall_forall _ _) F). tauto.
Qed.
Lemma sorted_lt (l1 l2 l3 : list id) f g : StronglySorted lt (l1 ++ f :: l2 ++ g :: l3) -> f < g.
Proof.
  induction l1 as [|a l1 IH]; simpl; intros H; inversion H; subst; auto. apply (proj1 (Forall_forall _ _) H3). apply in_or_app. right. now left.
Qed.
Lemma sorted_split f g : forall l : list id, StronglySorted lt l -> In f l -> In g l -> f < g -> exists l1 l2 l3, l = l1 ++ f :: l2 ++ g :: l3.
Proof.
  induction 1 as [|a l A IH F]; intros Hf Hg Lt; [contradiction|]. rewrite Forall_forall in F. destruct Hf as [->|Hf].
  - destruct Hg as [->|Hg]; [lia|]. destruct (in_split _ _ Hg) as [l2 [l3 ->]]. exists [], l2, l3. reflexivity.
  - destruct Hg as [->|Hg]; [specialize (F f Hf); lia|]. destruct (IH Hf Hg Lt) as [l1 [l2 [l3 ->]]]. exists (a :: l1), l2, l3. reflexivity.
Qed.
Lemma sorted_nodup (l : list id) : StronglySorted lt l -> NoDup l.
Proof. induction 1 as [|a l A IH F]; constructor; auto. intros X. rewrite Forall_forall in F. specialize (F a X). lia. Qed.
Lemma evset_w E e ev' : nth_error (evset E e) 0 = Some ev' -> exists ev, nth_error E 0 = Some ev /\ e_waiters ev' = e_waiters ev.
Proof.
  unfold evset. destruct (nth_error E e) as [ev|] eqn:Ee; [|eauto]. destruct (e_val ev); [eauto|]. rewrite (put_nth_get _ _ _ _ 0 Ee). destruct (Nat.eqb_spec 0 e) as [<-|]; [|eauto].
  intros X. injection X as <-. eauto.
Qed.
Lemma evclear_w E e ev' : nth_error (evclear E e) 0 = Some ev' -> exists ev, nth_error E 0 = Some ev /\ e_waiters ev' = e_waiters ev.
Proof.
  unfold evclear. destruct (nth_error E e) as [ev|] eqn:Ee; [|eauto]. rewrite (put_nth_get _ _ _ _ 0 Ee). destruct (Nat.eqb_spec 0 e) as [<-|]; [|eauto].
  intros X. injection X as <-. eauto.
Qed.
Lemma app_w (E l : list event) ev' : E <> [] -> nth_error (E ++ l) 0 = Some ev' -> exists ev, nth_error E 0 = Some ev /\ e_waiters ev' = e_waiters ev.
Proof. destruct E; [congruence|]. simpl. eauto. Qed.
Lemma evafter_w s ev' : evs s <> [] -> nth_error (evafter s) 0 = Some ev' ->
  exists ev, nth_error (evs s) 0 = Some ev /\
    (e_waiters ev' = e_waiters ev \/ (exists f, e_waiters ev' = remove1 f (e_waiters ev)) \/
     (e_waiters ev' = e_waiters ev ++ [List.length (futs s)] /\ exists t b, cur s = Some (t, b))).
Proof.
  intros NE. assert (D : nth_error (evs s) 0 = Some ev' -> exists ev, nth_error (evs s) 0 = Some ev /\
    (e_waiters ev' = e_waiters ev \/ (exists f, e_waiters ev' = remove1 f (e_waiters ev)) \/ (e_waiters ev' = e_waiters ev ++ [List.length (futs s)] /\ exists t b, cur s = Some (t, b)))) by eauto.
  assert (G : (exists ev, nth_error (evs s) 0 = Some ev /\ e_waiters ev' = e_waiters ev) -> exists ev, nth_error (evs s) 0 = Some ev /\
    (e_waiters ev' = e_waiters ev \/ (exists f, e_waiters ev' = remove1 f (e_waiters ev)) \/ (e_waiters ev' = e_waiters ev ++ [List.length (futs s)] /\ exists t b, cur s = Some (t, b)))) by (intros [ev [X Y]]; eauto).
  unfold evafter. destruct (cur s) as [[t b]|]; auto.
  assert (O : forall o, nth_error (evop s o) 0 = Some ev' -> exists ev, nth_error (evs s) 0 = Some ev /\
    (e_waiters ev' = e_waiters ev \/ (exists f, e_waiters ev' = remove1 f (e_waiters ev)) \/ (e_waiters ev' = e_waiters ev ++ [List.length (futs s)] /\ exists t0 b0, Some (t, b) = Some (t0, b0)))).
  { intros o. unfold evop. destruct o as [f|m|fl| |p|f|f| |e|e|e| |q v|q|q| |h z [|]|l| |]; auto; try (intros X; apply G; eapply app_w; eauto; fail).
    - destruct (nth_error (evs s) e) as [ev|] eqn:Ee; auto. destruct (e_priv ev); auto. intros X. apply G. eapply evset_w; eauto.
    - destruct (nth_error (evs s) e) as [ev|] eqn:Ee; auto. destruct (e_priv ev); auto. intros X. apply G. eapply evclear_w; eauto.
    - destruct (nth_error (evs s) e) as [ev|] eqn:Ee; auto. destruct (e_val ev); auto. rewrite (put_nth_get _ _ _ _ 0 Ee). destruct (Nat.eqb_spec 0 e) as [<-|]; auto. intros X. injection X as <-. exists ev. split; auto. right; right. simpl. split; eauto. }
  destruct b as [[v|e|o kk]|[v|e|o kk] ev todo sb|c|e f r kk|q f r kk|test|[v|e|o kk]]; try exact D; try apply O.
  - destruct ev as [e|]; [|exact D]. intros X. apply G. eapply evset_w; eauto.
  - destruct c; try exact D. intros X. destruct (evclear_w _ _ _ X) as [ev [X1 X2]]. destruct (evset_w _ _ _ X1) as [ev1 [X3 X4]]. apply G. exists ev1. split; auto. congruence.
  - destruct (nth_error (evs s) e) as [ev|] eqn:Ee; auto. rewrite (put_nth_get _ _ _ _ 0 Ee). destruct (Nat.eqb_spec 0 e) as [<-|]; auto. intros X. injection X as <-. exists ev. split; auto. right; left. simpl. eauto.
  - destruct (clock s); [apply (O (OEvWait 0))|exact D].
Qed.
Lemma step_srt fire s : All s -> Srt s -> Srt (step fire s).
Proof.
  intros [EV _] H ev'. rewrite step_evs. destruct (v_zero _ EV) as [ws Z]. intros X. apply evafter_w in X; [|intros Y; rewrite Y in Z; discriminate]. destruct X as [ev [E [->|[[f ->]|[-> _]]]]].
  - now apply H.
  - apply sorted_remove. now apply H.
  - apply sorted_new; [now apply H|]. apply Forall_forall. intros x Hx. pose proof (k_ev _ (proj2 (v_wf _ EV)) 0 ev x E Hx) as Y. unfold kindof in Y. apply nth_error_Some. destruct (nth_error (futs s) x); [discriminate|discriminate Y].
Qed.
Lemma reach_srt test m s : steps (init test m) s -> Srt s.
Proof.
  intros R. assert (X : All s /\ Srt s); [|apply X]. assert (A0 : All (init test m : state)) by (apply (reach_all shuffle dut delayers test m); apply steps_refl).
  apply (steps_ind_inv shuffle dut delayers (fun s => All s /\ Srt s) _ _) in R; auto.
  - intros fire s0 [A B]. split; [now apply step_all|now apply step_srt].
  - split; auto. intros ev E. simpl in E. injection E as <-. constructor.
Qed.

(** * Asleep, woken *)
Definition At (st : fstate) s t f : Prop := (forall b, cur s <> Some (t, b)) /\ exists cbs k m fu, nth_error (futs s) t = Some (mkt Pending cbs k (Some f) m) /\ nth_error (futs s) f = Some fu /\ f_kind fu = KEv 0 /\ f_st fu = st.
Notation Slp := (At Pending).
Definition Wok s t f : Prop := exists r, At (Finished r) s t f.
Lemma head_owner s t f st h r : Wf s -> At st s t f -> ready s = h :: r -> owner h = Some t -> h = HWake t f /\ st <> Pending.
Proof.
  intros [I K] [Hc [cbs [k [m [fu [E [Ef [Kf Sf]]]]]]]] Hr Ho. assert (Hin : In h (ready s)) by (rewrite Hr; now left). pose proof (waitof_task _ _ _ _ _ _ _ E) as WT.
  destruct h as [x|x e|x f'|g| |f']; simpl in Ho; try discriminate; injection Ho as ->.
  - pose proof (i_step _ I t Hin) as X. cbn [snd coreof] in X. congruence.
  - pose proof (i_throw _ I t e Hin) as X. cbn [snd coreof] in X. congruence.
  - destruct (i_wake _ I t f' Hin) as [X [fu' [X1 X2]]]. cbn [snd coreof] in X, X1. assert (f' = f) by congruence. subst f'. split; auto. rewrite Ef in X1. injection X1 as <-. unfold pending in X2. intros ->. rewrite Sf in X2. discriminate.
Qed.
Lemma slp_step fire s t f : All s -> Slp s t f -> (forall c l, cur s <> Some (c, BClk (CStep l))) -> Slp (step fire s) t f \/ At Canc (step fire s) t f.
Proof.
  intros A SL NC. pose proof SL as [Hc [cbs [k [m [fu [E [Ef [Kf Sf]]]]]]]]. pose proof A as [EV C]. pose proof (v_wf _ EV) as W. pose proof W as [I K].
  destruct (step_task shuffle dut delayers fire s t cbs _ (Some f) m W Hc E) as [[Hc' [cbs' [m' E']]]|[_ [h [r [n [Hr [_ [Ho _]]]]]]]].
  2: { destruct (head_owner _ _ _ _ _ _ W SL Hr Ho). congruence. }
  assert (M := True_ms_kin shuffle dut delayers fire s I K). destruct (mstar_evolve _ _ f _ _ M fu Ef) as [fu' [Ef' [Kf' Ev]]]; [now rewrite Kf|]. cbn [snd coreof] in Ef'.
  rewrite Kf in Ev. destruct Ev as [Ev|[Ev1 [Ev2 Ev3]]].
  - left. split; auto. exists cbs', k, m', fu'. repeat split; auto; congruence.
  - right. split; auto. exists cbs', k, m', fu'. repeat split; auto; try congruence. destruct Ev3 as [[_ X]|[[_ X]|[X Y]]]; [auto|contradiction|]. destruct (sets0 s A X) as [t0 [l Hc0]]. now apply NC in Hc0.
Qed.
Lemma wok_step fire s t f : All s -> Early s -> Wok s t f -> Early (step fire s) /\
  (Wok (step fire s) t f \/ (cur s = None /\ exists r, ready s = HWake t f :: r /\ exists b, cur (step fire s) = Some (t, b))).
Proof.
  intros A EA [v SL]. pose proof SL as [Hc [cbs [k [m [fu [E [Ef [Kf Sf]]]]]]]]. pose proof A as [EV C]. pose proof (v_wf _ EV) as W. pose proof W as [I K]. split; [eapply step_early; eauto|].
  destruct (step_task shuffle dut delayers fire s t cbs _ (Some f) m W Hc E) as [[Hc' [cbs' [m' E']]]|[Hn [h [r [n [Hr [_ [Ho [Hc' _]]]]]]]]].
  - left. exists v. assert (M := True_ms_kin shuffle dut delayers fire s I K). destruct (mstar_evolve _ _ f _ _ M fu Ef) as [fu' [Ef' [Kf' Ev]]]; [now rewrite Kf|]. cbn [snd coreof] in Ef'.
    rewrite Kf in Ev. destruct Ev as [Ev|[Ev1 _]]; [|congruence]. split; auto. exists cbs', k, m', fu'. repeat split; auto; congruence.
  - right. destruct (head_owner _ _ _ _ _ _ W SL Hr Ho) as [-> _]. split; auto. exists r. split; eauto.
Qed.
Lemma early_nostep s : Early s -> forall c l, cur s <> Some (c, BClk (CStep l)).
Proof. intros [_ E] c l X. exact (E _ _ X). Qed.

(** * The clock advances *)
Definition woken_by s (f : id) : list handle := match fget s f with Some fu => if is_task (f_kind fu) then [] else if pending fu then map (sched f) (f_cbs fu) else [] | None => [] end.
Lemma settle_woken s f st g : g <> f -> woken_by (settle s f st) g = woken_by s g.
Proof.
  intros Hn. unfold woken_by, settle. destruct (fget s f) as [fu|] eqn:Ef; auto. destruct (is_task (f_kind fu)); auto. unfold conclude. rewrite Ef. destruct (pending fu); auto.
  unfold fget in *. cbn [futs push set_ready fput set_futs]. rewrite (put_nth_get _ _ _ _ g Ef). destruct (Nat.eqb_spec g f); [contradiction|reflexivity].
Qed.
Lemma settles_ready v l : NoDup l -> forall s, ready (fold_left (fun s f => settle s f (Finished v)) l s) = ready s ++ flat_map (woken_by s) l.
Proof.
  induction 1 as [|f l Hf ND IH]; intros s; cbn [fold_left flat_map]; [now rewrite app_nil_r|]. rewrite IH.
  assert (X : flat_map (woken_by (settle s f (Finished v))) l = flat_map (woken_by s) l).
  { clear IH ND. induction l as [|g l IH]; auto. cbn [flat_map]. rewrite settle_woken by (intros ->; apply Hf; now left). rewrite IH; auto. intros X. apply Hf. now right. }
  rewrite X, app_assoc. f_equal. unfold settle, woken_by. destruct (fget s f) as [fu|] eqn:Ef; [|now rewrite app_nil_r]. destruct (is_task (f_kind fu)); [now rewrite app_nil_r|]. unfold conclude. rewrite Ef. destruct (pending fu); [reflexivity|now rewrite app_nil_r].
Qed.
Lemma slp_cb s t f : All s -> Slp s t f -> exists a b, woken_by s f = a ++ HWake t f :: b.
Proof.
  intros A SL. pose proof SL as [Hc [cbs [k [m [fu [E [Ef [Kf Sf]]]]]]]]. pose proof A as [EV C]. pose proof (v_wf _ EV) as W. pose proof W as [I K]. pose proof (waitof_task _ _ _ _ _ _ _ E) as WT.
  assert (X : In (CbWake t) (f_cbs fu)).
  { pose proof (i_cnt _ I t) as N. cbn [fst snd coreof] in N. assert (L : islive (futs s) t = true) by (unfold islive; now rewrite E). rewrite L in N.
    assert (N1 : cntc t (cur s) = 0). { unfold cntc. destruct (cur s) as [[x b]|]; auto. destruct (Nat.eqb_spec x t) as [->|]; auto. now destruct (Hc b). }
    assert (N2 : cnth t (ready s) = 0).
    { unfold cnth. destruct (filter (owns t) (ready s)) as [|h l] eqn:F; auto. exfalso. assert (Hin : In h (filter (owns t) (ready s))) by (rewrite F; now left). apply filter_In in Hin. destruct Hin as [Hin Ho].
      unfold owns in Ho. destruct (owner h) as [x|] eqn:Eo; [|discriminate]. apply Nat.eqb_eq in Ho. subst x. destruct h as [x|x e|x f'|g| |f']; simpl in Eo; try discriminate; injection Eo as ->.
      - pose proof (i_step _ I t Hin) as X. cbn [snd coreof] in X. congruence.
      - pose proof (i_throw _ I t e Hin) as X. cbn [snd coreof] in X. congruence.
      - destruct (i_wake _ I t f' Hin) as [X [fu' [X1 X2]]]. cbn [snd coreof] in X, X1. assert (f' = f) by congruence. subst f'. rewrite Ef in X1. injection X1 as <-. unfold pending in X2. rewrite Sf in X2. discriminate. }
    rewrite N1, N2 in N. simpl in N. unfold cntf in N. assert (G : forall F : list fut, list_sum (map (fun fu => cntb t (f_cbs fu)) F) = 1 -> exists fu, In fu F /\ In (CbWake t) (f_cbs fu)).
    { induction F as [|x F IH]; simpl; intros Y; [discriminate|]. destruct (cntb t (f_cbs x)) eqn:Q.
      - destruct (IH Y) as [y [Y1 Y2]]. exists y. auto.
      - exists x. split; auto. unfold cntb in Q. destruct (filter (wakes t) (f_cbs x)) as [|c l] eqn:Fl; [discriminate|]. assert (Hin : In c (filter (wakes t) (f_cbs x))) by (rewrite Fl; now left). apply filter_In in Hin. destruct Hin as [Hin Hw]. destruct c; simpl in Hw; try discriminate. apply Nat.eqb_eq in Hw. now subst. }
    destruct (G _ N) as [y [Y1 Y2]]. destruct (In_nth_error _ _ Y1) as [f' Ey]. pose proof (i_cb _ I t f' y Ey Y2) as X. cbn [snd coreof] in X. assert (f' = f) by congruence. subst f'. rewrite Ef in Ey. injection Ey as <-. exact Y2. }
  unfold woken_by, fget. rewrite Ef, Kf. cbn [is_task]. unfold pending. rewrite Sf. destruct (in_split _ _ X) as [a [b ->]]. rewrite map_app. do 2 eexists. reflexivity.
Qed.
Lemma slp_in s t f ev : All s -> Slp s t f -> nth_error (evs s) 0 = Some ev -> In f (e_waiters ev).
Proof.
  intros [EV _] [Hc [cbs [k [m [fu [E [Ef [Kf Sf]]]]]]]] Z. destruct (v_reg _ EV f fu 0 Ef Kf Sf) as [ev' [Ee [Hf _]]]. assert (X : ev' = ev) by congruence. now subst.
Qed.
Definition before s (x y : handle) : Prop := exists l1 l2 l3, ready s = l1 ++ x :: l2 ++ y :: l3.
Lemma cstep_slp fire s c l t f : All s -> cur s = Some (c, BClk (CStep l)) -> Slp s t f -> Wok (step fire s) t f.
Proof.
  intros A HC SL. pose proof SL as [Hc [cbs [k [m [fu [E [Ef [Kf Sf]]]]]]]]. pose proof A as [EV C]. pose proof (v_wf _ EV) as W. pose proof W as [I K].
  destruct (step_task shuffle dut delayers fire s t cbs _ (Some f) m W Hc E) as [[Hc' [cbs' [m' E']]]|[Hn _]]; [|congruence].
  destruct (v_reg _ EV f fu 0 Ef Kf Sf) as [ev [Ee [Hf V]]]. destruct (setsev_done shuffle dut delayers fire s 0 ev f fu) as [fu3 [E3 P3]]; auto; [unfold setsev; now rewrite HC|now rewrite Kf|].
  assert (M := True_ms_kin shuffle dut delayers fire s I K). destruct (mstar_evolve _ _ f _ _ M fu Ef) as [fu' [Ef' [Kf' Ev]]]; [now rewrite Kf|]. cbn [snd coreof] in Ef'. rewrite Ef' in E3. injection E3 as <-.
  rewrite Kf in Ev. unfold pending in P3. destruct Ev as [Ev|[Ev1 [Ev2 Ev3]]]; [rewrite Ev, Sf in P3; discriminate|].
  assert (Q : exists r, f_st fu' = Finished r); [|destruct Q as [r Q]; exists r; split; auto; exists cbs', k, m', fu'; repeat split; auto; congruence].
  destruct (v_zero _ EV) as [ws Z]. rewrite Z in Ee. injection Ee as <-. cbn [e_waiters] in Hf.
  destruct (f_st fu') eqn:Sf'; [discriminate|eauto|]. exfalso. revert Ef' Sf'. unfold Loop_Model.step. rewrite HC. cbn [exec_body exec_clk].
  set (s0 := set_mm _ _). assert (E0 : fget s0 f = Some fu) by exact Ef.
  assert (G : forall ws s1 fx, fget s1 f = Some fx -> is_task (f_kind fx) = false -> f_st fx <> Canc -> forall fy, fget (fold_left (fun s f => settle s f (Finished (Ok (VBool true)))) ws s1) f = Some fy -> f_st fy <> Canc).
  { clear. induction ws as [|a ws IH]; intros s1 fx E1 T1 S1 fy Ey; cbn [fold_left] in Ey; [congruence|]. revert Ey. unfold settle at 2. destruct (fget s1 a) as [fa|] eqn:Ea; [|eapply IH; eauto]. destruct (is_task (f_kind fa)) eqn:Ta; [eapply IH; eauto|]. unfold conclude. rewrite Ea. destruct (pending fa); [|eapply IH; eauto].
    assert (X : fget (push (fput s1 a (mk_fut (Finished (Ok (VBool true))) [] (f_kind fa))) (map (sched a) (f_cbs fa))) f = if Nat.eqb f a then Some (mk_fut (Finished (Ok (VBool true))) [] (f_kind fa)) else fget s1 f) by (unfold fget in *; cbn [futs push set_ready fput set_futs]; exact (put_nth_get _ _ _ _ f Ea)).
    destruct (Nat.eqb f a); [|rewrite E1 in X; eapply IH; eauto]. eapply IH; [exact X|exact Ta|discriminate]. }
  intros X Y. unfold ev_clear, ev_set in X. change (evs s0) with (evs s) in X. rewrite Z in X. cbn [e_val e_waiters] in X.
  set (s2 := fold_left _ ws _) in X. assert (X2 : fget s2 f = Some fu') by (destruct (nth_error (evs s2) 0); exact X). refine (G ws _ fu _ _ _ fu' X2 Y); [exact E0|now rewrite Kf|congruence].
Qed.
Lemma cstep_ready fire s c l : All s -> Srt s -> cur s = Some (c, BClk (CStep l)) -> exists ev, nth_error (evs s) 0 = Some ev /\ ready (step fire s) = ready s ++ flat_map (woken_by s) (e_waiters ev).
Proof.
  intros [EV _] SR HC. destruct (v_zero _ EV) as [ws Z]. exists (mk_event false ws true). split; auto. cbn [e_waiters]. pose proof (sorted_nodup _ (SR _ Z)) as ND. cbn [e_waiters] in ND.
  unfold Loop_Model.step. rewrite HC. cbn [exec_body exec_clk]. set (s0 := set_mm _ _). unfold ev_clear, ev_set. change (evs s0) with (evs s). rewrite Z. cbn [e_val e_waiters e_priv].
  assert (X : ready (fold_left (fun s f => settle s f (Finished (Ok (VBool true)))) ws (eput s0 0 (mk_event true ws true))) = ready s ++ flat_map (woken_by s) ws) by (rewrite settles_ready by exact ND; reflexivity).
  set (s2 := fold_left _ ws _) in *. destruct (nth_error (evs s2) 0); exact X.
Qed.
Lemma cstep_before fire s c l t f u g : All s -> Srt s -> cur s = Some (c, BClk (CStep l)) -> Slp s t f -> Slp s u g -> f < g -> before (step fire s) (HWake t f) (HWake u g).
Proof.
  intros A SR HC T U Lt. destruct (cstep_ready fire s c l A SR HC) as [ev [Z E]]. destruct (sorted_split f g _ (SR _ Z) (slp_in _ _ _ _ A T Z) (slp_in _ _ _ _ A U Z) Lt) as [l1 [l2 [l3 EW]]].
  destruct (slp_cb s t f A T) as [a1 [b1 E1]]. destruct (slp_cb s u g A U) as [a2 [b2 E2]]. unfold before. rewrite E, EW, !flat_map_app. cbn [flat_map]. rewrite !flat_map_app. cbn [flat_map]. rewrite E1, E2.
  exists (ready s ++ flat_map (woken_by s) l1 ++ a1), (b1 ++ flat_map (woken_by s) l2 ++ a2), (b2 ++ flat_map (woken_by s) l3). repeat (rewrite <- ?app_assoc; cbn [app]). reflexivity.
Qed.

(** * A running task begins to wait *)
Lemma susp_at (s1 : state) t k w st cbs k' w' m : Susp t k w s1 -> nth_error (futs s1) t = Some (mkt st cbs k' w' m) -> k' = k /\ w' = w.
Proof. intros [_ [c1 [m1 E]]] E'. rewrite E in E'. injection E' as _ _ <- <- _. auto. Qed.
Lemma enter fire s t b f st cbs k m fu : All s -> cur s = Some (t, b) -> clock s <> Some t -> (forall b', cur (step fire s) <> Some (t, b')) ->
  nth_error (futs (step fire s)) t = Some (mkt st cbs k (Some f) m) -> nth_error (futs (step fire s)) f = Some fu -> f_kind fu = KEv 0 -> st = Pending -> f = List.length (futs s).
Proof.
  intros A Hc HK Hn E Ef Kf St. pose proof (step_all shuffle dut delayers fire s A) as [EV' _]. pose proof A as [EV C]. pose proof (v_wf _ EV) as [I K]. destruct (C t HK) as [C1 _]. specialize (C1 _ Hc).
  destruct (cur_live _ I t b Hc) as [cbs0 [k0 [m0 E0]]]. cbn [snd coreof] in E0. subst st.
  assert (SH : exists kk, k = (fun r => BEv 0 f r kk)).
  { pose proof (proj1 (v_linked _ EV') t cbs k (Some f) m E Hn) as [kd [fu' [X1 [X2 X3]]]]. cbn [snd coreof] in X1. rewrite Ef in X1. injection X1 as <-. rewrite Kf in X2. destruct kd as [e'| | | | |]; simpl in X2; try contradiction; try discriminate. assert (e' = 0) by congruence. subst e'. destruct X3 as [kk [X3 _]]. eauto. }
  destruct SH as [kk SH].
  assert (NP : forall kb : res lval -> body, (forall r, plainb (kb r) = true) -> k <> kb) by (intros kb PB X; specialize (PB CE); rewrite <- X, SH in PB; discriminate).
  assert (QG : forall s0 q kb, futs s0 = futs s -> step fire s = q_get s0 t q kb -> f = List.length (futs s)).
  { intros s0 q kb HF HS. rewrite HS in E, Hn. assert (E0' : fget s0 t = Some (mkt Pending cbs0 k0 None m0)) by (unfold fget; now rewrite HF). destruct (q_get_out s0 t q kb _ _ _ _ E0') as [[r [_ X]]|[g [w' X]]]; [now apply Hn in X|]. destruct (susp_at _ _ _ _ _ _ _ _ _ X E) as [X1 _]. rewrite SH in X1. apply (f_equal (fun h => h CE)) in X1. discriminate. }
  assert (OP : forall s0 o kb, futs s0 = futs s -> (forall r, plainb (kb r) = true) -> step fire s = exec_op s0 t o kb -> f = List.length (futs s)).
  { intros s0 o kb HF PB HS. assert (E0' : fget s0 t = Some (mkt Pending cbs0 k0 None m0)) by (unfold fget; now rewrite HF).
    destruct o as [h|mk|fl| |p|h|h| |e|e|e| |q v|q|q| |h z dd|l| |]; try (now apply (QG s0 q kb)); rewrite HS in E, Hn; unfold exec_op in E, Hn.
    - destruct (h (mm s0)). now destruct (Hn _ eq_refl).
    - now destruct (Hn _ eq_refl).
    - now destruct (Hn _ eq_refl).
    - destruct (susp_at _ _ _ _ _ _ _ _ _ (suspend0_susp s0 t kb _ _ _ _ E0') E). discriminate.
    - now destruct (Hn _ eq_refl).
    - destruct (fget s0 h) as [fh|]; [|now destruct (Hn _ eq_refl)]. destruct (negb _); [now destruct (Hn _ eq_refl)|]. destruct (pending fh); [|now destruct (Hn _ eq_refl)].
      destruct (suspend_out s0 t h kb _ _ _ _ E0') as [w' X]. destruct (susp_at _ _ _ _ _ _ _ _ _ X E) as [X1 _]. now destruct (NP kb PB).
    - destruct (fget s0 h) as [fh|]; [|now destruct (Hn _ eq_refl)]. destruct (negb _); now destruct (Hn _ eq_refl).
    - now destruct (Hn _ eq_refl).
    - destruct (nth_error (evs s0) e) as [ev|]; [|now destruct (Hn _ eq_refl)]. destruct (e_priv ev); now destruct (Hn _ eq_refl).
    - destruct (nth_error (evs s0) e) as [ev|]; [|now destruct (Hn _ eq_refl)]. destruct (e_priv ev); now destruct (Hn _ eq_refl).
    - destruct (nth_error (evs s0) e) as [ev|]; [|now destruct (Hn _ eq_refl)]. destruct (e_val ev); [now destruct (Hn _ eq_refl)|]. cbv zeta in E.
      match type of E with nth_error (futs (suspend ?y _ ?g ?kx)) _ = _ => destruct (suspend_out y t g kx cbs0 k0 None m0) as [w' X]; [exact (falloc_task _ _ _ _ E0')|]; destruct (susp_at _ _ _ _ _ _ _ _ _ X E) as [X1 _] end.
      rewrite SH in X1. apply (f_equal (fun h => h CE)) in X1. injection X1 as _ -> _. now rewrite HF.
    - now destruct (Hn _ eq_refl).
    - destruct (nth_error (qs s0) q) as [qu|]; now destruct (Hn _ eq_refl).
    - destruct (nth_error (qs s0) q) as [qu|]; now destruct (Hn _ eq_refl).
    - now destruct (Hn _ eq_refl).
    - destruct dd; now destruct (Hn _ eq_refl).
    - cbv zeta in Hn. destruct (nodup _ _); now destruct (Hn _ eq_refl).
    - destruct (clock s0); now destruct (Hn _ eq_refl).
    - now destruct (Hn _ eq_refl). }
  assert (FI : forall s0 r, futs s0 = futs s -> step fire s = finish s0 t r -> f = List.length (futs s)).
  { intros s0 r HF HS. exfalso. rewrite HS in E. unfold finish, conclude in E. assert (E0' : fget s0 t = Some (mkt Pending cbs0 k0 None m0)) by (unfold fget; now rewrite HF). rewrite E0' in E. cbn [pending f_st mkt] in E. cbn [futs set_cur push set_ready fput set_futs] in E. rewrite (put_nth_get _ _ _ _ t E0'), Nat.eqb_refl in E. discriminate. }
  assert (STEP : step fire s = exec_body shuffle dut delayers s t b) by (unfold Loop_Model.step; now rewrite Hc).
  destruct b as [[v|e|o kb]|[v|e|o kb] ev todo sb|c|e g r kb|q g [v|e] kb|test|[v|e|o kb]]; cbn [exec_body noclkb] in *; try contradiction.
  - now apply (FI s (Ok v)).
  - now apply (FI s (Exn e)).
  - apply (OP s o (fun r => BProg (kb r))); auto.
  - rewrite STEP in Hn. now destruct (Hn _ eq_refl).
  - now apply (QG s q kb).
  - rewrite STEP in Hn. now destruct (Hn _ eq_refl).
  - rewrite STEP in Hn. now destruct (Hn _ eq_refl).
  - destruct (clock s); [now apply (OP (set_tdone s (Some true)) (OEvWait 0) (fun r => BProg (match r with Ok _ => Ret v | Exn e => Raise e end)))|now apply (FI (set_tdone s (Some true)) (Ok v))].
  - now apply (FI s (Exn e)).
  - apply (OP s o (fun r => BTest (kb r))); auto.
Qed.

(** * One task stays ahead of another *)
Inductive Ahead (t u : id) s : Prop :=
| ah_asleep f g : Slp s t f -> Slp s u g -> f < g -> Ahead t u s
| ah_woken f g : Early s -> Wok s t f -> Wok s u g -> before s (HWake t f) (HWake u g) -> Ahead t u s
| ah_first b g : Early s -> cur s = Some (t, b) -> Wok s u g -> Ahead t u s
| ah_again f g : Early s -> Slp s t f -> Wok s u g -> Ahead t u s
| ah_second f b : Slp s t f -> cur s = Some (u, b) -> Ahead t u s.
Lemma clocked_cases s t : Wf s -> clocked s t -> (exists b, cur s = Some (t, b)) \/ exists f, Slp s t f \/ Wok s t f.
Proof.
  intros [I _] [X|[U [f [fu [[tk [T Wt]] [Ef [Kf Sf]]]]]]]; auto. right. exists f. apply live_iff in U. destruct (live_task _ _ U) as [cbs [k [w [m E]]]]. unfold tget, fget in T. rewrite E in T. cbn [mkt] in T. injection T as <-. simpl in Wt. subst w.
  assert (Hc : forall b, cur s <> Some (t, b)). { intros b Hc. pose proof (i_cur _ I t b Hc) as X. cbn [snd coreof] in X. rewrite (waitof_task _ _ _ _ _ _ _ E) in X. discriminate. }
  destruct (f_st fu) as [|r|] eqn:Q; [left|right; exists r|congruence]; split; auto; exists cbs, k, m, fu; auto.
Qed.
Lemma at_fun st st' s t f f' : At st s t f -> At st' s t f' -> f' = f /\ st' = st.
Proof. intros [_ [c1 [k1 [m1 [u1 [E [F1 [_ S1]]]]]]]] [_ [c2 [k2 [m2 [u2 [E' [F2 [_ S2]]]]]]]]. rewrite E in E'. injection E' as _ _ <- _. split; auto. congruence. Qed.
Lemma wok_other fire s t u g b : All s -> Early s -> cur s = Some (t, b) -> Wok s u g -> Early (step fire s) /\ Wok (step fire s) u g.
Proof. intros A EA Hc U. destruct (wok_step fire s u g A EA U) as [E [X|[X _]]]; auto. congruence. Qed.
Lemma not_cancelled s t f : Wf s -> clocked s t -> At Canc s t f -> False.
Proof. intros W Ct X. destruct (clocked_cases s t W Ct) as [[b Hc]|[f' [Y|[r Y]]]]; [exact (proj1 X _ Hc)|destruct (at_fun _ _ _ _ _ _ X Y); discriminate|destruct (at_fun _ _ _ _ _ _ X Y); discriminate]. Qed.
Lemma begins fire s t b : All s -> cur s = Some (t, b) -> clock s <> Some t -> clocked (step fire s) t -> (exists b', cur (step fire s) = Some (t, b')) \/ Slp (step fire s) t (List.length (futs s)).
Proof.
  intros A Hc HK Ct. pose proof (step_all shuffle dut delayers fire s A) as [EV' _]. pose proof (v_wf _ EV') as W'. pose proof (v_wf _ (proj1 A)) as W. destruct (clocked_cases _ _ W' Ct) as [X|[f X]]; auto. right.
  assert (Y : exists st, At st (step fire s) t f) by (destruct X as [X|[r X]]; eauto). destruct Y as [st Y]. destruct Y as [Hn [cbs [k [m [fu [E [Ef [Kf Sf]]]]]]]].
  assert (F : f = List.length (futs s)) by (eapply enter; eauto). subst f. destruct X as [X|[r X]]; auto. exfalso. destruct X as [_ [c2 [k2 [m2 [u2 [_ [E2 [K2 S2]]]]]]]].
  destruct (new_kev shuffle dut delayers fire s _ _ 0 W E2 K2 (le_n _)) as [_ [Z|Z]]; congruence.
Qed.
Lemma step_slp fire s t f : All s -> Slp s t f -> clocked (step fire s) t -> (forall c l, cur s <> Some (c, BClk (CStep l))) -> Slp (step fire s) t f.
Proof.
  intros A SL Ct NC. destruct (slp_step fire s t f A SL NC) as [X|X]; auto. exfalso. eapply not_cancelled; eauto. apply (v_wf _ (proj1 (step_all shuffle dut delayers fire s A))).
Qed.
Lemma no_cstep s t b : All s -> clock s <> Some t -> cur s = Some (t, b) -> forall c l, cur s <> Some (c, BClk (CStep l)).
Proof. intros [_ C] HK Hc c l X. rewrite Hc in X. injection X as <- ->. exact (proj1 (C t HK) _ Hc). Qed.
Lemma cstep_dec s : (exists c l, cur s = Some (c, BClk (CStep l))) \/ (forall c l, cur s <> Some (c, BClk (CStep l))).
Proof. destruct (cur s) as [[t b]|]; [|right; congruence]. destruct b as [| |[]| | | | ]; try (right; congruence). left. eauto. Qed.
Lemma before_step fire s t f u g : All s -> Wok s t f -> Wok s u g -> t <> u -> before s (HWake t f) (HWake u g) ->
  before (step fire s) (HWake t f) (HWake u g) \/ exists b, cur (step fire s) = Some (t, b).
Proof.
  intros A [r1 T] [r2 U] Hn [l1 [l2 [l3 E]]]. pose proof (v_wf _ (proj1 A)) as W. unfold before. destruct (step_ready shuffle dut delayers fire s W) as [[x [b [L [Hc [R _]]]]]|[[Hc [_ [_ R]]]|[[L [Hc [_ [_ [R _]]]]]|[[n [Hc [_ [R _]]]]|[n [h [r [L [Hc [Hb [Hr [R _]]]]]]]]]]]].
  - left. rewrite R, E. exists l1, l2, (l3 ++ L). repeat (rewrite <- ?app_assoc; cbn [app]). reflexivity.
  - left. rewrite R, E. eauto.
  - left. rewrite R, E. exists l1, l2, (l3 ++ L). repeat (rewrite <- ?app_assoc; cbn [app]). reflexivity.
  - rewrite R in E. destruct l1; discriminate.
  - destruct l1 as [|x l1].
    + right. rewrite E in Hr. injection Hr as <- Hr. destruct T as [_ [cbs [k [m [fu [Et _]]]]]]. unfold Loop_Model.step. rewrite Hc, Hb, E. cbn [app run_handle]. unfold resume.
      match goal with |- context [tget ?y t] => assert (X : tget y t = Some (mk_task k (Some f) m)) by (unfold tget, fget; cbn [futs set_batch set_ready]; rewrite Et; reflexivity); rewrite X end. eexists. reflexivity.
    + left. rewrite R. rewrite E in Hr. injection Hr as _ Hr. rewrite <- Hr. exists l1, l2, (l3 ++ L). repeat (rewrite <- ?app_assoc; cbn [app]). reflexivity.
Qed.
Lemma head_once s t f u g : All s -> Wok s u g -> before s (HWake t f) (HWake u g) -> t <> u -> forall r, ready s <> HWake u g :: r.
Proof.
  intros A [v U] [l1 [l2 [l3 E]]] Hn r X. rewrite E in X. destruct l1 as [|h l1]; simpl in X; [congruence|]. injection X as -> X.
  pose proof (i_cnt _ (proj1 (v_wf _ (proj1 A))) u) as N. cbn [fst snd coreof] in N. rewrite E in N. cbn [app] in N. rewrite cnth_cons, cnth_app, cnth_cons, cnth_app, cnth_cons in N. unfold owns in N. simpl in N. rewrite !Nat.eqb_refl in N. destruct (islive (futs s) u); lia.
Qed.
Lemma ahead_step fire s t u : All s -> Srt s -> t <> u -> clock s <> Some t -> clock s <> Some u -> Ahead t u s -> clocked (step fire s) t -> clocked (step fire s) u -> Ahead t u (step fire s).
Proof.
  intros A SR Hn HT HU H Ct Cu. destruct H as [f g T U Lt|f g EA T U B|b g EA Hc U|f g EA T U|f b T Hc].
  - destruct (cstep_dec s) as [[c [l HC]]|NC]; [|eapply ah_asleep; eauto using step_slp]. eapply ah_woken; eauto using cstep_slp, early_after_step, cstep_before.
  - destruct (wok_step fire s u g A EA U) as [EA' [U'|[_ [r [Hr _]]]]]; [|exfalso; exact (head_once s t f u g A U B Hn r Hr)].
    destruct (before_step fire s t f u g A T U Hn B) as [B'|[b Hb]]; [|eapply ah_first; eauto].
    destruct (wok_step fire s t f A EA T) as [_ [T'|[_ [r [_ [b Hb]]]]]]; [eapply ah_woken; eauto|eapply ah_first; eauto].
  - destruct (wok_other fire s t u g b A EA Hc U) as [EA' U']. destruct (begins fire s t b A Hc HT Ct) as [[b' Hc']|T']; [eapply ah_first; eauto|eapply ah_again; eauto].
  - pose proof (step_slp fire s t f A T Ct (early_nostep s EA)) as T'. destruct (wok_step fire s u g A EA U) as [EA' [U'|[_ [r [_ [b Hb]]]]]]; [eapply ah_again; eauto|eapply ah_second; eauto].
  - pose proof (step_slp fire s t f A T Ct (no_cstep s u b A HU Hc)) as T'. destruct (begins fire s u b A Hc HU Cu) as [[b' Hc']|U']; [eapply ah_second; eauto|]. eapply ah_asleep; eauto.
    destruct T as [_ [cbs [k [m [fu [_ [Ef _]]]]]]]. apply nth_error_Some. congruence.
Qed.
Lemma asleep_slp s t f : Wf s -> unfinished s t -> asleep_on s t f -> Slp s t f.
Proof.
  intros [I _] U [[tk [T Wt]] [fu [Ef [Kf Sf]]]]. apply live_iff in U. destruct (live_task _ _ U) as [cbs [k [w [m E]]]]. unfold tget, fget in T. rewrite E in T. cbn [mkt] in T. injection T as <-. simpl in Wt. subst w.
  split; [|exists cbs, k, m, fu; auto]. intros b Hc. pose proof (i_cur _ I t b Hc) as X. cbn [snd coreof] in X. rewrite (waitof_task _ _ _ _ _ _ _ E) in X. discriminate.
Qed.
Lemma slp_asleep s t f : Slp s t f -> asleep s t.
Proof.
  intros [_ [cbs [k [m [fu [E [Ef [Kf Sf]]]]]]]]. split; [apply live_iff; unfold islive; now rewrite E|]. exists f. split; [|exists fu; auto]. exists (mk_task k (Some f) m). unfold tget, fget. rewrite E. auto.
Qed.
Lemma ahead_begin s t u : All s -> Srt s -> ahead s t u -> Ahead t u s.
Proof.
  intros A SR [Ut [Uu [f [g [l1 [l2 [l3 [b [p [T [U E]]]]]]]]]]]. pose proof (v_wf _ (proj1 A)) as W. apply (ah_asleep t u s f g); [now apply asleep_slp|now apply asleep_slp|]. pose proof (SR _ E) as X. cbn [e_waiters] in X. now apply sorted_lt in X.
Qed.
Lemma along_steps P s s' : along shuffle dut delayers P s s' -> steps s s'.
Proof. induction 1; [apply steps_refl|now apply steps_step]. Qed.
Lemma ahead_along s s' t u : All s -> Srt s -> t <> u -> clock s' <> Some t -> clock s' <> Some u -> Ahead t u s -> along shuffle dut delayers (fun x => clocked x t /\ clocked x u) s s' -> All s' /\ Srt s' /\ Ahead t u s'.
Proof.
  intros A SR Hn HT HU H AL. induction AL as [_|s1 fire AL IH [Ct Cu]]; auto.
  assert (HT1 : clock s1 <> Some t) by (intros X; apply HT; now apply clock_step). assert (HU1 : clock s1 <> Some u) by (intros X; apply HU; now apply clock_step).
  destruct (IH HT1 HU1) as [A1 [S1 H1]]. split; [now apply step_all|]. split; [now apply step_srt|]. now apply ahead_step.
Qed.

(** * Tasks that have not begun yet *)
Definition Sch s t : Prop := (forall b, cur s <> Some (t, b)) /\ (exists cbs k m, nth_error (futs s) t = Some (mkt Pending cbs k None m)) /\ In (HStep t) (ready s).
Lemma new_early fire s t cbs k m : Wf s -> (forall b, cur s <> Some (t, b)) -> nth_error (futs s) t = Some (mkt Pending cbs k None m) -> Early s -> Early (step fire s).
Proof.
  intros W Ht E [L1 L2]. pose proof W as [I K]. split.
  - eapply mstar_linked; [|exact L1]. apply (step_core shuffle dut delayers (fun _ => earlyk)); auto. intros t1 b Hc. apply early_stores. eauto.
  - intros t' b' Hc'. destruct (step_cur shuffle dut delayers fire s t' b' W Hc') as [[b [Hc Hn]]|[Hc [h [r0 [n [st [cbs0 [k0 [w0 [m0 [Hr [Hb [Ho [E0 ->]]]]]]]]]]]]]].
    + specialize (L2 _ _ Hc). destruct b as [[v|e|o kk]|[v|e|o kk] ev todo sb|c|e f0 r0 kk|q f0 [v|e] kk|test|[v|e|o kk]]; cbn [nextb early] in *; try contradiction; try (subst b'; exact Logic.I);
        try (subst b'; auto; fail); try (destruct Hn as [r1 [_ ->]]; try exact Logic.I; auto; fail).
      destruct c as [| | |[|[h ev] todo] sb| | | |last]; try contradiction; try (subst b'; exact Logic.I). destruct Hn as [->|[U _]]; [exact Logic.I|].
      exfalso. destruct (quiet_check s t' U t) as [f1 [W1 Q]].
      * unfold islive. now rewrite E.
      * intros ->. eapply Ht; eauto.
      * rewrite (waitof_task _ _ _ _ _ _ _ E) in W1. discriminate.
    + assert (Hin : In h (ready s)) by (rewrite Hr; now left). destruct (handle_live _ I h t' Hin Ho) as [cbs' [k' [w' [m' E']]]]. cbn [snd coreof] in E'. rewrite E0 in E'. injection E' as -> <- <- <- <-.
      assert (Hcn : forall b, cur s <> Some (t', b)) by congruence. pose proof (L1 t' _ _ _ _ E0 Hcn) as X. destruct w0 as [f0|]; [destruct X as [kd [fu0 [_ [_ X]]]]|]; apply X.
Qed.
Lemma before_pop fire s x y : Wf s -> before s x y -> before (step fire s) x y \/ (cur s = None /\ exists n r, batch s = Datatypes.S n /\ ready s = x :: r).
Proof.
  intros W [l1 [l2 [l3 E]]]. unfold before. destruct (step_ready shuffle dut delayers fire s W) as [[c [b [L [Hc [R _]]]]]|[[Hc [_ [_ R]]]|[[L [Hc [_ [_ [R _]]]]]|[[n [Hc [_ [R _]]]]|[n [h [r [L [Hc [Hb [Hr [R _]]]]]]]]]]]].
  - left. rewrite R, E. exists l1, l2, (l3 ++ L). repeat (rewrite <- ?app_assoc; cbn [app]). reflexivity.
  - left. rewrite R, E. eauto.
  - left. rewrite R, E. exists l1, l2, (l3 ++ L). repeat (rewrite <- ?app_assoc; cbn [app]). reflexivity.
  - rewrite R in E. destruct l1; discriminate.
  - destruct l1 as [|z l1]; [right; split; [exact Hc|]; exists n; eexists; split; [exact Hb|exact E]|]. left. rewrite R. rewrite E in Hr. injection Hr as _ Hr. rewrite <- Hr. exists l1, l2, (l3 ++ L). repeat (rewrite <- ?app_assoc; cbn [app]). reflexivity.
Qed.
Lemma first_run fire s t cbs k m n r : nth_error (futs s) t = Some (mkt Pending cbs k None m) -> cur s = None -> batch s = Datatypes.S n -> ready s = HStep t :: r -> exists b, cur (step fire s) = Some (t, b).
Proof.
  intros Et Hc Hb Hr. unfold Loop_Model.step. rewrite Hc, Hb, Hr. cbn [run_handle]. unfold resume.
  match goal with |- context [tget ?y t] => assert (X : tget y t = Some (mk_task k None m)) by (unfold tget, fget; cbn [futs set_batch set_ready]; rewrite Et; reflexivity); rewrite X end. eexists. reflexivity.
Qed.
Lemma sch_step fire s t : All s -> Early s -> Sch s t -> Early (step fire s) /\ (Sch (step fire s) t \/ (exists r, ready s = HStep t :: r) /\ exists b, cur (step fire s) = Some (t, b)).
Proof.
  intros A EA [Hc [[cbs [k [m E]]] Hin]]. pose proof (v_wf _ (proj1 A)) as W. pose proof W as [I K]. split; [eapply new_early; eauto|].
  destruct (step_task shuffle dut delayers fire s t cbs k None m W Hc E) as [[Hc' [cbs' [m' E']]]|[Hn [h [r [n [Hr [_ [Ho [Hc' _]]]]]]]]].
  - left. split; auto. split; eauto. destruct (step_ready shuffle dut delayers fire s W) as [[c [b [L [Hx [R _]]]]]|[[Hx [_ [_ R]]]|[[L [Hx [_ [_ [R _]]]]]|[[n [Hx [_ [R _]]]]|[n [h [r [L [Hx [Hb [Hr [R _]]]]]]]]]]]].
    + rewrite R. apply in_or_app. now left.
    + now rewrite R.
    + rewrite R. apply in_or_app. now left.
    + rewrite R in Hin. contradiction.
    + rewrite R. rewrite Hr in Hin. destruct Hin as [->|Hin]; [|apply in_or_app; now left]. exfalso. destruct (first_run fire s t _ _ _ _ _ E Hx Hb Hr) as [b X]. exact (Hc' _ X).
  - right. split; [|eauto]. assert (Hh : In h (ready s)) by (rewrite Hr; now left). pose proof (waitof_task _ _ _ _ _ _ _ E) as WT.
    assert (C1 : cnth t (ready s) <= 1). { pose proof (i_cnt _ I t) as N. cbn [fst snd coreof] in N. destruct (islive (futs s) t); lia. }
    rewrite Hr in *. destruct Hin as [->|Hin]; [eauto|]. exfalso. rewrite cnth_cons in C1. assert (Q : owns t h = true) by (unfold owns; rewrite Ho; apply Nat.eqb_refl). rewrite Q in C1. pose proof (cnth_In t (HStep t) r Hin eq_refl). lia.
Qed.
Lemma head_new s t u r : All s -> before s (HStep t) (HStep u) -> t <> u -> Sch s u -> ready s <> HStep u :: r.
Proof.
  intros A [l1 [l2 [l3 E]]] Hn _ X. rewrite E in X. destruct l1 as [|h l1]; simpl in X; [congruence|]. injection X as -> X.
  pose proof (i_cnt _ (proj1 (v_wf _ (proj1 A))) u) as N. cbn [fst snd coreof] in N. rewrite E in N. cbn [app] in N. rewrite cnth_cons, cnth_app, cnth_cons, cnth_app, cnth_cons in N. unfold owns in N. simpl in N. rewrite !Nat.eqb_refl in N. destruct (islive (futs s) u); lia.
Qed.
Lemma fresh_early s : All s -> clock_fresh s -> Early s.
Proof.
  intros [EV C] CF. pose proof (v_linked _ EV) as [L1 _]. split.
  - intros t cbs k w m E Hn. cbn [fst snd coreof] in *.
    assert (EK : earlyk k).
    { destruct (option_map (Nat.eqb t) (clock s)) as [[|]|] eqn:Q.
      - destruct (clock s) as [c|] eqn:Ec; [|discriminate]. injection Q as Q. apply Nat.eqb_eq in Q. subst c. destruct (CF t Ec) as [_ [tk [T K]]]. unfold tget, fget in T. rewrite E in T. cbn [mkt] in T. injection T as <-. simpl in K. subst k. apply start_early. exact Logic.I.
      - intros r. apply noclk_early. refine (proj2 (C t _) _ _ _ _ _ E r). intros X. rewrite X in Q. simpl in Q. rewrite Nat.eqb_refl in Q. discriminate.
      - intros r. apply noclk_early. refine (proj2 (C t _) _ _ _ _ _ E r). intros X. rewrite X in Q. discriminate. }
    pose proof (L1 t cbs k w m E Hn) as X. destruct w as [f|]; auto. destruct X as [kd [fu [X1 [X2 _]]]]. eauto.
  - intros t b Hc. apply noclk_early. apply (proj1 (C t ltac:(intros X; exact (proj1 (CF t X) _ Hc)))) with (1 := Hc).
Qed.
Inductive Begin (t u : id) s : bool -> bool -> Prop :=
| be_none : Early s -> Sch s t -> Sch s u -> before s (HStep t) (HStep u) -> Begin t u s false false
| be_first b : Early s -> cur s = Some (t, b) -> Sch s u -> Begin t u s true false
| be_again f : Early s -> Slp s t f -> Sch s u -> Begin t u s true false
| be_both : Ahead t u s -> Begin t u s true true.
Lemma sch_cur s t : Sch s t -> is_cur s t = false.
Proof. intros [Hc _]. unfold is_cur. destruct (cur s) as [[x b]|]; auto. destruct (Nat.eqb_spec x t) as [->|]; auto. now destruct (Hc b). Qed.
Lemma cur_cur s t b : cur s = Some (t, b) -> is_cur s t = true.
Proof. intros H. unfold is_cur. rewrite H. apply Nat.eqb_refl. Qed.
Lemma begin_step fire s t u bt bu : All s -> Srt s -> t <> u -> clock s <> Some t -> clock s <> Some u -> Begin t u s bt bu ->
  on_time (bt || is_cur (step fire s) t) (step fire s) t -> on_time (bu || is_cur (step fire s) u) (step fire s) u ->
  Begin t u (step fire s) (bt || is_cur (step fire s) t) (bu || is_cur (step fire s) u).
Proof.
  intros A SR Hn HT HU H Ot Ou. destruct H as [EA T U B|b EA Hc U|f EA T U|H]; cbn [orb] in *.
  - destruct (sch_step fire s u A EA U) as [EA' [U'|[[r Hr] _]]]; [|exfalso; exact (head_new s t u r A B Hn U Hr)]. rewrite (sch_cur _ _ U').
    destruct (sch_step fire s t A EA T) as [_ [T'|[_ [b Hb]]]]; [|rewrite (cur_cur _ _ _ Hb); eapply be_first; eauto].
    rewrite (sch_cur _ _ T'). apply be_none; auto. destruct (before_pop fire s _ _ (v_wf _ (proj1 A)) B) as [B'|[Hc [n [r [Hb Hr]]]]]; auto. exfalso. destruct T as [_ [[cbs [k [m E]]] _]]. destruct (first_run fire s t _ _ _ _ _ E Hc Hb Hr) as [b X]. exact (proj1 T' _ X).
  - destruct (sch_step fire s u A EA U) as [EA' [U'|[_ [b' Hb]]]].
    2: { exfalso. destruct (step_cur shuffle dut delayers fire s u b' (v_wf _ (proj1 A)) Hb) as [[b0 [X _]]|[X _]]; congruence. }
    rewrite (sch_cur _ _ U'). destruct (begins fire s t b A Hc HT Ot) as [[b' Hc']|T']; [eapply be_first; eauto|eapply be_again; eauto].
  - pose proof (step_slp fire s t f A T Ot (early_nostep s EA)) as T'. destruct (sch_step fire s u A EA U) as [EA' [U'|[_ [b' Hb]]]]; [rewrite (sch_cur _ _ U'); eapply be_again; eauto|]. rewrite (cur_cur _ _ _ Hb). apply be_both. eapply ah_second; eauto.
  - apply be_both. now apply ahead_step.
Qed.
Lemma begin_together s s' t u bt bu : All s -> Srt s -> t <> u -> clock s' <> Some t -> clock s' <> Some u -> Begin t u s false false -> together shuffle dut delayers t u s bt bu s' -> All s' /\ Srt s' /\ Begin t u s' bt bu.
Proof.
  intros A SR Hn HT HU H TG. induction TG as [|bt bu s1 fire TG IH Ot Ou]; auto.
  assert (HT1 : clock s1 <> Some t) by (intros X; apply HT; now apply clock_step). assert (HU1 : clock s1 <> Some u) by (intros X; apply HU; now apply clock_step).
  destruct (IH HT1 HU1) as [A1 [S1 H1]]. split; [now apply step_all|]. split; [now apply step_srt|]. now apply begin_step.
Qed.
Lemma begin_new s t u : All s -> clock_fresh s -> scheduled_first s t u -> Begin t u s false false.
Proof.
  intros A CF [Ut [Uu [l1 [l2 [l3 E]]]]]. pose proof (v_wf _ (proj1 A)) as [I _].
  assert (X : forall x, unfinished s x -> In (HStep x) (ready s) -> Sch s x).
  { intros x U Hin. apply live_iff in U. destruct (live_task _ _ U) as [cbs [k [w [m Ex]]]]. pose proof (i_step _ I x Hin) as Y. cbn [snd coreof] in Y. rewrite (waitof_task _ _ _ _ _ _ _ Ex) in Y. injection Y as ->. split; [|split; eauto].
    intros b Hc. pose proof (i_cnt _ I x) as N. cbn [fst snd coreof] in N. rewrite Hc in N. simpl in N. rewrite Nat.eqb_refl in N. pose proof (cnth_In x (HStep x) _ Hin eq_refl). destruct (islive (futs s) x); lia. }
  apply be_none; [now apply fresh_early| | |unfold before; eauto]; apply X; auto; rewrite E; apply in_or_app; right; [now left|right; apply in_or_app; right; now left].
Qed.
End First.
