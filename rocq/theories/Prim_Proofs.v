(** The calls of asynchronous.py that may wait: what happens between the call and its return. *)
From Coq Require Import List Bool Arith ZArith Lia.
From Verif Require Import Py Prio_Model Loop_Model Loop_Spec Loop2_Spec Bind_Spec Prim_Spec LoopProg_Model Loop_Proofs Loop2_Proofs Loop3_Proofs Loop4_Proofs Loop5_Proofs Loop7_Proofs Loop8_Proofs Loop9_Proofs Loop10_Proofs Loop13_Proofs Loop14_Proofs Loop16_Proofs Loop22_Proofs Drv_Proofs Comp_Proofs P_Loop3.
Import ListNotations.
Open Scope nat_scope.

Section Prim.
Context {mem : Type}.
Notation prog := (@prog mem). Notation state := (@state mem). Notation body := (@body mem). Notation task := (@task mem).
Notation fut := (@fut mem). Notation kind := (@kind mem).
Implicit Types (s : state).
Context (shuffle : list id -> list id) (dut delayers : mem -> mem).
Notation step := (step shuffle dut delayers). Notation steps := (steps shuffle dut delayers). Notation taken := (taken shuffle dut delayers).
Context (test : prog) (m : mem).

(** * Futures of events and queues never carry an exception *)
Definition InnerOk (c : @core mem) : Prop := forall f fu, nth_error (snd c) f = Some fu -> inner (f_kind fu) = true -> forall e, f_st fu <> Finished (Exn e).
Lemma step_innerok fire s : Wf s -> InnerOk (coreof s) -> InnerOk (coreof (step fire s)).
Proof.
  intros [I K] H. assert (M := True_ms_kin shuffle dut delayers fire s I K). revert H. apply (mstar_inv (fun _ _ => True) (Sof s)); [|exact M]. clear M.
  intros c c1 Q H f fu E IN e. destruct Q; cbn [fst snd] in *; try (eapply H; eassumption).
  - rewrite (put_nth_get _ _ _ _ f H0) in E. destruct (Nat.eqb f f0); [|eapply H; eauto]. injection E as <-. cbn in *. destruct H4 as [[_ ->]|[[_ ->]|X]]; try discriminate. destruct k; try discriminate IN; [destruct X as [_ ->]|subst st']; discriminate.
  - rewrite (put_nth_get _ _ _ _ f H0) in E. destruct (Nat.eqb f t); [|eapply H; eauto]. injection E as <-. discriminate.
  - rewrite (put_nth_get _ _ _ _ f H0) in E. destruct (Nat.eqb f f0); [|eapply H; eauto]. injection E as <-. discriminate.
  - rewrite (put_nth_get _ _ _ _ f H0) in E. destruct (Nat.eqb f f0); [|eapply H; eauto]. injection E as <-. cbn in *. destruct k, k'; try contradiction; discriminate.
  - rewrite nth_app_new in E. destruct (Nat.eqb f (List.length F)); [|eapply H; eauto]. injection E as <-. cbn. destruct H1; subst st; discriminate.
  - rewrite nth_app_new in E. destruct (Nat.eqb f (List.length F)); [|eapply H; eauto]. injection E as <-. discriminate.
  - rewrite (put_nth_get _ _ _ _ f H0) in E. destruct (Nat.eqb f t); [|eapply H; eauto]. injection E as <-. discriminate.
  - assert (E1 : nth_error (put_nth t (mkt st cbs k (Some f0) m0) F) f0 = Some (mk_fut Pending cbs' kd)) by (rewrite (put_nth_get _ _ _ _ f0 H0); destruct (Nat.eqb_spec f0 t); [contradiction|assumption]).
    rewrite (put_nth_get _ _ _ _ f E1) in E. destruct (Nat.eqb f f0); [injection E as <-; discriminate|]. rewrite (put_nth_get _ _ _ _ f H0) in E. destruct (Nat.eqb f t); [injection E as <-; discriminate|]. eapply H; eauto.
  - rewrite (put_nth_get _ _ _ _ f H0) in E. destruct (Nat.eqb f t); [|eapply H; eauto]. injection E as <-. discriminate.
  - rewrite (put_nth_get _ _ _ _ f H1) in E. destruct (Nat.eqb f t); [|eapply H; eauto]. injection E as <-. discriminate.
Qed.
Lemma reach_innerok s : steps (init test m) s -> InnerOk (coreof s).
Proof.
  intros R. assert (X : Wf s /\ InnerOk (coreof s)); [|apply X]. apply (steps_ind_inv shuffle dut delayers (fun s => Wf s /\ InnerOk (coreof s)) _ _) in R; auto.
  - intros fire s0 [A B]. split; [now apply step_wf|now apply step_innerok].
  - split; [apply init_wf|]. intros [|[|f]] fu E IN; simpl in E; try discriminate. injection E as <-. discriminate.
Qed.
(** The future a task in get() or wait() is suspended on. *)
Lemma susp_get s t q f kk w : steps (init test m) s -> Susp t (fun r => BGet q f r kk) w s -> w = Some f /\ exists fu, nth_error (futs s) f = Some fu /\ f_kind fu = KQueue q.
Proof.
  intros R [Hn [cbs [mu E]]]. destruct (reach_linked _ _ _ _ _ _ R) as [_ [L _]]. pose proof (L t cbs _ w mu E Hn) as X. destruct w as [g|]; [|specialize (X (Ok VNone)); discriminate].
  destruct X as [kd [fu [E1 [K1 X]]]]. destruct kd; cbn [fits] in X; try (specialize (X (Ok VNone)); discriminate).
  - destruct X as [k' [X _]]. apply (f_equal (fun F => F (Ok VNone))) in X. discriminate.
  - destruct X as [k' [X _]]. apply (f_equal (fun F => F (Ok VNone))) in X. injection X as -> -> _. split; auto. exists fu. split; auto. destruct (f_kind fu); cbn in K1; try contradiction. now subst.
Qed.
Lemma susp_ev s t e f kk w : steps (init test m) s -> Susp t (fun r => BEv e f r kk) w s -> w = Some f /\ exists fu, nth_error (futs s) f = Some fu /\ f_kind fu = KEv e.
Proof.
  intros R [Hn [cbs [mu E]]]. destruct (reach_linked _ _ _ _ _ _ R) as [_ [L _]]. pose proof (L t cbs _ w mu E Hn) as X. destruct w as [g|]; [|specialize (X (Ok VNone)); discriminate].
  destruct X as [kd [fu [E1 [K1 X]]]]. destruct kd; cbn [fits] in X; try (specialize (X (Ok VNone)); discriminate).
  - destruct X as [k' [X _]]. apply (f_equal (fun F => F (Ok VNone))) in X. injection X as -> -> _. split; auto. exists fu. split; auto. destruct (f_kind fu); cbn in K1; try contradiction. now subst.
  - destruct X as [k' [X _]]. apply (f_equal (fun F => F (Ok VNone))) in X. discriminate.
Qed.
(** How it is resumed. *)
Lemma resumed_inner s t f fu r fire : steps (init test m) s -> nth_error (futs s) f = Some fu -> inner (f_kind fu) = true -> resumed t (Some f) s r -> tdone (step fire s) = tdone s ->
  (exists v, r = Ok v /\ f_st fu = Finished (Ok v)) \/ (r = CE /\ (nocancel test -> tdone (step fire s) = Some true)).
Proof.
  intros R E IN X TD. destruct X as [[-> [tk [T M]]]|[st [S1 [S2 ->]]]].
  - right. split; auto. intros NT. rewrite TD. exact (must_tdone shuffle dut delayers _ _ _ _ _ NT R T M).
  - assert (S1' := S1). unfold state_of, fget in S1. rewrite E in S1. injection S1 as <-. pose proof (reach_innerok s R f fu E IN) as Y. destruct (f_st fu) as [|[v|e]|] eqn:St; [contradiction| |now elim (Y e)|].
    + left. exists v. auto.
    + right. split; auto. intros NT. rewrite TD. exact (canc_tdone shuffle dut delayers _ _ _ _ NT R S1').
Qed.

(** * Queue.get *)
Section Get.
Context (q t : id) (K : res lval -> prog) (W : prog -> body) (HW : wrap W).
Definition gk (r : res lval) : body := W (bindr (thenv (fun v => Let (OFlag true) (fun _ => Ret v)) r) K).
(** [l]: what has been taken. *)
Definition getting (s : state) (l : list lval) : Prop :=
  (l = [] /\ (cur s = Some (t, W (bindr (queue_get q) K)) \/ (exists f w, Susp t (fun r => BGet q f r gk) w s) \/ (exists f v, cur s = Some (t, BGet q f (Ok v) gk)) \/
              (exists f, cur s = Some (t, BGet q f CE gk) /\ (nocancel test -> tdone s = Some true)))) \/
  (exists v, l = [v] /\ cur s = Some (t, gk (Ok v))).
Definition got (s : state) (r : res lval) (l : list lval) : Prop :=
  cur s = Some (t, W (K r)) /\ match r with Ok v => l = [v] | Exn e => l = [] /\ e = CancelledError /\ (nocancel test -> tdone s = Some true) end.
Lemma gk_exn e : gk (Exn e) = W (K (Exn e)).
Proof. unfold gk. cbn [thenv]. now rewrite bindr_unfold. Qed.
Lemma looks_start s : cur s = Some (t, W (bindr (queue_get q) K)) -> looks s t q gk.
Proof.
  intros Hc. rewrite bindr_unfold in Hc. cbn in Hc. unfold looks. destruct HW as [E|E]; rewrite E in Hc; [left|right; right; left]; eexists; (split; [exact Hc|]); unfold gk; rewrite E; reflexivity.
Qed.
Lemma taken_looks s : looks s t q gk -> taken_by s t q = firstn 1 (items s q).
Proof.
  intros L. unfold taken_by, got_by, looksb, current_op. destruct L as [[k [-> _]]|[[k [ev [todo [sb [-> _]]]]]|[[k [-> _]]|[f [v ->]]]]]; now rewrite !Nat.eqb_refl.
Qed.
Lemma looks_step fire s : steps (init test m) s -> q < List.length (qs s) -> looks s t q gk -> getting (step fire s) (taken_by s t q).
Proof.
  intros R LQ L. rewrite (taken_looks s L). pose proof (C62_get_delivers shuffle dut delayers fire s t q gk L) as X. destruct (items s q) as [|v rest] eqn:IT; cbn [firstn].
  - left. split; auto. right. left. assert (HS : step fire s = q_get s t q gk) by (unfold Loop_Model.step; destruct L as [[k [-> ->]]|[[k [ev [todo [sb [-> ->]]]]]|[[k [-> ->]]|[f [v ->]]]]]; reflexivity).
    assert (Hc : exists b, cur s = Some (t, b)) by (destruct L as [[k [-> _]]|[[k [ev [todo [sb [-> _]]]]]|[[k [-> _]]|[f [v ->]]]]]; eauto). destruct Hc as [b Hc].
    destruct (cur_task s t b (reach_wf shuffle dut delayers test m s R) Hc) as [cbs [k0 [w [mu Et]]]]. rewrite HS. destruct (q_get_out s t q gk _ _ _ _ Et) as [[r [_ Y]]|[f [w' Y]]]; [|eauto].
    exfalso. rewrite HS in X. destruct X as [[X|[X _]] _]; [congruence|]. apply nth_error_None in X. lia.
  - right. exists v. split; auto. apply X.
Qed.
Lemma getting_step fire s l : steps (init test m) s -> q < List.length (qs s) -> getting s l -> getting (step fire s) (l ++ taken_by s t q) \/ exists r, got (step fire s) r (l ++ taken_by s t q).
Proof.
  intros R LQ H. destruct (reach_linked _ _ _ _ _ _ R) as [WF _]. destruct H as [[-> [Hc|[[f [w SU]]|[[f [v Hc]]|[f [Hc TD]]]]]]|[v [-> Hc]]]; cbn [app].
  - left. apply looks_step; auto. now apply looks_start.
  - assert (T0 : taken_by s t q = []). { unfold taken_by. destruct (cur s) as [[u b]|] eqn:Hc; auto. destruct (Nat.eqb_spec u t) as [->|]; auto. now elim (proj1 SU b). }
    rewrite T0. left. left. split; auto. destruct (susp_get s t q f gk w R SU) as [-> [fu [E KF]]]. destruct (susp_step shuffle dut delayers fire t _ _ s WF SU) as [Y|[r [Y1 [Y2 [_ Y3]]]]]; [right; left; eauto|].
    destruct (resumed_inner s t f fu r fire R E ltac:(now rewrite KF) Y2 Y3) as [[v [-> _]]|[-> Z]]; right; right; eauto.
  - left. apply looks_step; auto. right; right; right. eauto.
  - assert (T0 : taken_by s t q = []) by (unfold taken_by, got_by, looksb, current_op; rewrite Hc, Nat.eqb_refl; reflexivity). rewrite T0. right. exists CE.
    assert (HS : step fire s = exec_body shuffle dut delayers s t (BGet q f CE gk)) by (unfold Loop_Model.step; now rewrite Hc). split; [rewrite HS; transitivity (Some (t, gk CE)); [reflexivity|now rewrite (gk_exn CancelledError : gk CE = W (K CE))]|]. split; auto. split; auto. intros NC.
    rewrite (fr_tdone _ _ (step_fr shuffle dut delayers fire s)). unfold seff. rewrite Hc. cbn. auto.
  - right. exists (Ok v). assert (Hc' : cur s = Some (t, W (Op (OFlag true) (fun r => bindr (thenv (fun _ => Ret v) r) K)))) by (rewrite Hc; unfold gk; cbn [thenv]; unfold Let; rewrite bindr_unfold; reflexivity).
    assert (T0 : taken_by s t q = []) by (unfold taken_by, got_by, looksb, current_op; rewrite Hc', Nat.eqb_refl; destruct HW as [->| ->]; reflexivity). rewrite T0. cbn [app]. split; auto.
    rewrite (step_op shuffle dut delayers W fire s t _ _ HW Hc'). cbn [exec_op thenv]. rewrite bindr_unfold. reflexivity.
Qed.
Lemma taken_steps s s' l : taken t q s s' l -> steps s s'.
Proof. induction 1; [apply steps_refl|]. now apply steps_step. Qed.
Lemma getting_track s s' l : steps (init test m) s -> q < List.length (qs s) -> cur s = Some (t, W (bindr (queue_get q) K)) -> taken t q s s' l ->
  getting s' l \/ exists y r l1 l2, taken t q s y l1 /\ taken t q y s' l2 /\ l = l1 ++ l2 /\ got y r l1.
Proof.
  intros R LQ Hc T. induction T as [|s1 l fire T IH]; [left; left; auto|]. pose proof (taken_steps _ _ _ T) as R1. assert (R2 : steps (init test m) s1) by (eapply steps_trans; eauto).
  destruct IH as [X|[y [r [l1 [l2 [A [B [-> C]]]]]]]].
  - destruct (getting_step fire s1 l R2) as [Y|[r Y]]; auto; [pose proof (qs_le shuffle dut delayers s s1 R1); lia|]. right. exists (step fire s1), r, (l ++ taken_by s1 t q), []. split; [now constructor|]. split; [constructor|]. split; [now rewrite app_nil_r|exact Y].
  - right. exists y, r, l1, (l2 ++ taken_by s1 t q). split; auto. split; [now constructor|]. split; [now rewrite app_assoc|exact C].
Qed.
Lemma getting_inside s l : getting s l -> Inside any t K s.
Proof.
  assert (G : forall r, leads any K (gk r)) by (intros r; exists (bindr (thenv (fun v => Let (OFlag true) (fun _ => Ret v)) r) K); split; [apply upto_bindr|]; unfold gk; destruct HW as [->| ->]; auto).
  intros [[_ [Hc|[[f [w SU]]|[[f [v Hc]]|[f [Hc _]]]]]]|[v [_ Hc]]].
  - left. eexists. split; [exact Hc|]. apply leads_before. exists (bindr (queue_get q) K). split; [apply upto_bindr|]. destruct HW as [->| ->]; auto.
  - right. exists (fun r => BGet q f r gk), w. split; auto.
  - left. eexists. split; [exact Hc|]. exact G.
  - left. eexists. split; [exact Hc|]. exact G.
  - left. eexists. split; [exact Hc|]. apply leads_before. apply G.
Qed.
End Get.

(** * Event.wait *)
Lemma sets_sets s e : sets s = Some e -> sets_event s e.
Proof.
  unfold sets, sets_event, current_op, at_step. destruct (cur s) as [[c b]|]; [|discriminate].
  destruct b as [[v|x|o kk]|[v|x|o kk] evh todo sb|[]|x g r kk|q g [v|x] kk|tst|[v|x|o kk]]; try discriminate; intros H;
    try (destruct o; try discriminate; cbn [opsets] in H; destruct (nth_error (evs s) e0) as [ev0|]; [|discriminate]; destruct (e_priv ev0); [discriminate|]; injection H as ->; left; reflexivity).
  - subst evh. right. right. eauto 6.
  - injection H as <-. right. left. eauto.
Qed.
Lemma since_step s s' e fire : set_since shuffle dut delayers s s' e -> set_since shuffle dut delayers s (step fire s') e.
Proof. intros [H|[x [fi [A [B C]]]]]; [now left|]. right. exists x, fi. split; auto. split; auto. now apply steps_step. Qed.
Section Wait.
Context (e t : id) (K : res lval -> prog) (W : prog -> body) (HW : wrap W) (s0 : state).
Notation since x := (set_since shuffle dut delayers s0 x e).
Definition ek (r : res lval) : body := W (bindr (thenv (fun _ => Let (OFlag true) (fun _ => Ret VNone)) r) K).
Definition awaits (s : state) : Prop :=
  s = s0 \/
  (exists f w fu, Susp t (fun r => BEv e f r ek) w s /\ nth_error (futs s) f = Some fu /\ forall r, f_st fu = Finished r -> since s) \/
  (exists f v, cur s = Some (t, BEv e f (Ok v) ek) /\ since s) \/
  (exists f, cur s = Some (t, BEv e f CE ek) /\ (nocancel test -> tdone s = Some true)) \/
  (exists v, cur s = Some (t, ek (Ok v)) /\ since s).
Definition waited (s : state) (r : res lval) : Prop :=
  cur s = Some (t, W (K r)) /\ match r with Ok v => v = VNone /\ since s | Exn x => x = CancelledError /\ (nocancel test -> tdone s = Some true) end.
Context (R0 : steps (init test m) s0) (H0 : cur s0 = Some (t, W (bindr (event_wait e) K))) (LE : e < List.length (evs s0)).
Lemma ek_exn x : ek (Exn x) = W (K (Exn x)).
Proof. unfold ek. cbn [thenv]. now rewrite bindr_unfold. Qed.
Lemma awaits_step fire s : steps s0 s -> awaits s -> awaits (step fire s) \/ exists r, waited (step fire s) r.
Proof.
  intros R1 H. assert (R : steps (init test m) s) by (eapply steps_trans; eauto). destruct (reach_linked _ _ _ _ _ _ R) as [WF _].
  destruct H as [->|[[f [w [fu [SU [E X]]]]]|[[f [v [Hc X]]]|[[f [Hc TD]]|[v [Hc X]]]]]].
  - left. assert (Hc := H0). rewrite bindr_unfold in Hc. cbn in Hc. assert (HS : step fire s0 = exec_op s0 t (OEvWait e) ek) by (rewrite (step_op shuffle dut delayers W fire s0 t _ _ HW Hc); reflexivity).
    destruct (cur_task s0 t _ WF Hc) as [cbs [k0 [w [mu Et]]]]. destruct (nth_error (evs s0) e) as [ev|] eqn:Ee; [|apply nth_error_None in Ee; lia]. destruct (e_val ev) eqn:V.
    + right. right. right. right. exists (VBool true). split; [rewrite HS; cbn [exec_op]; rewrite Ee, V; reflexivity|]. left. exists ev. auto.
    + right. left. destruct (evwait_new s0 t e ek _ _ _ _ _ Et Ee V) as [cbs' N]. rewrite <- HS in N.
      assert (SU : exists w', Susp t (fun r => BEv e (List.length (futs s0)) r ek) w' (step fire s0)).
      { rewrite HS. cbn [exec_op]. rewrite Ee, V. apply (suspend_out _ t _ _ cbs k0 w mu). exact (falloc_task _ _ _ _ Et). }
      destruct SU as [w' SU]. destruct N as [N|N]; eexists _, w', _; (split; [exact SU|]); (split; [exact N|]); intros r; discriminate.
  - left. destruct (susp_ev s t e f ek w R SU) as [-> [fu1 [E1 KF]]]. rewrite E in E1. injection E1 as <-. assert (IN : inner (f_kind fu) = true) by now rewrite KF.
    destruct (susp_step shuffle dut delayers fire t _ _ s WF SU) as [Y|[r [Y1 [Y2 [_ Y3]]]]].
    + right. left. pose proof WF as [I Kn]. assert (M := True_ms_kin shuffle dut delayers fire s I Kn). destruct (mstar_evolve _ _ f _ _ M fu E IN) as [fu' [E' [_ EV]]]. cbn [snd coreof] in E'. exists f, (Some f), fu'. split; auto. split; auto. intros r St.
      destruct EV as [EV|[_ [_ EV]]]; [apply since_step; apply (X r); congruence|]. rewrite KF, St in EV. destruct EV as [[_ Z]|[[_ Z]|[Z _]]]; try discriminate. right. exists s, fire. split; auto. split; [now apply sets_sets|apply steps_refl].
    + destruct (resumed_inner s t f fu r fire R E IN Y2 Y3) as [[v [-> Z]]|[-> Z]]; right; right; [left|right; left]; eauto. exists f, v. split; auto. apply since_step. eauto.
  - left. right. right. right. right. exists (VBool true). split; [|now apply since_step]. unfold Loop_Model.step. rewrite Hc. cbn [exec_body]. destruct (nth_error (evs s) e); reflexivity.
  - right. exists CE. split.
    + transitivity (Some (t, ek CE)); [|now rewrite (ek_exn CancelledError : ek CE = W (K CE))]. unfold Loop_Model.step. rewrite Hc. cbn [exec_body]. destruct (nth_error (evs s) e); reflexivity.
    + split; auto. intros NC. rewrite (fr_tdone _ _ (step_fr shuffle dut delayers fire s)). unfold seff. rewrite Hc. cbn. auto.
  - right. exists (Ok VNone). assert (Hc' : cur s = Some (t, W (Op (OFlag true) (fun r => bindr (thenv (fun _ => Ret VNone) r) K)))) by (rewrite Hc; unfold ek; cbn [thenv]; unfold Let; rewrite bindr_unfold; reflexivity).
    split; [|split; [auto|now apply since_step]]. rewrite (step_op shuffle dut delayers W fire s t _ _ HW Hc'). cbn [exec_op thenv]. rewrite bindr_unfold. reflexivity.
Qed.
Lemma awaits_track s' : steps s0 s' -> awaits s' \/ exists y r, steps s0 y /\ steps y s' /\ waited y r.
Proof.
  intros R. remember s0 as z eqn:Z in R. induction R as [z|z s1 fire R IH]; [left; left; congruence|]. subst z. destruct (IH eq_refl) as [X|[y [r [A [B C]]]]].
  - destruct (awaits_step fire s1 R X) as [Y|[r Y]]; auto. right. exists (step fire s1), r. split; [now apply steps_step|]. split; [apply steps_refl|auto].
  - right. exists y, r. split; auto. split; auto. now apply steps_step.
Qed.
Lemma awaits_inside s : awaits s -> Inside any t K s.
Proof.
  assert (G : forall r, leads any K (ek r)) by (intros r; exists (bindr (thenv (fun _ => Let (OFlag true) (fun _ => Ret VNone)) r) K); split; [apply upto_bindr|]; unfold ek; destruct HW as [->| ->]; auto).
  intros [->|[[f [w [fu [SU _]]]]|[[f [v [Hc _]]]|[[f [Hc _]]|[v [Hc _]]]]]].
  - left. eexists. split; [exact H0|]. apply leads_before. exists (bindr (event_wait e) K). split; [apply upto_bindr|]. destruct HW as [->| ->]; auto.
  - right. exists (fun r => BEv e f r ek), w. split; auto.
  - left. eexists. split; [exact Hc|]. exact G.
  - left. eexists. split; [exact Hc|]. exact G.
  - left. eexists. split; [exact Hc|]. apply leads_before. apply G.
Qed.
End Wait.

(** * sleep(0) *)
Section Sleep.
Context (t : id) (K : res lval -> prog) (W : prog -> body) (HW : wrap W).
Definition sk (r : res lval) : body := W (bindr (thenv (fun _ => Let (OFlag true) (fun _ => Ret VNone)) r) K).
Context (s0 : state) (R0 : steps (init test m) s0) (H0 : cur s0 = Some (t, W (bindr sleep0 K))).
Lemma sk_exn x : sk (Exn x) = W (K (Exn x)).
Proof. unfold sk. cbn [thenv]. now rewrite bindr_unfold. Qed.
(** [n]: how many of the handles that were ready at the call have not run yet. *)
Definition sleeping (s : state) : Prop :=
  s = s0 \/
  (Susp t sk None s /\ nothrow t (coreof s) /\ exists l1 l2 L, ready s0 = l1 ++ l2 /\ ready s = l2 ++ HStep t :: L /\ forall h u, In h l1 -> owner h = Some u -> ran_since shuffle dut delayers s0 s u) \/
  (cur s = Some (t, sk (Ok VNone)) /\ forall h u, In h (ready s0) -> owner h = Some u -> ran_since shuffle dut delayers s0 s u).
Definition slept (s : state) (r : res lval) : Prop :=
  cur s = Some (t, W (K r)) /\ match r with Ok v => v = VNone /\ forall h u, In h (ready s0) -> owner h = Some u -> ran_since shuffle dut delayers s0 s u | Exn x => x = CancelledError /\ (nocancel test -> tdone s = Some true) end.
Lemma ran_step s s' u fire : ran_since shuffle dut delayers s s' u -> ran_since shuffle dut delayers s (step fire s') u.
Proof. intros [x [A [B C]]]. exists x. split; auto. split; auto. now apply steps_step. Qed.
Lemma run_head fire s n h r u : Wf s -> cur s = None -> batch s = Datatypes.S n -> ready s = h :: r -> owner h = Some u -> active (step fire s) u.
Proof.
  intros [I _] Hc Hb Hr Ho. assert (Hin : In h (ready s)) by (rewrite Hr; now left). assert (T : exists tk, tget s u = Some tk).
  { assert (X : exists w, waitof (futs s) u = Some w). { destruct h as [x|x e|x f|g| |f]; simpl in Ho; try discriminate; injection Ho as ->; [exists None; apply (i_step _ I u Hin)|exists None; apply (i_throw _ I u e Hin)|exists (Some f); apply (i_wake _ I u f Hin)]. }
    destruct X as [w X]. unfold waitof in X. unfold tget, fget. destruct (nth_error (futs s) u) as [[st cbs []]|]; try discriminate. eauto. }
  destruct T as [tk T]. unfold active, Loop_Model.step. rewrite Hc, Hb, Hr. cbv zeta. set (s1 := set_batch _ n).
  assert (T1 : tget s1 u = Some tk) by exact T. destruct h as [x|x e|x f|g| |f]; simpl in Ho; try discriminate; injection Ho as ->; cbn [run_handle]; unfold resume; try (rewrite T1; eexists; reflexivity).
  all: destruct (fget s1 f); rewrite ?T1; eexists; reflexivity.
Qed.
Lemma cur_nothrow s b : Wf s -> cur s = Some (t, b) -> nothrow t (coreof s).
Proof.
  intros [I _] Hc e Y. pose proof (i_cnt _ I t) as CN. cbn [coreof fst snd] in CN, Y. rewrite Hc in CN. cbn [cntc] in CN. rewrite Nat.eqb_refl in CN. pose proof (cnth_In t (HThrow t e) (ready s) Y eq_refl).
  unfold islive in CN. destruct (nth_error (futs s) t) as [[[] ? []]|]; lia.
Qed.
Lemma one_handle s l2 h L : Wf s -> ready s = (h :: l2) ++ HStep t :: L -> owner h <> Some t.
Proof.
  intros [I _] Hr Ho. pose proof (i_cnt _ I t) as CN. cbn [coreof fst snd] in CN. rewrite Hr in CN. cbn [app] in CN. rewrite cnth_cons, cnth_app, cnth_cons in CN.
  assert (O1 : owns t h = true) by (unfold owns; rewrite Ho; apply Nat.eqb_refl). assert (O2 : owns t (HStep t) = true) by (cbn; apply Nat.eqb_refl). rewrite O1, O2 in CN. destruct (islive (futs s) t); lia.
Qed.
Lemma sleeping_step fire s : steps s0 s -> sleeping s -> sleeping (step fire s) \/ exists r, slept (step fire s) r.
Proof.
  intros R1 H. assert (R : steps (init test m) s) by (eapply steps_trans; eauto). pose proof (reach_wf shuffle dut delayers test m s R) as WF. destruct H as [->|[[SU [NT [l1 [l2 [L [E0 [E1 X]]]]]]]|[Hc X]]].
  - left. right. left. assert (Hc := H0). rewrite bindr_unfold in Hc. cbn in Hc. assert (HS : step fire s0 = suspend0 s0 t sk) by (rewrite (step_op shuffle dut delayers W fire s0 t _ _ HW Hc); reflexivity).
    destruct (cur_task s0 t _ WF Hc) as [cbs [k0 [w [mu Et]]]]. assert (RD : ready (step fire s0) = ready s0 ++ [HStep t]) by (rewrite HS; unfold suspend0, tget; rewrite Et; cbn [mkt k_must ready set_cur push set_ready]; unfold tput; rewrite Et; reflexivity).
    split; [rewrite HS; eapply suspend0_susp; eauto|]. split.
    + intros e Y. cbn [coreof fst snd] in Y. rewrite RD in Y. apply in_app_or in Y as [Y|[Y|[]]]; [|discriminate]. exact (cur_nothrow s0 _ WF Hc e Y).
    + exists [], (ready s0), []. split; auto. split; auto. intros h u [].
  - destruct (susp_step0 shuffle dut delayers fire t sk s WF SU NT) as [[SU1 NT1]|[Hc [TD Y]]].
    + left. right. left. split; auto. split; auto.
      assert (SAME : forall L1, ready (step fire s) = ready s ++ L1 -> exists l1 l2 L, ready s0 = l1 ++ l2 /\ ready (step fire s) = l2 ++ HStep t :: L /\ forall h u, In h l1 -> owner h = Some u -> ran_since shuffle dut delayers s0 (step fire s) u).
      { intros L1 E. exists l1, l2, (L ++ L1). split; auto. split; [rewrite E, E1, <- app_assoc; reflexivity|]. intros h u A B. apply ran_step. eauto. }
      destruct (step_ready shuffle dut delayers fire s WF) as [[u [b [L1 [_ [E _]]]]]|[[_ [_ [_ E]]]|[[L1 [_ [_ [_ [E _]]]]]|[[n [_ [_ [E _]]]]|[n [h [r [L1 [Hc [Hb [Hr [E _]]]]]]]]]]]]; try (eapply SAME; eauto; fail).
      * apply (SAME []). rewrite E, app_nil_r. reflexivity.
      * exfalso. rewrite E in E1. destruct l2; discriminate.
      * rewrite Hr in E1. destruct l2 as [|h2 l2]; cbn [app] in E1; injection E1 as -> ->.
        -- exfalso. destruct (run_head fire s n (HStep t) L t WF Hc Hb Hr eq_refl) as [b A]. now elim (proj1 SU1 b).
        -- exists (l1 ++ [h2]), l2, (L ++ L1). split; [rewrite E0, <- app_assoc; reflexivity|]. split; [rewrite E, <- app_assoc; reflexivity|]. intros h u A B. apply in_app_or in A as [A|[<-|[]]]; [apply ran_step; eauto|].
           exists (step fire s). split; [now apply steps_step|]. split; [apply steps_refl|]. eapply run_head; eauto.
    + destruct SU as [SU0 [cbs [mu SU1]]]. assert (AL : forall h u, In h (ready s0) -> owner h = Some u -> ran_since shuffle dut delayers s0 (step fire s) u).
      { destruct (step_task shuffle dut delayers fire s t cbs sk None mu WF SU0 SU1) as [[Z _]|[_ [h [r [n [Hr [Hb [Ho _]]]]]]]].
        - exfalso. destruct Y as [Y|[Y _]]; now elim (Z _ Y).
        - destruct l2 as [|h2 l2].
          + rewrite app_nil_r in E0. subst l1. intros h' u A B. apply ran_step. eauto.
          + exfalso. apply (one_handle s l2 h2 L WF E1). rewrite Hr in E1. cbn in E1. injection E1 as -> _. exact Ho. }
      destruct Y as [Y|[Y [tk [T M]]]]; [left; right; right; auto|]. right. exists CE. split; [transitivity (Some (t, sk CE)); [exact Y|now rewrite (sk_exn CancelledError : sk CE = W (K CE))]|]. split; auto. intros NC. rewrite TD. exact (must_tdone shuffle dut delayers _ _ _ _ _ NC R T M).
  - right. exists (Ok VNone). assert (Hc' : cur s = Some (t, W (Op (OFlag true) (fun r => bindr (thenv (fun _ => Ret VNone) r) K)))) by (rewrite Hc; unfold sk; cbn [thenv]; unfold Let; rewrite bindr_unfold; reflexivity).
    split; [|split; auto]; [|intros h u A B; apply ran_step; eauto]. rewrite (step_op shuffle dut delayers W fire s t _ _ HW Hc'). cbn [exec_op thenv]. rewrite bindr_unfold. reflexivity.
Qed.
Lemma sleeping_track s' : steps s0 s' -> sleeping s' \/ exists y r, steps s0 y /\ steps y s' /\ slept y r.
Proof.
  intros R. remember s0 as z eqn:Z in R. induction R as [z|z s1 fire R IH]; [left; left; congruence|]. subst z. destruct (IH eq_refl) as [X|[y [r [A [B C]]]]].
  - destruct (sleeping_step fire s1 R X) as [Y|[r Y]]; auto. right. exists (step fire s1), r. split; [now apply steps_step|]. split; [apply steps_refl|auto].
  - right. exists y, r. split; auto. split; auto. now apply steps_step.
Qed.
Lemma sleeping_inside s : sleeping s -> Inside any t K s.
Proof.
  assert (G : forall r, leads any K (sk r)) by (intros r; exists (bindr (thenv (fun _ => Let (OFlag true) (fun _ => Ret VNone)) r) K); split; [apply upto_bindr|]; unfold sk; destruct HW as [->| ->]; auto).
  intros [->|[[SU _]|[Hc _]]].
  - left. eexists. split; [exact H0|]. apply leads_before. exists (bindr sleep0 K). split; [apply upto_bindr|]. destruct HW as [->| ->]; auto.
  - right. exists sk, None. split; auto. intros r. apply leads_before. apply G.
  - left. eexists. split; [exact Hc|]. apply leads_before. apply G.
Qed.
End Sleep.
End Prim.
