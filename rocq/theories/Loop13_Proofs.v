(** Following one task: suspension, resumption, awaiting a future. *)
From Coq Require Import List Bool Arith ZArith Lia.
From Verif Require Import Py Prio_Model Loop_Model Loop_Spec Loop_Proofs Loop2_Proofs Loop3_Proofs Loop4_Proofs Loop5_Proofs Loop6_Proofs Loop7_Proofs Loop8_Proofs Loop9_Proofs Loop10_Proofs Loop2_Spec.
Import ListNotations.
Open Scope nat_scope.

Section Local.
Context {mem : Type}.
Notation prog := (@prog mem). Notation state := (@state mem). Notation body := (@body mem). Notation task := (@task mem).
Notation fut := (@fut mem). Notation kind := (@kind mem).
Implicit Types (s : state) (F : list fut).
Context (shuffle : list id -> list id) (dut delayers : mem -> mem).
Notation step := (step shuffle dut delayers). Notation steps := (steps shuffle dut delayers).

Lemma steps_wf s s' : Wf s -> steps s s' -> Wf s'.
Proof. intros W R. induction R; auto. apply step_wf; auto. Qed.

(** * States of futures that are done, and ids, persist *)
Lemma step_fext fire s : Wf s -> fext (futs s) (futs (step fire s)).
Proof. intros [I K]. pose proof (mstar_ext _ _ _ _ (True_ms_kin shuffle dut delayers fire s I K)) as X. exact X. Qed.
Lemma steps_fext s s' : Wf s -> steps s s' -> fext (futs s) (futs s').
Proof. intros W R. induction R as [s|s s1 fire R IH]; [apply fext_refl|]. eapply fext_trans; [apply IH; auto|]. apply step_fext. eapply steps_wf; eauto. Qed.
Lemma state_of_done s s' f st : Wf s -> steps s s' -> state_of s f = Some st -> st <> Pending -> state_of s' f = Some st.
Proof.
  intros W R. unfold state_of, fget. destruct (nth_error (futs s) f) as [fu|] eqn:E; [|discriminate]. simpl. intros X Hn. injection X as <-.
  destruct (steps_fext s s' W R f fu E) as [fu' [E' [_ P]]]. rewrite E'. simpl. f_equal. apply P. unfold pending. now destruct (f_st fu).
Qed.

(** * A suspended task *)
Definition Susp (t : id) (k : res lval -> body) (w : option id) s : Prop := (forall b, cur s <> Some (t, b)) /\ exists cbs m, nth_error (futs s) t = Some (mkt Pending cbs k w m).
(** How it is resumed. *)
Definition resumed (t : id) (w : option id) s (r : res lval) : Prop :=
  (r = CE /\ exists tk, tget s t = Some tk /\ k_must tk = true) \/
  match w with
  | Some f => exists st, state_of s f = Some st /\ st <> Pending /\ r = outcome st
  | None => r = Ok VNone \/ exists e, In (HThrow t e) (ready s) /\ r = Exn e
  end.
Lemma susp_step fire t k w s : Wf s -> Susp t k w s -> Susp t k w (step fire s) \/ (exists r, cur (step fire s) = Some (t, k r) /\ resumed t w s r /\ cur s = None /\ tdone (step fire s) = tdone s).
Proof.
  intros W [Hc [cbs [m E]]]. pose proof W as [I K]. destruct (step_task shuffle dut delayers fire s t cbs k w m W Hc E) as [X|[Hn [h [r [n [Hr [Hb [Ho [Hc' HF]]]]]]]]]; [now left|right].
  exists (if m then CE else hres (futs s) h). split; [exact Hc'|]. split; [|split; [exact Hn|rewrite (fr_tdone _ _ (step_fr shuffle dut delayers fire s)); unfold seff; now rewrite Hn]].
  unfold resumed. destruct m; [left; split; auto; exists (mk_task k w true); split; auto; unfold tget, fget; now rewrite E|right].
  assert (Hin : In h (ready s)) by (rewrite Hr; now left). pose proof (waitof_task _ _ _ _ _ _ _ E) as WT. destruct h as [x|x e|x f|g| |f]; simpl in Ho; try discriminate; injection Ho as ->.
  - pose proof (i_step _ I t Hin) as X. cbn [snd coreof] in X. assert (w = None) by congruence. subst w. left. reflexivity.
  - pose proof (i_throw _ I t e Hin) as X. cbn [snd coreof] in X. assert (w = None) by congruence. subst w. right. exists e. auto.
  - destruct (i_wake _ I t f Hin) as [X [fu [X1 X2]]]. cbn [snd coreof] in X, X1. assert (w = Some f) by congruence. subst w. exists (f_st fu). unfold state_of, fget. rewrite X1. simpl. rewrite X1.
    split; auto. split; auto. unfold pending in X2. destruct (f_st fu); congruence.
Qed.
Lemma susp_track t k w s s' : Wf s -> Susp t k w s -> steps s s' -> Susp t k w s' \/
  exists s1 fire r, steps s s1 /\ Susp t k w s1 /\ steps (step fire s1) s' /\ cur (step fire s1) = Some (t, k r) /\ resumed t w s1 r /\ tdone (step fire s1) = tdone s1.
Proof.
  intros W SU R. induction R as [s|s s1 fire R IH]; [now left|]. destruct (IH W SU) as [X|[s2 [fi [r [R1 [S1 [R2 [X1 X2]]]]]]]].
  - destruct (susp_step fire t k w s1 (steps_wf _ _ W R) X) as [Y|[r [Y1 [Y2 [_ Y3]]]]]; [now left|right]. exists s1, fire, r. split; auto. split; auto. split; [apply steps_refl|]. auto.
  - right. exists s2, fi, r. split; auto. split; auto. split; auto. now apply steps_step.
Qed.
(** Without cancellation a task is not resumed with CancelledError of its own before the end of the test. *)
Lemma must_tdone test m s t tk : nocancel test -> steps (init test m) s -> tget s t = Some tk -> k_must tk = true -> tdone s = Some true.
Proof.
  intros NT R T M. destruct (reach_nc _ _ _ _ _ _ NT R) as [_ [_ [_ [_ [X|X]]]]]; auto. exfalso. unfold tget, fget in T. destruct (nth_error (futs s) t) as [[st cbs [| | | | |tk']]|] eqn:E; try discriminate.
  injection T as ->. destruct (n_ok _ X t _ E) as [_ Y]. simpl in Y. congruence.
Qed.
Lemma canc_tdone test m s f : nocancel test -> steps (init test m) s -> state_of s f = Some Canc -> tdone s = Some true.
Proof.
  intros NT R T. destruct (reach_nc _ _ _ _ _ _ NT R) as [_ [_ [_ [_ [X|X]]]]]; auto. exfalso. unfold state_of, fget in T. destruct (nth_error (futs s) f) as [fu|] eqn:E; [|discriminate]. injection T as T.
  destruct (n_ok _ X f _ E) as [[Y _] _]. contradiction.
Qed.

(** * Suspending *)
Lemma settle_task s f st t fu : fget s t = Some fu -> is_task (f_kind fu) = true -> fget (settle s f st) t = Some fu.
Proof.
  intros E T. unfold settle. destruct (fget s f) as [fx|] eqn:Ex; auto. destruct (is_task (f_kind fx)) eqn:Tx; auto. unfold conclude. rewrite Ex. destruct (pending fx); auto.
  unfold fget in *. cbn [futs push set_ready fput set_futs]. rewrite (put_nth_get _ _ _ _ t Ex). destruct (Nat.eqb_spec t f) as [->|]; auto. congruence.
Qed.
Lemma tput_at s t k x fu : fget s t = Some fu -> fget (tput s t k) x = if Nat.eqb x t then Some (mk_fut (f_st fu) (f_cbs fu) (KTask k)) else fget s x.
Proof. intros E. unfold tput. rewrite E. unfold fget in *. cbn [futs fput set_futs]. apply (put_nth_get _ _ _ _ x E). Qed.
Lemma cancel_task n : forall s f t st cbs k w m, fget s t = Some (mkt st cbs k w m) -> exists m', fget (fst (cancel n s f)) t = Some (mkt st cbs k w m').
Proof.
  assert (MU : forall s f fu tk t st cbs k w m, fget s f = Some fu -> f_kind fu = KTask tk -> fget s t = Some (mkt st cbs k w m) -> exists m', fget (tput s f (mk_task (k_cont tk) (k_wait tk) true)) t = Some (mkt st cbs k w m')).
  { intros s f fu tk t st cbs k w m E K Et. rewrite (tput_at _ _ _ _ _ E). destruct (Nat.eqb_spec t f) as [->|]; [|eauto]. rewrite E in Et. injection Et as ->. simpl in *. injection K as <-. simpl. unfold mkt. eauto. }
  induction n as [|n IH]; intros s f t st cbs k w m Et; simpl; destruct (fget s f) as [fu|] eqn:E; eauto; destruct (pending fu); eauto; destruct (f_kind fu) as [| | | | |tk] eqn:K; simpl; try (rewrite (settle_task _ _ _ _ _ Et); eauto; fail).
  - pose proof (MU _ _ _ _ _ _ _ _ _ _ E K Et) as X0. destruct (k_wait tk); simpl; exact X0.
  - pose proof (MU _ _ _ _ _ _ _ _ _ _ E K Et) as X0. destruct (k_wait tk) as [g|]; simpl; [|exact X0]. pose proof (IH s g t st cbs k w m Et) as X. destruct (cancel n s g) as [s1 []]; simpl in *; auto.
Qed.
Lemma suspend_susp s t f k cbs k0 w m : fget s t = Some (mkt Pending cbs k0 w m) -> t <> f -> Susp t k (Some f) (suspend s t f k).
Proof.
  intros E Hn. split; [intros b X; rewrite cur_suspend in X; discriminate|]. unfold suspend, tget. rewrite E. cbn [mkt]. destruct (Nat.eqb_spec t f); [contradiction|]. cbn [k_must].
  set (s1 := set_cur (on_done _ f (CbWake t)) None). assert (E1 : fget s1 t = Some (mkt Pending cbs k (Some f) m)).
  { unfold s1. change (fget (on_done (tput s t (mk_task k (Some f) m)) f (CbWake t)) t = Some (mkt Pending cbs k (Some f) m)). pose proof (tput_at s t (mk_task k (Some f) m) t _ E) as X. rewrite Nat.eqb_refl in X.
    unfold on_done. destruct (fget (tput s t (mk_task k (Some f) m)) f) as [fx|] eqn:Ef; auto. destruct (pending fx); auto. unfold fget in *. cbn [futs fput set_futs]. rewrite (put_nth_get _ _ _ _ t Ef). destruct (Nat.eqb_spec t f); [contradiction|exact X]. }
  destruct m; [|exists cbs, false; exact E1]. destruct (cancel_task (List.length (futs s1)) s1 f t _ _ _ _ _ E1) as [m' E2]. destruct (cancel (List.length (futs s1)) s1 f) as [s2 []]; cbn [fst] in E2; [|exists cbs, m'; exact E2].
  rewrite E2. cbn [k_cont k_wait mkt]. exists cbs, false. pose proof (tput_at s2 t (mk_task k (Some f) false) t _ E2) as X. rewrite Nat.eqb_refl in X. exact X.
Qed.
Lemma suspend0_susp s t k cbs k0 w m : fget s t = Some (mkt Pending cbs k0 w m) -> Susp t k None (suspend0 s t k).
Proof.
  intros E. split; [intros b X; rewrite cur_suspend0 in X; discriminate|]. unfold suspend0, tget. rewrite E. cbn [mkt k_must]. exists cbs, m.
  pose proof (tput_at s t (mk_task k None m) t _ E) as X. rewrite Nat.eqb_refl in X. exact X.
Qed.

(** * Awaiting a future *)
Definition wrap (W : prog -> body) : Prop := W = BProg \/ W = BTest.
Lemma step_op W fire s t o k : wrap W -> cur s = Some (t, W (Op o k)) -> step fire s = exec_op s t o (fun r => W (k r)).
Proof. intros [->| ->] H; unfold Loop_Model.step; now rewrite H. Qed.
Definition await_end (test : prog) t (W : prog -> body) k f s1 : Prop :=
  (exists st, cur s1 = Some (t, W (k (outcome st))) /\ state_of s1 f = Some st /\ st <> Pending) \/
  (cur s1 = Some (t, W (k CE)) /\ (nocancel test -> tdone s1 = Some true)).
Lemma cur_task s t b : Wf s -> cur s = Some (t, b) -> exists cbs k w m, fget s t = Some (mkt Pending cbs k w m).
Proof. intros [I _] Hc. destruct (cur_live _ I t b Hc) as [cbs [k [m X]]]. exists cbs, k, None, m. exact X. Qed.
Lemma resumed_end test m t W k f s1 fire r : steps (init test m) s1 -> resumed t (Some f) s1 r -> cur (step fire s1) = Some (t, W (k r)) -> tdone (step fire s1) = tdone s1 -> await_end test t W k f (step fire s1).
Proof.
  intros R0 X Hc Ht. destruct (reach_linked _ _ _ _ _ _ R0) as [WF _]. destruct X as [[-> [tk [T M]]]|[st [S1 [S2 ->]]]].
  - right. split; auto. intros NT. rewrite Ht. exact (must_tdone _ _ _ _ _ NT R0 T M).
  - left. exists st. split; auto. split; auto. apply (state_of_done s1); auto. apply steps_step. apply steps_refl.
Qed.
Lemma await_one test m W s s' t f k fu : wrap W -> steps (init test m) s -> cur s = Some (t, W (Op (OAwait f) k)) -> t <> f -> fget s f = Some fu -> nameable (f_kind fu) = true -> steps s s' ->
  s' = s \/ Susp t (fun r => W (k r)) (Some f) s' \/ exists s1, steps s s1 /\ steps s1 s' /\ await_end test t W k f s1.
Proof.
  intros HW R0 Hc Hn Ef Nm R. destruct (reach_linked _ _ _ _ _ _ R0) as [WF _]. destruct (steps_first _ _ _ _ _ R) as [->|[fire R1]]; auto. right.
  assert (HS := step_op W fire s t (OAwait f) k HW Hc). cbn [exec_op] in HS. rewrite Ef, Nm in HS. cbn [negb] in HS. assert (R2 : steps s (step fire s)) by (apply steps_step, steps_refl).
  destruct (pending fu) eqn:P.
  - destruct (cur_task s t _ WF Hc) as [cbs [k0 [w [mu Et]]]]. pose proof (suspend_susp s t f (fun r => W (k r)) _ _ _ _ Et Hn) as SU. rewrite <- HS in SU.
    destruct (susp_track t _ _ _ _ (step_wf shuffle dut delayers fire s WF) SU R1) as [X|[s1 [fi [r [A [B [C [D [E G]]]]]]]]]; [now left|right].
    exists (step fi s1). assert (RR : steps s s1) by (eapply steps_trans; eauto). split; [now apply steps_step|]. split; auto. eapply resumed_end; eauto. eapply steps_trans; eauto.
  - right. exists (step fire s). split; auto. split; auto. left. exists (f_st fu). rewrite HS at 1. split; [reflexivity|]. split; [|unfold pending in P; destruct (f_st fu); congruence].
    rewrite HS. unfold state_of, fget. cbn [futs go set_cur]. unfold fget in Ef. now rewrite Ef.
Qed.
End Local.
