(** C109: a monitor is called up to and including the cycle in which the test returns. *)
From Coq Require Import List Bool Arith ZArith Lia Permutation.
From Verif Require Import Py Prio_Model Loop_Model Loop_Spec Loop2_Spec Loop3_Spec LoopProg_Model Loop_Proofs Loop2_Proofs Loop3_Proofs Loop4_Proofs Loop5_Proofs Loop6_Proofs Loop7_Proofs Loop9_Proofs Loop10_Proofs Loop13_Proofs Loop17_Proofs Loop20_Proofs Loop21_Proofs Loop23_Proofs LoopRun_Model LoopRun_Proofs Test_Proofs MainEnv_Model MainEnv_Proofs Mon_Model Mon_Spec P_Loop P_Coro P_Mon P_Hook P_First.
Import ListNotations.
Open Scope nat_scope.

Section Thms.
Context {mem : Type} (shuffle : list id -> list id) (dut delayers : mem -> mem) (shuffled : forall l, Permutation l (shuffle l)).
Notation steps := (steps shuffle dut delayers). Notation step := (step shuffle dut delayers). Notation prog := (@prog mem). Notation state := (@state mem). Notation body := (@body mem).
Notation log := (log shuffle dut delayers).
Implicit Types (s : state).

(** * A cancelled future stays cancelled, and cancel_all_tasks cancels what a task waits for *)
Definition CF (f : id) s : Prop := exists fu, fget s f = Some fu /\ f_st fu = Canc.
Definition PC (f : id) s : Prop := exists fu, fget s f = Some fu /\ is_task (f_kind fu) = false /\ (f_st fu = Pending \/ f_st fu = Canc).
Lemma cf_tput f s x tk : CF f s -> CF f (tput s x tk).
Proof.
  intros [fu [E S]]. unfold CF, tput. destruct (fget s x) as [fx|] eqn:Ex; [|eauto]. unfold fget in *. cbn [fput set_futs futs]. rewrite (put_nth_get _ _ _ _ f Ex). destruct (Nat.eqb_spec f x) as [->|]; [|eauto].
  rewrite E in Ex. injection Ex as <-. eexists. split; [reflexivity|exact S].
Qed.
Lemma cf_on_done f s x c : CF f s -> CF f (on_done s x c).
Proof.
  intros [fu [E S]]. unfold CF, on_done. destruct (fget s x) as [fx|] eqn:Ex; [|eauto]. destruct (pending fx); [|eauto]. unfold fget in *. cbn [fput set_futs futs]. rewrite (put_nth_get _ _ _ _ f Ex). destruct (Nat.eqb_spec f x) as [->|]; [|eauto].
  rewrite E in Ex. injection Ex as <-. eexists. split; [reflexivity|exact S].
Qed.
Lemma cf_settle f s x st : CF f s -> CF f (settle s x st).
Proof.
  intros [fu [E S]]. unfold CF, settle. destruct (fget s x) as [fx|] eqn:Ex; [|eauto]. destruct (is_task (f_kind fx)); [eauto|]. unfold conclude. rewrite Ex. destruct (pending fx) eqn:P; [|eauto]. unfold fget in *.
  cbn [futs push set_ready fput set_futs]. rewrite (put_nth_get _ _ _ _ f Ex). destruct (Nat.eqb_spec f x) as [->|]; [|eauto]. rewrite E in Ex. injection Ex as <-. unfold pending in P. rewrite S in P. discriminate.
Qed.
Lemma cf_cancel f n : forall s x, CF f s -> CF f (fst (cancel n s x)).
Proof.
  induction n as [|n IH]; intros s x H; simpl; destruct (fget s x) as [fu|] eqn:E; auto; destruct (pending fu); auto; destruct (f_kind fu) as [| | | | |tk] eqn:K; simpl; try (now apply cf_settle).
  - destruct (k_wait tk); simpl; now apply cf_tput.
  - destruct (k_wait tk) as [g|]; simpl; [|now apply cf_tput]. pose proof (IH s g H) as X. destruct (cancel n s g) as [s1 []]; simpl in *; auto. now apply cf_tput.
Qed.
Lemma pc_tput f s x tk : tget s x <> None -> PC f s -> PC f (tput s x tk).
Proof.
  intros T [fu [E [K S]]]. unfold PC, tput. unfold tget in T. destruct (fget s x) as [fx|] eqn:Ex; [|eauto]. unfold fget in *. cbn [fput set_futs futs]. rewrite (put_nth_get _ _ _ _ f Ex). destruct (Nat.eqb_spec f x) as [->|]; [|eauto].
  exfalso. rewrite E in Ex. injection Ex as <-. destruct fu as [st cbs []]; try (now apply T).
Qed.
Lemma pc_settle f s x : PC f s -> PC f (settle s x Canc).
Proof.
  intros [fu [E [K S]]]. unfold PC, settle. destruct (fget s x) as [fx|] eqn:Ex; [|eauto]. destruct (is_task (f_kind fx)) eqn:T; [eauto|]. unfold conclude. rewrite Ex. destruct (pending fx) eqn:P; [|eauto]. unfold fget in *.
  cbn [futs push set_ready fput set_futs]. rewrite (put_nth_get _ _ _ _ f Ex). destruct (Nat.eqb_spec f x) as [->|]; [|eauto]. eexists. split; [reflexivity|]. rewrite E in Ex. injection Ex as <-. auto.
Qed.
Lemma pc_cancel f n : forall s x, PC f s -> PC f (fst (cancel n s x)).
Proof.
  assert (T : forall s x fu tk, fget s x = Some fu -> f_kind fu = KTask tk -> tget s x <> None) by (intros s x [st cbs k] tk E K; cbn in K; subst; unfold tget; rewrite E; discriminate).
  induction n as [|n IH]; intros s x H; simpl; destruct (fget s x) as [fu|] eqn:E; auto; destruct (pending fu); auto; destruct (f_kind fu) as [| | | | |tk] eqn:K; simpl; try (now apply pc_settle).
  - pose proof (T _ _ _ _ E K). destruct (k_wait tk); simpl; now apply pc_tput.
  - pose proof (T _ _ _ _ E K) as Y. destruct (k_wait tk) as [g|]; simpl; [|now apply pc_tput]. pose proof (IH s g H) as X. destruct (cancel n s g) as [s1 []]; simpl in *; auto. now apply pc_tput.
Qed.
Lemma cancel_hits s t f cbs k m : fget s t = Some (mkt Pending cbs k (Some f) m) -> PC f s -> CF f (cancel_top s t).
Proof.
  intros Et [fu [E [K S]]]. unfold cancel_top. assert (L : exists n, List.length (futs s) = Datatypes.S n).
  { destruct (futs s) as [|a l] eqn:X; [|cbn; eauto]. unfold fget in Et. rewrite X in Et. destruct t; discriminate. }
  destruct L as [n L]. rewrite L. cbn [cancel]. rewrite Et. unfold mkt. cbn [pending f_st f_kind k_wait].
  assert (Q : forall b, (exists s1, cancel n s f = (s1, b) /\ CF f s1) -> CF f (fst (let (s1, ok) := cancel n s f in if ok then (s1, true) else (tput s t (mk_task k (Some f) true), true)))).
  { intros b [s1 [X Y]]. rewrite X. destruct b; [exact Y|]. cbn [fst]. destruct S as [S|S]; [|apply cf_tput; exists fu; auto].
    exfalso. destruct n; cbn [cancel] in X; rewrite E in X; unfold pending in X; rewrite S in X; destruct (f_kind fu); discriminate. }
  destruct S as [S|S].
  - apply (Q true). assert (X : cancel n s f = (settle s f Canc, true)) by (destruct n; cbn [cancel]; rewrite E; unfold pending; rewrite S; destruct (f_kind fu); auto; discriminate).
    rewrite X. eexists. split; [reflexivity|]. unfold CF, settle. rewrite E, K. unfold conclude. rewrite E. unfold pending. rewrite S. unfold fget in *. cbn [futs push set_ready fput set_futs]. rewrite (put_nth_get _ _ _ _ f E), Nat.eqb_refl. eexists. split; reflexivity.
  - apply (Q false). assert (X : cancel n s f = (s, false)) by (destruct n; cbn [cancel]; rewrite E; unfold pending; rewrite S; auto). rewrite X. eexists. split; [reflexivity|]. exists fu. auto.
Qed.
Lemma cancels_hit t f l : forall s cbs k m, In t l -> fget s t = Some (mkt Pending cbs k (Some f) m) -> PC f s -> CF f (fold_left cancel_top l s).
Proof.
  assert (K : forall l s, CF f s -> CF f (fold_left cancel_top l s)) by (intros l0; induction l0 as [|x l0 IH]; intros s H; cbn [fold_left]; auto; apply IH; now apply cf_cancel).
  induction l as [|x l IH]; intros s cbs k m H Et P; [destruct H|]. cbn [fold_left]. destruct (Nat.eq_dec x t) as [->|N].
  - apply K. eapply cancel_hits; eauto.
  - destruct H as [H|H]; [congruence|]. destruct (cancel_task (List.length (futs s)) s x t _ _ _ _ _ Et) as [m' Et']. apply (IH (cancel_top s x) cbs k m'); auto. now apply pc_cancel.
Qed.
Lemma cf_suspend f s x g k : CF f s -> CF f (suspend s x g k).
Proof.
  intros H. unfold suspend. destruct (tget s x) as [tk|]; auto. destruct (Nat.eqb x g); [change (CF f (tput s x (mk_task k None (k_must tk)))); now apply cf_tput|].
  set (s1 := set_cur _ None). assert (X : CF f s1) by (unfold s1; change (CF f (on_done (tput s x (mk_task k (Some g) (k_must tk))) g (CbWake x))); now apply cf_on_done, cf_tput). destruct (k_must tk); auto.
  pose proof (cf_cancel f (List.length (futs s1)) s1 g X) as Y. destruct (cancel _ s1 g) as [s2 []]; cbn [fst] in Y; auto. destruct (tget s2 x); auto. now apply cf_tput.
Qed.
Lemma cf_falloc f s x : CF f s -> CF f (falloc s x).
Proof. intros [fu [E S]]. exists fu. split; auto. unfold fget, falloc in *. cbn [set_futs futs]. rewrite nth_error_app1; auto. apply nth_error_Some. congruence. Qed.
(** The step in which the clock task cancels the other tasks. *)
Lemma cancel_step fire s c t f cbs k m : cur s = Some (c, BClk CCancel) -> In t (others shuffle s c) -> fget s t = Some (mkt Pending cbs k (Some f) m) -> PC f s -> CF f (step fire s).
Proof.
  intros Hc Hi Et P. unfold Loop_Model.step. rewrite Hc. cbn [exec_body exec_clk]. fold (others shuffle s c). pose proof (cancels_hit t f _ s cbs k m Hi Et P) as X. destruct (others shuffle s c) as [|x l]; [destruct Hi|].
  apply cf_suspend. assert (K : forall g l s, CF f s -> CF f (fold_left (fun s f => on_done s f (CbCount g)) l s)) by (intros g l0; induction l0 as [|y l0 IH]; intros z H; cbn [fold_left]; auto; apply IH; now apply cf_on_done).
  apply K. now apply cf_falloc.
Qed.

Section Monitor.
Context (method : mem -> mem * res lval) (acts : lval -> list (@action mem)).
Notation mon := (mon method acts). Notation monitor := (monitor method acts). Notation cycles := (cycles acts). Notation waited := (waited method acts).
Notation phase := (P_Mon.phase method acts).
Definition kw (r : res lval) : body := BProg (waited r).

(** The monitor task after the cancellation. *)
Definition Doomed (t : id) s : Prop :=
  (exists f, Susp t (fun r => BEv 0 f r kw) (Some f) s /\ CF f s) \/ (exists f, cur s = Some (t, BEv 0 f CE kw)) \/ cur s = Some (t, BProg (Raise CancelledError)) \/ state_of s t = Some Canc.
Lemma doomed_see test m t s : steps (init test m) s -> Doomed t s -> see t s = [].
Proof.
  intros R [[f [[H _] _]]|[[f H]|[H|H]]]; [now apply see_other| | |].
  - unfold see. now rewrite H.
  - unfold see. now rewrite H.
  - apply see_other. intros b X. pose proof (cur_pending s t b (reach_all shuffle dut delayers test m s R) X). congruence.
Qed.
Lemma doomed_step test m fire t s : steps (init test m) s -> Doomed t s -> Doomed t (step fire s).
Proof.
  intros R H. pose proof (v_wf _ (proj1 (reach_all shuffle dut delayers test m s R))) as W. destruct H as [[f [H X]]|[[f H]|[H|H]]].
  - assert (Y : CF f (step fire s)). { destruct X as [fu [E S]]. destruct (step_fext shuffle dut delayers fire s W f fu E) as [fu' [E' [_ P]]]. exists fu'. split; auto. rewrite P; auto. unfold pending. now rewrite S. }
    destruct (susp_step shuffle dut delayers fire t _ _ s W H) as [Z|[r [Z [Q _]]]]; [left; eauto|]. right. left. exists f. rewrite Z. destruct Q as [[-> _]|[st [Q1 [Q2 ->]]]]; auto.
    destruct X as [fu [E S]]. unfold state_of in Q1. rewrite E in Q1. cbn in Q1. injection Q1 as <-. now rewrite S.
  - right. right. left. unfold Loop_Model.step. rewrite H. reflexivity.
  - right. right. right. apply cancelled_done; auto. now left.
  - right. right. right. eapply state_of_done; eauto; [apply steps_step, steps_refl|discriminate].
Qed.
Lemma cycles_calls n0 rs L : cycles n0 rs L -> calls L = seq (S n0) (List.length rs) /\ outcomes L = rs.
Proof.
  assert (SN : forall (a : list (@action mem)) l, sends a l -> calls l = [] /\ outcomes l = []) by (induction 1; auto).
  assert (C1 : forall n r l, cycle acts n r l -> calls l = [n] /\ outcomes l = [r]) by (intros n r l [|e|v l0 _ S0]; auto; destruct (SN _ _ S0) as [E1 E2]; unfold calls, outcomes in *; simpl; rewrite E1, E2; auto).
  induction 1 as [|rs l r l1 C [E1 E2] C2]; auto. destruct (C1 _ _ _ C2) as [E3 E4]. unfold calls, outcomes in *. rewrite !flat_map_app, E1, E2, E3, E4, app_length. simpl. rewrite Nat.add_1_r, seq_S. simpl. split; auto. rewrite Nat.add_succ_r. reflexivity.
Qed.
Lemma log_trans t s s1 s2 l1 l2 : log t s s1 l1 -> log t s1 s2 l2 -> log t s s2 (l1 ++ l2).
Proof. intros A B. induction B as [s1|s1 s2 fire l B IH]; [now rewrite app_nil_r|]. rewrite app_assoc. apply log_step. auto. Qed.

Lemma steps_log t s s' : steps s s' -> exists L, log t s s' L.
Proof. intros R. induction R as [s|s s1 fire R [L IH]]; [exists []; apply log_refl|]. eexists. apply log_step. exact IH. Qed.
Lemma test_fine (test : prog) m r v : steps (init test m) r -> test_returned r v -> Fine r.
Proof.
  intros R HR. destruct (test_running shuffle dut delayers test m r 0 _ R HR) as [_ TD].
  destruct (reach_phase shuffle dut delayers shuffled test m r R) as [FI|c1 Hc1 _ _|c1 s1 g [R1 [R2 [_ [_ [TD1 _]]]]] _ _|c1 s1 [R1 [R2 [_ [_ [TD1 _]]]]] _ _|c1 Hc1 _ _]; auto; try (unfold test_returned in HR; congruence); exfalso; apply TD; eapply steps_tdone; eauto.
Qed.
(** Every task that is unfinished when the tasks are cancelled has ended before the step of the clock that follows. *)
Lemma cancelled_from (test : prog) m r s c : steps (init test m) r -> Fine r -> steps r s -> at_step s c -> tdone s = Some true ->
  exists s1, steps r s1 /\ steps s1 s /\ forall t, unfinished s1 t -> t <> c -> t <> 0 -> ~ unfinished s t.
Proof.
  intros Rr FI R [l Hl] TD. assert (CS : clock s = Some c) by (apply (clock_of s c _ (proj2 (reach_all shuffle dut delayers test m s (steps_trans _ _ _ _ _ _ Rr R))) Hl); intros []).
  assert (P : Loop21_Proofs.phase shuffle dut delayers r s).
  { clear - R Rr FI shuffled. induction R as [r|r s fire R IH]; [now apply ph_fine|]. assert (Rs : steps (init test m) s) by (eapply steps_trans; eauto). apply Loop21_Proofs.phase_step; auto; [eapply reach_all; eauto|eapply reach_fresh; eauto]. }
  destruct P as [[_ X]|c1 Hc _ _|c1 s1 g CA SU _|c1 s1 CA DE _|c1 Hc X _]; try congruence.
  - now elim (X _ _ Hl).
  - exfalso. destruct CA as [_ [_ [_ [_ [_ CA]]]]]. assert (c1 = c) by congruence. subst. elim (proj1 SU _ Hl).
  - destruct CA as [A1 [A2 [A3 [A4 [A5 A6]]]]]. assert (c1 = c) by congruence. subst c1. exists s1. split; auto. split; auto. intros t U N1 N2 U'. destruct (DE t) as [fu [E P]]; [apply others_iff; auto|].
    unfold unfinished in U'. apply live_iff in U'. unfold islive in U'. rewrite E in U'. destruct fu as [[] ? ?]; try discriminate.
Qed.

(** After the test has returned at [r]: the rest of its cycle, the cancellation, the cancelled monitor. *)
Inductive Tail (n0 : nat) (t : id) (r s : state) (L : list (@seen mem)) : Prop :=
| tl_rest : NC s -> Fine s -> nstep s = nstep r -> s = r \/ tdone s = Some true -> Tail n0 t r s L
| tl_cancel c : cur s = Some (c, BClk CCancel) -> okF (futs s) -> nstep s = nstep r -> Tail n0 t r s L
| tl_doomed rs : Doomed t s -> cycles n0 rs L -> n0 + List.length rs = nstep r -> Tail n0 t r s L
| tl_raised e : In (Exn e) (outcomes L) -> Tail n0 t r s L.
Lemma tail_step (test : prog) m n0 t v r fire s L : nocancel test -> steps (init test m) s -> test_returned r v -> t <> 0 -> phase test t n0 s L -> Tail n0 t r s L -> Tail n0 t r (step fire s) (L ++ see t s).
Proof.
  intros NT R HR T0 PH TL. pose proof (reach_all shuffle dut delayers test m s R) as A. pose proof A as [EV C]. pose proof (v_wf _ EV) as W. destruct TL as [N FI E TD|c Hc OK E|rs D C0 E|e X].
  - destruct (reach_nc shuffle dut delayers test m s NT R) as [_ [Lk [Th _]]].
    assert (NS : nstep (step fire s) = nstep r) by (rewrite nstep_step; destruct (cur s) as [[x [| |[]| | | |]]|] eqn:Hx; auto; exfalso; exact (proj2 FI _ _ Hx)).
    assert (TD' : tdone (step fire s) = Some true) by (destruct TD as [->|TD]; [eapply ret_tdone; exact HR|eapply steps_tdone; eauto; apply steps_step, steps_refl]).
    assert (D : (exists c, cur s = Some (c, BClk CTail)) \/ forall c, cur s <> Some (c, BClk CTail)) by (destruct (cur s) as [[c [| |[]| | | |]]|]; eauto; right; discriminate).
    destruct D as [[c Hc]|D].
    + destruct TD as [->|TD]; [unfold test_returned in HR; congruence|]. assert (HS : step fire s = go s c (BClk CCancel)) by (unfold Loop_Model.step; rewrite Hc; cbn [exec_body exec_clk]; now rewrite TD).
      apply (tl_cancel _ _ _ _ _ c); [rewrite HS; reflexivity|rewrite HS; exact (n_ok _ N)|exact NS].
    + apply tl_rest; auto; [apply step_nc; auto; intros c X; now elim (D c)|apply fine_step; auto].
  - destruct PH as [rs C0 NE Hc' N|rs C0 NE H|rs C0 NE Hc' N|rs L0 v0 sent l todo p C0 NE Hv Ha Hs HL Hc' Hp N|rs L0 v0 sent l q z w n todo C0 NE Hv Ha Hs Hz HL Hc' N|rs e C0 NE HE H]; try congruence.
    + destruct H as [[f [fu [cbs [mu [Hn [Et [Ef [Kf Ph]]]]]]]]|[f [q [H _]]]]; [|congruence]. destruct Ph as [[P N]|[[_ [_ [_ EA]]]|P]]; [|exfalso; exact (EA _ _ Hc)|exfalso; destruct (OK f fu Ef) as [[X _] _]; contradiction].
      rewrite (see_other t s Hn), app_nil_r. apply (tl_doomed _ _ _ _ _ rs); auto; [|lia]. left. exists f.
      assert (SU : Susp t (fun r => BEv 0 f r kw) (Some f) s) by (split; auto; exists cbs, mu; exact Et). split.
      * destruct (susp_step shuffle dut delayers fire t _ _ s W SU) as [Z|[q [_ [_ [Z _]]]]]; [exact Z|congruence].
      * eapply cancel_step; [exact Hc| |exact Et|]; [|exists fu; split; [exact Ef|]; rewrite Kf; auto]. apply (others_iff shuffle shuffled). split; [|split; [intros ->; exact (Hn _ Hc)|exact T0]].
        unfold unfinished. apply live_iff. unfold islive. rewrite Et. reflexivity.
    + assert (NX : forall b, cur s <> Some (t, b)). { intros b X. destruct H as [H|[H|H]]; [congruence| |]; pose proof (cur_pending s t b A X); congruence. }
      destruct (cycles_calls _ _ _ C0) as [_ E2]. apply (tl_raised _ _ _ _ _ e). unfold outcomes in *. rewrite flat_map_app. apply in_app_iff. left. rewrite E2. destruct HE as [HE|[_ [-> _]]].
      * destruct rs as [|r0 rs] using rev_ind; [discriminate|]. rewrite last_last in HE. subst. apply in_app_iff. right. now left.
      * exfalso. destruct H as [H|[H|H]]; [congruence| |]; unfold state_of, fget in H; destruct (nth_error (futs s) t) as [fu|] eqn:Ef; try discriminate; cbn in H; injection H as H; destruct (OK t fu Ef) as [[X Y] _]; try contradiction; congruence.
  - rewrite (doomed_see _ m _ _ R D), app_nil_r. apply (tl_doomed _ _ _ _ _ rs); auto. eapply doomed_step; eauto.
  - apply (tl_raised _ _ _ _ _ e). unfold outcomes in *. rewrite flat_map_app. apply in_app_iff. now left.
Qed.
Lemma tail_track (test : prog) m n0 t v r L0 s' L1 : nocancel test -> steps (init test m) r -> test_returned r v -> t <> 0 -> ports_ok acts r -> phase test t n0 r L0 -> log t r s' L1 -> Tail n0 t r s' (L0 ++ L1).
Proof.
  intros NT R HR T0 PO PH G. assert (X : Tail n0 t r s' (L0 ++ L1) /\ phase test t n0 s' (L0 ++ L1) /\ ports_ok acts s' /\ steps r s'); [|apply X]. induction G as [r|r s1 fire l G IH].
  - rewrite app_nil_r. split; [|split; [exact PH|split; [exact PO|apply steps_refl]]]. destruct (test_running shuffle dut delayers test m r 0 _ R HR) as [_ TD]. apply tl_rest; auto.
    + destruct (reach_nc shuffle dut delayers test m r NT R) as [_ [_ [_ [_ [X|X]]]]]; [contradiction|exact X].
    + eapply test_fine; eauto.
  - destruct (IH R HR PO PH) as [A [B [C D]]]. assert (R1 : steps (init test m) s1) by (eapply steps_trans; eauto). rewrite app_assoc. split; [eapply tail_step; eauto|]. split; [eapply P_Mon.phase_step; eauto|]. split; [now apply ports_step|now apply steps_step].
Qed.
(** The monitor began in the state [s], the test returned in the state [r], and the clock has made a step since: the method has been called once in every cycle after the one in which the monitor
    began, up to and including the one in which the test returned; it is not called any more; the monitor task has ended. *)
Theorem C109_until_the_end (test : prog) m t v s r s' L0 L1 : nocancel test -> steps (init test m) s -> ports_ok acts s -> cur s = Some (t, BProg monitor) -> log t s r L0 -> test_returned r v ->
  log t r s' L1 -> nstep r < nstep s' -> (forall e, ~ In (Exn e) (outcomes (L0 ++ L1))) ->
  calls (L0 ++ L1) = seq (S (nstep s)) (nstep r - nstep s) /\ cycles (nstep s) (outcomes (L0 ++ L1)) (L0 ++ L1) /\ ~ unfinished s' t.
Proof.
  intros NT R PO Hc G0 HR G1 LT NX. pose proof (phase_track shuffle dut delayers method acts test m t s r L0 R PO Hc G0) as PH. pose proof (log_steps _ _ _ _ _ _ _ G0) as R0. pose proof (log_steps _ _ _ _ _ _ _ G1) as R1.
  assert (Rr : steps (init test m) r) by (eapply steps_trans; eauto). pose proof (reach_all shuffle dut delayers test m r Rr) as A.
  assert (POr : ports_ok acts r). { clear - R0 PO. induction R0 as [s|s r fire R0 IH]; auto. apply ports_step. auto. }
  assert (T0 : t <> 0).
  { intros ->. unfold test_returned in HR. pose proof (cur_pending r 0 _ A HR) as SP.
    destruct PH as [rs _ _ H _|rs _ _ [[f [fu [cbs [mu [H _]]]]]|[f [q [H _]]]]|rs _ _ H _|rs L v0 sent l todo p _ _ _ _ _ _ H _ _|rs L v0 sent l q z w n todo _ _ _ _ _ _ _ H _|rs e _ _ _ [H|[H|H]]]; try congruence. exact (H _ HR). }
  destruct (tail_track test m (nstep s) t v r L0 s' L1 NT Rr HR T0 POr PH G1) as [_ _ E _|c _ _ E|rs D C E|e X]; [lia|lia| |now elim (NX e)].
  destruct (cycles_calls _ _ _ C) as [E1 E2]. rewrite E1, E2. split; [f_equal; lia|]. split; auto.
  destruct (next_step shuffle dut delayers r s' R1 LT) as [y [c [Y1 [Y2 [Y3 Y4]]]]]. assert (Ry : steps (init test m) y) by (eapply steps_trans; eauto).
  assert (TDy : tdone y = Some true).
  { assert (X : y = r \/ tdone y = Some true).
    { clear - Y1 Rr HR. induction Y1 as [r|r y fire Y1 IH]; auto. right. destruct (IH HR Rr) as [->|X]; [eapply ret_tdone; exact HR|]. eapply steps_tdone; [|exact X|apply steps_step, steps_refl]. eapply steps_trans; eauto. }
    destruct X as [->|X]; auto. destruct Y4 as [l Y4]. unfold test_returned in HR. congruence. }
  set (TK := fun a : state => exists st cbs k w mu, nth_error (futs a) t = Some (mkt st cbs k w mu)).
  assert (TK1 : forall a b, steps (init test m) a -> steps a b -> TK a -> TK b).
  { intros a b Ra Rb [st [cbs [k [w [mu E0]]]]]. pose proof (v_wf _ (proj1 (reach_all shuffle dut delayers test m a Ra))) as Wa. destruct (steps_fext shuffle dut delayers a b Wa Rb t _ E0) as [[st' cbs' k'] [E' [K' _]]]. cbn in K'.
    destruct k' as [| | | | |[k1 w1 m1]]; try (now elim K'). exists st', cbs', k1, w1, m1. exact E'. }
  assert (MO : forall a b, steps (init test m) a -> steps a b -> TK a -> unfinished b t -> unfinished a t).
  { intros a b Ra Rb [st [cbs [k [w [mu E0]]]]] U. pose proof (v_wf _ (proj1 (reach_all shuffle dut delayers test m a Ra))) as Wa. unfold unfinished in *. apply live_iff. apply live_iff in U. unfold islive in *. rewrite E0.
    destruct (steps_fext shuffle dut delayers a b Wa Rb t _ E0) as [[st' cbs' k'] [E' [_ P]]]. rewrite E' in U. unfold mkt in *. destruct st; auto; cbn in P; rewrite (P eq_refl) in U; discriminate. }
  assert (TKs : TK s) by (destruct (cur_task s t _ (v_wf _ (proj1 (reach_all shuffle dut delayers test m s R))) Hc) as [cbs [k [w [mu Et]]]]; exists Pending, cbs, k, w, mu; exact Et).
  pose proof (TK1 _ _ R R0 TKs) as TKr. pose proof (TK1 _ _ Rr Y1 TKr) as TKy.
  assert (Hcy : exists l, cur y = Some (c, BClk (CStep l))) by exact Y4. destruct Hcy as [l Hcy].
  assert (TC : t <> c).
  { intros ->. destruct (steps_log c s y (steps_trans _ _ _ _ _ _ R0 Y1)) as [L G]. pose proof (reach_all shuffle dut delayers test m y Ry) as Ay. pose proof (cur_pending y c _ Ay Hcy) as SP.
    destruct (phase_track shuffle dut delayers method acts test m c s y L R PO Hc G) as [rs' _ _ H _|rs' _ _ [[f [fu [cbs [mu [H _]]]]]|[f [q [H _]]]]|rs' _ _ H _|rs' L' v0 sent l' todo p _ _ _ _ _ _ H _ _|rs' L' v0 sent l' q z w n todo _ _ _ _ _ _ _ H _|rs' e _ _ _ [H|[H|H]]]; try congruence. }
  intros U. pose proof (MO _ _ Ry Y2 TKy U) as Uy. destruct (cancelled_from test m r y c Rr (test_fine test m r v Rr HR) Y1 Y4 TDy) as [s1 [Z1 [Z2 Z3]]].
  apply (Z3 t); auto. exact (MO s1 y (steps_trans _ _ _ _ _ _ Rr Z1) Z2 (TK1 r s1 Rr Z1 TKr) Uy).
Qed.
End Monitor.
End Thms.
Print Assumptions C109_until_the_end.

Definition returnedb (s : @state nat) : bool := match cur s with Some (0, BTest (Ret _)) => true | _ => false end.
Lemma returned_ok s : returnedb s = true -> exists v, test_returned s v.
Proof. unfold returnedb, test_returned. destruct (cur s) as [[[|] [| | | | | |[v| |]]]|]; try discriminate. eauto. Qed.
(** The test of [C61_nonvacuous] waits for six clock cycles; the monitor is task 2; run() makes two more steps of the clock after the test has returned. *)
Example C109_nonvacuous : exists s r s' v L0 L1, nocancel t_mon /\ steps ids Nat.succ (fun c => c) (init t_mon 0) s /\ ports_ok acts1 s /\ cur s = Some (2, BProg (monitor method1 acts1)) /\
  log ids Nat.succ (fun c => c) 2 s r L0 /\ test_returned r v /\ log ids Nat.succ (fun c => c) 2 r s' L1 /\ nstep s = 0 /\ nstep r = 6 /\ nstep s' = 8 /\
  calls L0 = [1; 2; 3; 4; 5] /\ calls L1 = [6] /\ outcomes (L0 ++ L1) = [Ok (VInt 1); Ok VNone; Ok (VInt 3); Ok VNone; Ok (VInt 5); Ok VNone].
Proof.
  destruct (returned_ok (fst (runl 2 121 (M1 14, []))) ltac:(vm_compute; reflexivity)) as [v HR].
  exists (M1 14), (fst (runl 2 121 (M1 14, []))), (fst (runl 2 65 (fst (runl 2 121 (M1 14, [])), []))), v, (snd (runl 2 121 (M1 14, []))), (snd (runl 2 65 (fst (runl 2 121 (M1 14, [])), []))).
  split; [exact (proj1 C61_nonvacuous)|]. split; [apply run_steps|]. split; [|split; [vm_compute; reflexivity|]].
  { intros w a q Ha Hq. replace (List.length (qs (M1 14))) with 3 by (vm_compute; reflexivity). unfold acts1, deliveries in Ha. simpl in Ha. destruct Ha as [<-|[<-|[<-|[<-|[]]]]]; simpl in Hq; intuition lia. }
  split; [apply runl_log; constructor|]. split; [exact HR|]. split; [apply runl_log; constructor|]. repeat (split; [vm_compute; reflexivity|]). vm_compute. reflexivity.
Qed.
