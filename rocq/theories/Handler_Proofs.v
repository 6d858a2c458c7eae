(** The loop after the exception handler has asked it to stop. *)
From Coq Require Import List Bool Arith ZArith Lia.
From Verif Require Import Py Prio_Model Loop_Model Loop_Spec Loop_Proofs Loop2_Proofs Loop3_Proofs Loop4_Proofs Loop5_Proofs Loop6_Proofs Loop7_Proofs Loop8_Proofs Loop9_Proofs Loop10_Proofs Loop2_Spec Loop3_Spec Loop13_Proofs Loop16_Proofs Loop17_Proofs Loop18_Proofs Loop20_Proofs Loop21_Proofs Loop22_Proofs Loop23_Proofs Exec_Proofs Test_Proofs Fail_Spec Fail_Proofs MainEnv_Proofs Handler_Model Handler_Spec.
Import ListNotations.
Open Scope nat_scope.

Section Handler.
Context {mem : Type}.
Notation prog := (@prog mem). Notation state := (@state mem). Notation body := (@body mem). Notation xstate := (@xstate mem).
Implicit Types (s : state) (x : xstate).
Context (shuffle : list id -> list id) (dut delayers : mem -> mem).
Notation step := (step shuffle dut delayers). Notation steps := (steps shuffle dut delayers). Notation xstep := (xstep shuffle dut delayers). Notation xsteps := (xsteps shuffle dut delayers).

(** The handler does not change what the machine does before the loop ends. *)
Lemma xstep_core fire gc x : x_core (xstep fire gc x) = x_core x \/ x_core (xstep fire gc x) = step fire (x_core x).
Proof. unfold Handler_Model.xstep. destruct (x_stop x && between (x_core x)); auto. Qed.
Lemma xsteps_core x x' : xsteps x x' -> steps (x_core x) (x_core x').
Proof. intros R. induction R as [x|x x1 fire gc R IH]; [apply steps_refl|]. destruct (xstep_core fire gc x1) as [->| ->]; auto. now apply steps_step. Qed.
Lemma xreach test m x : xsteps (xinit test m) x -> steps (init test m) (x_core x).
Proof. intros R. exact (xsteps_core _ _ R). Qed.
Lemma xstep_stop fire gc x : x_stop x = true -> x_stop (xstep fire gc x) = true.
Proof. intros H. unfold Handler_Model.xstep. rewrite H. destruct (between (x_core x)); auto. Qed.
Lemma xsteps_stop x x' : xsteps x x' -> x_stop x = true -> x_stop x' = true.
Proof. intros R H. induction R as [x|x x1 fire gc R IH]; auto. now apply xstep_stop, IH. Qed.
Lemma between_true s : between s = true -> cur s = None /\ batch s = 0.
Proof. unfold between. destruct (cur s); [discriminate|]. destruct (batch s); [auto|discriminate]. Qed.
Lemma between_now s : Bt s -> cur s = None -> now_ s = [] -> between s = true.
Proof. unfold Bt, now_, between. intros B -> H. destruct (batch s) as [|n]; auto. destruct (ready s); [simpl in B; lia|discriminate]. Qed.
Lemma busy s : Bt s -> between s = false -> cur s <> None \/ now_ s <> [].
Proof. intros B H. destruct (cur s) eqn:Hc; [left; congruence|right]. intros Hn. rewrite (between_now s B Hc Hn) in H. discriminate. Qed.
(** What is left of the current iteration. *)
Lemma now_step fire s : Wf s -> Bt s -> between s = false ->
  (cur s <> None /\ now_ (step fire s) = now_ s) \/ (cur s = None /\ exists h, now_ s = h :: now_ (step fire s)).
Proof.
  intros W B H. destruct (busy s B H) as [X|X]; destruct (queue_step shuffle dut delayers fire s W B) as [[t [b [L [Hc [E _]]]]]|[[Hc [_ [E _]]]|[[L [Hc [_ [E _]]]]|[h [L [Hc [E _]]]]]]]; try congruence; eauto.
  all: left; split; [congruence|auto].
Qed.
(** Every step from [s] on belongs to the iteration of the loop that [s] belongs to. *)
Inductive within : state -> state -> Prop :=
| wi_refl s : within s s
| wi_step s s1 fire : within s s1 -> between s1 = false -> within s (step fire s1).
Lemma within_steps s s' : within s s' -> steps s s'.
Proof. intros R. induction R; [apply steps_refl|]. now apply steps_step. Qed.
Lemma stop_within x x' : x_stop x = true -> xsteps x x' -> within (x_core x) (x_core x').
Proof.
  intros H R. induction R as [x|x x1 fire gc R IH]; [apply wi_refl|]. specialize (IH H). pose proof (xsteps_stop _ _ R H) as H1. unfold Handler_Model.xstep. rewrite H1. destruct (between (x_core x1)) eqn:E; auto. cbn [andb x_core]. now apply wi_step.
Qed.

(** * At most one more step of the DUT *)
Definition Late n1 s : Prop := nstep s = n1 \/ exists c, nstep s = S n1 /\ clock s = Some c /\ noc c (now_ s) /\ forall b, cur s = Some (c, b) -> b = BClk CRound.
Lemma noc_now fire s c : Wf s -> Bt s -> between s = false -> noc c (now_ s) -> noc c (now_ (step fire s)).
Proof. intros W B H N. destruct (now_step fire s W B H) as [[_ E]|[_ [h E]]]; [now rewrite E|]. rewrite E in N. intros y Hy. apply N. now right. Qed.
Lemma noc_resume fire s c b : Wf s -> noc c (now_ s) -> cur (step fire s) = Some (c, b) -> exists b0, cur s = Some (c, b0) /\ nextb s c b0 b.
Proof.
  intros W NC Q. destruct (step_cur shuffle dut delayers fire s c b W Q) as [X|[Hc [h [r0 [n [st [cbs0 [k0 [w0 [m0 [Hr [Hb [Ho _]]]]]]]]]]]]]; auto.
  exfalso. apply (NC h); auto. unfold now_. rewrite Hb, Hr. now left.
Qed.
Lemma late_step test fire n1 s : Base test s -> between s = false -> Late n1 s -> Late n1 (step fire s).
Proof.
  intros BA HB L. pose proof (base_step shuffle dut delayers test fire s BA) as BA'. destruct BA as [A B ST O]. pose proof A as [EV C]. pose proof (v_wf _ EV) as W. pose proof (v_wf _ (proj1 (ba_all _ _ BA'))) as W'. destruct L as [N|[c [N [CS [NC HC]]]]].
  - destruct (stepping shuffle dut delayers s) as [[t [l Hc]]|X]; [right|left; now rewrite X]. assert (CS : clock s = Some t) by (eapply clock_of; eauto).
    assert (Hc' : cur (step fire s) = Some (t, BClk CRound)) by (unfold Loop_Model.step; rewrite Hc; reflexivity). exists t. split; [rewrite nstep_step, Hc; congruence|]. split; [now apply clock_step|]. split; [|intros b Y; congruence].
    intros h Hh. apply (noc_cur _ _ _ W' Hc'). eapply firstn_incl; eauto.
  - right. exists c. assert (NS : nstep (step fire s) = nstep s) by (destruct (stepping shuffle dut delayers s) as [[t [l Hc]]|X]; auto; assert (t = c) by (eapply clk_cur; eauto); subst t; apply HC in Hc; discriminate).
    split; [congruence|]. split; [now apply clock_step|]. split; [now apply noc_now|]. intros b Q. destruct (noc_resume fire s c b W NC Q) as [b0 [Hc Hn]]. pose proof (HC _ Hc) as X. subst b0. contradiction.
Qed.
Lemma within_base test s s' : Base test s -> within s s' -> Base test s'.
Proof. intros BA R. induction R as [s|s s1 fire R IH]; auto. apply base_step. auto. Qed.
Lemma within_late test s s' : Base test s -> within s s' -> nstep s' <= S (nstep s).
Proof.
  intros BA R. assert (X : Late (nstep s) s'); [|destruct X as [->|[c [-> _]]]; lia]. induction R as [s|s s1 fire R IH]; [now left|]. apply (late_step test); auto. eapply within_base; eauto.
Qed.

(** * The loop ends *)
Section Ends.
Context (test : prog) (m : mem) (sg : nat -> xstate).
Context (R0 : xsteps (xinit test m) (sg 0)) (EX : forall n, exists fire gc, sg (S n) = xstep fire gc (sg n)) (YI : xyields sg) (ST : x_stop (sg 0) = true).
Lemma sg_steps n : xsteps (sg 0) (sg n).
Proof. induction n as [|n IH]; [apply xs_refl|]. destruct (EX n) as [fire [gc ->]]. now apply xs_step. Qed.
Lemma sg_stop n : x_stop (sg n) = true. Proof. eapply xsteps_stop; [apply sg_steps|exact ST]. Qed.
Lemma sg_base n : Base test (x_core (sg n)).
Proof. apply (reach_base shuffle dut delayers test m). eapply steps_trans; [apply (xreach _ _ _ R0)|]. apply xsteps_core, sg_steps. Qed.
Lemma sg_next n : between (x_core (sg n)) = false -> exists fire, x_core (sg (S n)) = step fire (x_core (sg n)).
Proof. intros H. destruct (EX n) as [fire [gc ->]]. exists fire. unfold Handler_Model.xstep. rewrite H, andb_false_r. reflexivity. Qed.
Lemma cur_busy s : cur s <> None -> between s = false. Proof. unfold between. destruct (cur s); congruence. Qed.
Lemma x_settle d : forall n, cur (x_core (sg (n + d))) = None -> exists j, n <= j /\ cur (x_core (sg j)) = None /\ now_ (x_core (sg j)) = now_ (x_core (sg n)).
Proof.
  induction d as [|d IH]; intros n Hc; (destruct (cur (x_core (sg n))) as [[t b]|] eqn:E; [|exists n; auto; fail]).
  - rewrite Nat.add_0_r in Hc. congruence.
  - assert (HB : between (x_core (sg n)) = false) by (apply cur_busy; congruence). destruct (sg_next n HB) as [fire Es]. pose proof (sg_base n) as BA.
    destruct (now_step fire _ (v_wf _ (proj1 (ba_all _ _ BA))) (ba_bt _ _ BA) HB) as [[_ X]|[X _]]; [|congruence]. rewrite <- Es in X. replace (n + S d) with (S n + d) in Hc by lia. destruct (IH (S n) Hc) as [j [J1 [J2 J3]]]. exists j. split; [lia|]. split; congruence.
Qed.
Lemma x_drained k : forall n, List.length (now_ (x_core (sg n))) = k -> exists j, n <= j /\ between (x_core (sg j)) = true.
Proof.
  induction k as [|k IH]; intros n Hk; destruct (YI n) as [y [Ly Cy]]; replace y with (n + (y - n)) in Cy by lia; destruct (x_settle _ n Cy) as [j [J1 [J2 J3]]]; pose proof (sg_base j) as BA.
  - exists j. split; auto. apply between_now; auto; [apply (ba_bt _ _ BA)|]. rewrite J3. destruct (now_ (x_core (sg n))); [auto|discriminate].
  - destruct (between (x_core (sg j))) eqn:HB; [exists j; auto|]. destruct (sg_next j HB) as [fire Es]. destruct (now_step fire _ (v_wf _ (proj1 (ba_all _ _ BA))) (ba_bt _ _ BA) HB) as [[X _]|[_ [h X]]]; [congruence|].
    rewrite <- Es in X. rewrite J3 in X. rewrite X in Hk. injection Hk as Hk. destruct (IH (S j) Hk) as [i [I1 I2]]. exists i. split; [lia|auto].
Qed.
Lemma x_ends : exists n, run_over (sg n).
Proof.
  destruct (x_drained _ 0 eq_refl) as [n [_ H]]. exists n. unfold run_over, run_result. rewrite H, sg_stop, orb_true_r. cbn [andb]. discriminate.
Qed.
End Ends.

(** * The main coroutine before the end of the test *)
Fixpoint testb (b : body) : Prop := match b with BMain _ | BTest _ | BProg (Raise _) => True | BEv _ _ _ k | BGet _ _ _ k => forall r, testb (k r) | _ => False end.
Definition bad0 s : Prop := exists st, state_of s 0 = Some st /\ st <> Pending /\ forall v, st <> Finished (Ok v).
Definition Pre s : Prop := tdone s = Some true \/ (exists b, cur s = Some (0, b) /\ testb b) \/ (exists k w, Susp 0 k w s /\ forall r, testb (k r)) \/ bad0 s.
Lemma pre_step test m fire s : steps (init test m) s -> Pre s -> Pre (step fire s).
Proof.
  intros R0 P. destruct (reach_linked _ _ _ _ _ _ R0) as [W _]. destruct P as [TD|[[b [Hc P]]|[[k [w [SU P]]]|[st [A [B C]]]]]].
  - left. eapply (steps_tdone shuffle dut delayers test m s); eauto. apply steps_step, steps_refl.
  - destruct (cur_task s 0 b W Hc) as [cbs [k0 [w [mu Et]]]]. assert (HS : step fire s = exec_body shuffle dut delayers s 0 b) by (unfold Loop_Model.step; now rewrite Hc).
    assert (FI : forall e, step fire s = finish s 0 (Exn e) -> Pre (step fire s)).
    { intros e E. destruct (finish_state s 0 (Exn e) _ _ _ _ Et) as [st [X [Y Z]]]. right; right; right. exists st. rewrite E. split; auto. split; auto. intros v ->. specialize (Z v eq_refl). discriminate. }
    destruct b as [[v|e|o kk]|q ev todo sb|c|e f r kk|q f r kk|test0|[v|e|o kk]]; cbn [testb] in P; try contradiction.
    + apply (FI e). exact HS.
    + rewrite HS. cbn [exec_body]. right; left. destruct (nth_error (evs s) e); eexists; (split; [reflexivity|]); auto.
    + rewrite HS. destruct r as [v|e].
      * cbn [exec_body]. destruct (q_get_out s 0 q kk _ _ _ _ Et) as [[r [_ X]]|[f' [w' S]]].
        -- right; left. eexists. split; [exact X|]. auto.
        -- right; right; left. eexists _, w'. split; [exact S|]. auto.
      * right; left. cbn [exec_body]. eexists. split; [reflexivity|]. auto.
    + right; left. rewrite HS. eexists. split; [reflexivity|exact I].
    + left. eapply ret_tdone. exact Hc.
    + apply (FI e). exact HS.
    + rewrite HS. cbn [exec_body]. destruct (exec_op_out s 0 o (fun r => BTest (kk r)) _ _ _ _ Et) as [[r [_ X]]|[k' [w' [S D]]]].
      * right; left. eexists. split; [exact X|exact I].
      * right; right; left. exists k', w'. split; auto. intros r. destruct D as [->|[[e [f ->]]|[q [f ->]]]]; simpl; auto.
  - destruct (susp_step shuffle dut delayers fire 0 k w s W SU) as [X|[r [X _]]]; [right; right; left; eauto|right; left; eauto].
  - right; right; right. exists st. split; auto. eapply (state_of_done shuffle dut delayers s); eauto. apply steps_step, steps_refl.
Qed.
Lemma reach_pre test m s : steps (init test m) s -> Pre s.
Proof.
  intros R. assert (X : forall s0 s, steps s0 s -> s0 = init test m -> Pre s); [|eapply X; eauto]. clear s R. intros s0 s R. induction R as [s|s s1 fire R IH]; intros ->.
  - right; right; left. exists (start (BMain test)), None. split; [split; [discriminate|]|intros [v|e]; exact I]. exists [CbStop], false. reflexivity.
  - eapply pre_step; eauto.
Qed.
(** It has not returned before test_done is set. *)
Lemma not_over_not_ok test m s v : steps (init test m) s -> tdone s <> Some true -> state_of s 0 <> Some (Finished (Ok v)).
Proof.
  intros R TD H. destruct (reach_linked _ _ _ _ _ _ R) as [W _]. destruct (reach_pre test m s R) as [X|[[b [Hc _]]|[[k [w [[_ [cbs [mu E]]] _]]]|[st [A [B C]]]]]]; auto.
  - destruct (cur_task s 0 b W Hc) as [cbs [k0 [w [mu Et]]]]. unfold state_of in H. rewrite Et in H. discriminate.
  - unfold state_of, fget in H. rewrite E in H. discriminate.
  - apply (C v). congruence.
Qed.
Lemma tdone_set test m fire s : steps (init test m) s -> tdone s <> Some true -> tdone (step fire s) = Some true -> exists v, test_returned s v.
Proof.
  intros R T TD. destruct (reach_ended shuffle dut delayers test m s R) as [W [O _]].
  rewrite (fr_tdone _ _ (step_fr shuffle dut delayers fire s)) in TD; unfold seff in TD; destruct (cur s) as [[t b]|] eqn:Hc; [|congruence].
  assert (Q : forall o, tdone (oeff s t o) = tdone s) by (intros o; destruct o as [f|m0|fl| |p|f|f| |e|e|e| |q v|q|q| |h z [|]|l| |]; auto; simpl; destruct (clock s); auto).
  destruct b as [[v|e|o kk]|[v|e|o kk] [ev|] todo sb|[| | |[]| | | |]|e f r kk|q f [v|e] kk|test0|[v|e|o kk]]; try (rewrite ?Q in TD; simpl in TD; congruence).
  assert (t = 0) by (destruct (Nat.eqb_spec t 0) as [|Z]; auto; exfalso; exact (proj1 (O t Z) _ Hc)). subst t. exists v. exact Hc.
Qed.

(** * The main coroutine in the last iteration *)
Definition Away s : Prop := (exists k w, Susp 0 k w s) /\ noc 0 (now_ s).
Lemma away_step fire s : Wf s -> Bt s -> between s = false -> Away s -> Away (step fire s).
Proof.
  intros W B HB [[k [w SU]] NC]. split; [|now apply noc_now]. destruct (susp_step shuffle dut delayers fire 0 k w s W SU) as [X|[r [X _]]]; [eauto|].
  destruct (noc_resume fire s 0 _ W NC X) as [b0 [Hc _]]. exfalso. eapply (proj1 SU). exact Hc.
Qed.
Definition NoPass s : Prop := (tdone s <> Some true /\ clock s <> None) \/ Away s \/ bad0 s.
Lemma nopass_step test m fire s : steps (init test m) s -> between s = false -> NoPass s -> NoPass (step fire s).
Proof.
  intros R HB [[TD CS]|[H|[st [A [B C]]]]]; destruct (reach_linked _ _ _ _ _ _ R) as [W _]; pose proof (ba_bt _ _ (reach_base shuffle dut delayers test m s R)) as B0.
  - assert (CS' : clock (step fire s) <> None) by (destruct (clock s) as [c|] eqn:E; [|congruence]; rewrite (clock_step shuffle dut delayers fire s c E); discriminate).
    destruct (tdone (step fire s)) as [[|]|] eqn:T; [|left; split; congruence|left; split; congruence]. right; left. destruct (tdone_set test m fire s R TD T) as [v Hc]. pose proof (ret_waits shuffle dut delayers fire s v Hc CS) as X.
    pose proof (reach_all shuffle dut delayers test m s R) as A. destruct (cur_live _ (proj1 (v_wf _ (proj1 A))) 0 _ Hc) as [cbs [k [mu E]]]. cbn [snd coreof] in E. destruct (v_zero _ (proj1 A)) as [ws Z].
    assert (IW : InWait (nstep s) 0 (kbv v) (step fire s)) by (rewrite X; change (nstep s) with (nstep (set_tdone s (Some true))); eapply wait_enter; [exact E|exact Z]).
    destruct (now_step fire s W B0 HB) as [[_ Y]|[Y _]]; [|unfold test_returned in Hc; congruence]. split; [|rewrite Y; intros h Hh; apply (noc_cur _ _ _ W Hc); eapply firstn_incl; eauto].
    destruct IW as [f [fu [cbs' [mu' [I1 [I2 I3]]]]]]. eexists _, _. split; [|exists cbs', mu'; exact I2]. exact I1.
  - right; left. now apply away_step.
  - right; right. exists st. split; auto. eapply (state_of_done shuffle dut delayers s); eauto. apply steps_step, steps_refl.
Qed.
Lemma within_nopass test m s s' : steps (init test m) s -> within s s' -> NoPass s -> NoPass s'.
Proof. intros R0 R H. induction R as [s|s s1 fire R IH]; auto. apply (nopass_step test m); auto. eapply steps_trans; [exact R0|]. now apply within_steps. Qed.
Lemma nopass_state test m s v : steps (init test m) s -> NoPass s -> state_of s 0 <> Some (Finished (Ok v)).
Proof.
  intros R [[TD _]|[[[k [w [_ [cbs [mu E]]]]] _]|[st [A [B C]]]]]; [eapply not_over_not_ok; eauto| |intros H; apply (C v); congruence]. unfold state_of, fget. rewrite E. discriminate.
Qed.
Lemma result_state x v : run_result x = Some (Ok v) -> state_of (x_core x) 0 = Some (Finished (Ok v)).
Proof.
  unfold run_result, state_of. destruct (between (x_core x) && (stopping (x_core x) || x_stop x)); [|discriminate]. destruct (fget (x_core x) 0) as [[st cbs kd]|]; [|discriminate]. unfold pending. cbn. destruct st as [|[v'|e]|]; cbn; try discriminate. intros H. congruence.
Qed.
Lemma within_away test s s' : Base test s -> within s s' -> Away s -> Away s'.
Proof. intros BA R H. induction R as [s|s s1 fire R IH]; auto. pose proof (within_base test _ _ BA R) as B1. apply away_step; auto; [exact (v_wf _ (proj1 (ba_all _ _ B1)))|apply (ba_bt _ _ B1)]. Qed.

(** * Tasks that fail *)
Lemma fails_stop test m fire gc x t e : xsteps (xinit test m) x -> fails x t e -> unclaimed x t -> In t gc -> x_stop (xstep fire gc x) = true /\ failed (x_core (xstep fire gc x)) t e /\ x_core (xstep fire gc x) = step fire (x_core x).
Proof.
  intros R [Hc He] [NC [fu [Ef Ec]]] HG. set (s := x_core x) in *. destruct (reach_linked _ _ _ _ _ _ (xreach _ _ _ R)) as [W _]. assert (BF : between s = false) by (apply cur_busy; congruence).
  assert (F : failed (step fire s) t e) by (eapply (raise_done shuffle dut delayers); eauto; now left).
  unfold Handler_Model.xstep. fold s. rewrite BF, andb_false_r. cbn [x_core x_stop]. split; [|split; auto]. apply orb_true_iff. right. apply existsb_exists. exists t. split; auto.
  assert (CL : claims s = []). { unfold claims. rewrite Hc. cbn [body_op]. unfold waited. rewrite Ef. destruct fu as [st cbs kd]. cbn in Ec. subst cbs. reflexivity. }
  rewrite CL, app_nil_r. unfold lost. destruct F as [F|[_ F]]; [|congruence]. unfold state_of in F. destruct (cur_task s t _ W Hc) as [cbs [k0 [w [mu Et]]]].
  destruct (step_fext shuffle dut delayers fire s W t _ Et) as [fu' [E' [K' _]]]. unfold fget in *. rewrite E' in F |- *. destruct fu' as [st' cbs' kd']. cbn in F, K' |- *. injection F as ->.
  assert (KD : exists tk, kd' = KTask tk) by (destruct kd'; cbn in K'; try contradiction; try discriminate; eauto). destruct KD as [tk ->]. apply negb_true_iff. apply not_true_iff_false. intros X. apply existsb_exists in X as [y [Y1 Y2]]. apply Nat.eqb_eq in Y2. subst y. contradiction.
Qed.
(** The handler stops the loop only because of a failed task. *)
Lemma stop_cause test m x : xsteps (xinit test m) x -> x_stop x = true -> exists t e, state_of (x_core x) t = Some (Finished (Exn e)).
Proof.
  intros R. assert (X : forall x0 x, xsteps x0 x -> x0 = xinit test m -> x_stop x = true -> exists t e, state_of (x_core x) t = Some (Finished (Exn e))); [|eapply X; eauto]. clear x R. intros x0 x R. induction R as [x|x x1 fire gc R IH]; intros -> H; [discriminate|].
  specialize (IH eq_refl). destruct (reach_linked _ _ _ _ _ _ (xreach _ _ _ R)) as [W _]. destruct (x_stop x1) eqn:S1.
  - destruct (IH eq_refl) as [t [e E]]. exists t, e. destruct (xstep_core fire gc x1) as [->| ->]; auto. eapply (state_of_done shuffle dut delayers (x_core x1)); eauto; [apply steps_step, steps_refl|discriminate].
  - unfold Handler_Model.xstep in *. rewrite S1 in *. cbn [andb x_stop x_core orb] in *. apply existsb_exists in H as [t [_ L]]. exists t. unfold lost in L. unfold state_of. destruct (fget (step fire (x_core x1)) t) as [[[|[|e]|] cbs []]|]; try discriminate. exists e. reflexivity.
Qed.
End Handler.
