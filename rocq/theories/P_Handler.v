(** C78: a failing task that nobody waits for ends the run.  C79, C80: what is not noticed. *)
From Coq Require Import List Bool Arith ZArith Lia.
From Verif Require Import Py Prio_Model Loop_Model Loop_Spec Loop2_Spec Loop3_Spec LoopProg_Model Mon_Model Drv_Model Drv_Spec Live_Spec Loop_Proofs Loop2_Proofs Loop3_Proofs Loop4_Proofs Loop5_Proofs Loop6_Proofs Loop9_Proofs Loop10_Proofs Loop13_Proofs Loop22_Proofs Loop23_Proofs Handler_Model Handler_Spec Handler_Proofs LoopRun_Model LoopRun_Proofs P_Loop P_Loop5 P_Drv.
Import ListNotations.
Open Scope nat_scope.

Section Thms.
Context {mem : Type} (shuffle : list id -> list id) (dut delayers : mem -> mem).
Notation steps := (steps shuffle dut delayers). Notation step := (step shuffle dut delayers). Notation prog := (@prog mem). Notation state := (@state mem). Notation xstate := (@xstate mem).
Notation xstep := (xstep shuffle dut delayers). Notation xsteps := (xsteps shuffle dut delayers). Notation xexecution := (xexecution shuffle dut delayers).
Implicit Types (s : state) (x : xstate).

Lemma waits_away s : main_waits s -> Away s.
Proof.
  intros [U [Hc NR]]. split.
  - unfold unfinished, live in U. apply filter_In in U as [_ U]. unfold fget in U. destruct (nth_error (futs s) 0) as [[st cbs kd]|] eqn:E; [|discriminate]. destruct st; try discriminate. destruct kd as [| | | | |[k w mu]]; try discriminate.
    exists k, w. split; auto. exists cbs, mu. exact E.
  - intros h Hh Ho. apply NR. exists h. split; [eapply firstn_incl; eauto|]. destruct h as [t|t e|t f|g| |f]; simpl in Ho; try discriminate; injection Ho as ->; eauto.
Qed.
Lemma fails_busy x t e : fails x t e -> between (x_core x) = false. Proof. intros [H _]. apply cur_busy. congruence. Qed.

(** Task [t], which nobody waits for and nobody has a reference to, fails: no further iteration of the loop begins, so that the DUT makes at most one
    more step; the exception is known to asyncio; and unless somebody runs for ever, run() is left. *)
Theorem C78_stops (test : prog) m fire gc x t e x' : xsteps (xinit test m) x -> fails x t e -> unclaimed x t -> In t gc -> xsteps (xstep fire gc x) x' ->
  failed (x_core x') t e /\ nstep (x_core x') <= S (nstep (x_core x)).
Proof.
  intros R F U G R'. destruct (fails_stop shuffle dut delayers test m fire gc x t e R F U G) as [ST [FD E]]. pose proof (reach_base shuffle dut delayers test m _ (xreach shuffle dut delayers test m x R)) as BA.
  assert (BA' : Base test (x_core (xstep fire gc x))) by (rewrite E; now apply base_step). split.
  - eapply (MainEnv_Proofs.failed_later shuffle dut delayers); [|exact FD|apply (xsteps_core shuffle dut delayers); exact R']. exact (v_wf _ (proj1 (ba_all _ _ BA'))).
  - apply (stop_within shuffle dut delayers) in R'; auto. apply (within_late shuffle dut delayers test) in R'; auto. rewrite E in R'. rewrite nstep_step in R'. destruct F as [Hc _]. rewrite Hc in R'. exact R'.
Qed.
Theorem C78_run_ends (test : prog) m fire gc x t e sg : xsteps (xinit test m) x -> fails x t e -> unclaimed x t -> In t gc -> sg 0 = xstep fire gc x -> xexecution test m sg -> xyields sg -> exists n, run_over (sg n).
Proof.
  intros R F U G E0 [R0 EX] Y. destruct (fails_stop shuffle dut delayers test m fire gc x t e R F U G) as [ST _]. rewrite <- E0 in ST. exact (x_ends shuffle dut delayers test m sg R0 EX Y ST).
Qed.
Lemma nopass_raises test m fire gc x t e x' v : xsteps (xinit test m) x -> NoPass (x_core x) -> fails x t e -> unclaimed x t -> In t gc -> xsteps (xstep fire gc x) x' -> ~ run_returned x' v.
Proof.
  intros R H F U G R' X. destruct (fails_stop shuffle dut delayers test m fire gc x t e R F U G) as [ST [FD E]]. pose proof (xreach shuffle dut delayers test m x R) as R0.
  assert (R1 : steps (init test m) (x_core (xstep fire gc x))) by (rewrite E; apply steps_step; exact R0). apply (nopass_state shuffle dut delayers test m (x_core x') v); [eapply steps_trans; [exact R1|]; apply (xsteps_core shuffle dut delayers); exact R'| |now apply result_state].
  apply (within_nopass shuffle dut delayers test m (x_core (xstep fire gc x))); auto; [apply (stop_within shuffle dut delayers); auto|]. rewrite E. apply (nopass_step shuffle dut delayers test m); auto. eapply fails_busy; eauto.
Qed.
(** As long as the test has not returned (and a clock has been started), run() never returns normally after that. *)
Theorem C78_never_passes (test : prog) m fire gc x t e x' v : xsteps (xinit test m) x -> ~ test_over (x_core x) -> clock (x_core x) <> None ->
  fails x t e -> unclaimed x t -> In t gc -> xsteps (xstep fire gc x) x' -> ~ run_returned x' v.
Proof. intros R TD CS. apply (nopass_raises test m); auto. left. auto. Qed.
(** While the main coroutine waits for something (in the test, or for the last clock cycle), run() raises RuntimeError. *)
Theorem C78_runtime_error (test : prog) m fire gc x t e x' : xsteps (xinit test m) x -> main_waits (x_core x) ->
  fails x t e -> unclaimed x t -> In t gc -> xsteps (xstep fire gc x) x' -> run_over x' -> run_raised x' RuntimeError.
Proof.
  intros R MW F U G R' OV. destruct (fails_stop shuffle dut delayers test m fire gc x t e R F U G) as [ST [FD E]]. pose proof (reach_base shuffle dut delayers test m _ (xreach shuffle dut delayers test m x R)) as BA.
  assert (BA' : Base test (x_core (xstep fire gc x))) by (rewrite E; now apply base_step). assert (AW : Away (x_core (xstep fire gc x))).
  { rewrite E. apply away_step; [exact (v_wf _ (proj1 (ba_all _ _ BA)))|apply (ba_bt _ _ BA)|eapply fails_busy; eauto|now apply waits_away]. }
  apply (stop_within shuffle dut delayers) in R'; auto. apply (within_away shuffle dut delayers test) in R'; auto. destruct R' as [[k [w [_ [cbs [mu E2]]]]] _]. unfold run_over, run_raised, run_result in *. unfold fget. rewrite E2. cbn [pending mkt f_st].
  destruct (between (x_core x') && (stopping (x_core x') || x_stop x')); [reflexivity|congruence].
Qed.
(** run() is left before the main coroutine is done only if some other task has failed. *)
Theorem C78_only_failures (test : prog) m x : xsteps (xinit test m) x -> run_over x -> unfinished (x_core x) 0 -> exists t e, t <> 0 /\ state_of (x_core x) t = Some (Finished (Exn e)).
Proof.
  intros R OV U. pose proof (xreach shuffle dut delayers test m x R) as R0. apply MainEnv_Proofs.unfinished_pending in U. assert (ST : x_stop x = true).
  { destruct (x_stop x) eqn:S1; auto. exfalso. unfold run_over, run_result in OV. rewrite S1, orb_false_r in OV. destruct (stopping (x_core x)) eqn:S2; [|rewrite andb_false_r in OV; congruence].
    destruct (stopped_done shuffle dut delayers test m _ R0 S2) as [fu [E P]]. unfold state_of, fget in U. rewrite E in U. cbn in U. injection U as U. unfold pending in P. rewrite U in P. discriminate. }
  destruct (stop_cause shuffle dut delayers test m x R ST) as [t [e E]]. exists t, e. split; auto. intros ->. congruence.
Qed.

(** * Driver calls and hooks *)
(** A step in which the running task goes on without touching any task. *)
Lemma quiet_step fire gc x t b b' : cur (x_core x) = Some (t, b) -> cur (step fire (x_core x)) = Some (t, b') -> futs (step fire (x_core x)) = futs (x_core x) -> (match body_op b with Some (OAwait _) | Some (OGather _) => False | _ => True end) ->
  unclaimed x t -> cur (x_core (xstep fire gc x)) = Some (t, b') /\ unclaimed (xstep fire gc x) t /\ x_core (xstep fire gc x) = step fire (x_core x).
Proof.
  intros Hc Hc' HF NO [NC [fu [Ef Ec]]]. assert (BF : between (x_core x) = false) by (apply cur_busy; congruence). unfold Handler_Model.xstep. rewrite BF, andb_false_r. cbn [x_core x_claimed]. split; auto. split; auto. split; cbn [x_core x_claimed].
  - assert (CL : claims (x_core x) = []); [|now rewrite CL, app_nil_r]. unfold claims. rewrite Hc. unfold waited. rewrite Ef. destruct fu as [st cbs kd]. cbn in Ec. subst cbs. destruct (body_op b) as [o|]; auto. destruct o; auto; contradiction.
  - exists fu. split; auto. unfold fget. now rewrite HF.
Qed.
(** The results of a driver call and of the reference models differ: [compare] raises [e] in the background task [t]. *)
Theorem C78_mismatch (test : prog) m (d : @drv mem) compare v fire gc fire' gc' x t e m' x' u : xsteps (xinit test m) x -> ~ test_over (x_core x) -> clock (x_core x) <> None ->
  cur (x_core x) = Some (t, BProg (conclude_call d compare v)) -> compare v (mm (x_core x)) = (m', Exn e) -> e <> CancelledError -> unclaimed x t -> In t gc' ->
  xsteps (xstep fire' gc' (xstep fire gc x)) x' -> nstep (x_core x') <= S (nstep (x_core x)) /\ failed (x_core x') t e /\ ~ run_returned x' u.
Proof.
  intros R TD CS Hc HC He U G R'. set (s := x_core x) in *. assert (HS : step fire s = go (set_mm s m') t (BProg (Raise e))) by (unfold Loop_Model.step; rewrite Hc; cbn [exec_body conclude_call exec_op]; rewrite HC; reflexivity).
  destruct (quiet_step fire gc x t _ (BProg (Raise e)) Hc) as [Q1 [Q2 Q3]]; auto; try (fold s; rewrite HS; reflexivity); [exact Logic.I|]. fold s in Q3.
  assert (R1 : xsteps (xinit test m) (xstep fire gc x)) by (now apply xs_step). assert (F : fails (xstep fire gc x) t e) by (split; auto).
  assert (TD1 : ~ test_over (x_core (xstep fire gc x))) by (rewrite Q3, HS; exact TD). assert (CS1 : clock (x_core (xstep fire gc x)) <> None) by (rewrite Q3, HS; exact CS).
  destruct (C78_stops test m fire' gc' _ t e x' R1 F Q2 G R') as [A B]. split; [rewrite Q3, HS in B; exact B|]. split; auto. eapply C78_never_passes; eauto.
Qed.
(** A hook of a reference model raises [e] when the clock task [c] calls it. *)
Theorem C78_hook_raises (test : prog) m (h : @hook mem) f1 g1 f2 g2 f3 g3 x c ev todo sb e m' x' u : xsteps (xinit test m) x -> ~ test_over (x_core x) ->
  cur (x_core x) = Some (c, BHook (wrapper h) ev todo sb) -> h_call h (mm (x_core x)) = (m', Exn e) -> e <> CancelledError -> unclaimed x c -> In c g3 ->
  xsteps (xstep f3 g3 (xstep f2 g2 (xstep f1 g1 x))) x' -> nstep (x_core x') <= S (nstep (x_core x)) /\ failed (x_core x') c e /\ ~ run_returned x' u.
Proof.
  intros R TD Hc HC He U G R'. set (s := x_core x) in *. pose proof (reach_all shuffle dut delayers test m _ (xreach shuffle dut delayers test m x R)) as A. fold s in A.
  assert (CS : clock s <> None) by (rewrite (Loop17_Proofs.clock_of s c _ (proj2 A) Hc); [discriminate|intros X; exact X]).
  assert (HS : step f1 s = go (set_mm s m') c (BHook (Raise e) ev todo sb)) by (unfold Loop_Model.step; rewrite Hc; cbn [exec_body wrapper exec_op]; rewrite HC; reflexivity).
  destruct (quiet_step f1 g1 x c _ (BHook (Raise e) ev todo sb) Hc) as [Q1 [Q2 Q3]]; auto; try (fold s; rewrite HS; reflexivity); [exact Logic.I|]. fold s in Q3. set (x1 := xstep f1 g1 x) in *.
  assert (HS1 : step f2 (x_core x1) = go (x_core x1) c (BProg (Raise e))) by (unfold Loop_Model.step; rewrite Q1; reflexivity).
  destruct (quiet_step f2 g2 x1 c _ (BProg (Raise e)) Q1) as [P1 [P2 P3]]; auto; try (rewrite HS1; reflexivity); [exact Logic.I|]. set (x2 := xstep f2 g2 x1) in *.
  assert (R1 : xsteps (xinit test m) x2) by (apply xs_step, xs_step; exact R). assert (F : fails x2 c e) by (split; auto).
  assert (TD1 : ~ test_over (x_core x2)) by (rewrite P3, HS1; unfold test_over; cbn; rewrite Q3, HS; exact TD). assert (CS1 : clock (x_core x2) <> None) by (rewrite P3, HS1; cbn; rewrite Q3, HS; exact CS).
  destruct (C78_stops test m f3 g3 x2 c e x' R1 F P2 G R') as [X Y]. split; [rewrite P3, HS1 in Y; cbn in Y; rewrite Q3, HS in Y; exact Y|]. split; auto. eapply C78_never_passes; eauto.
Qed.
End Thms.
Print Assumptions C78_stops.
Print Assumptions C78_run_ends.
Print Assumptions C78_never_passes.
Print Assumptions C78_runtime_error.
Print Assumptions C78_only_failures.
Print Assumptions C78_mismatch.
Print Assumptions C78_hook_raises.

(** Executing the machine: [n] steps, after each of which the objects [gc] are deleted. *)
Fixpoint xrun {mem} (sh : list id -> list id) (d1 d2 : mem -> mem) (gc : list id) (n : nat) (x : @xstate mem) : @xstate mem := match n with 0 => x | S n' => xrun sh d1 d2 gc n' (xstep sh d1 d2 [] gc x) end.
Lemma xrun_steps {mem} sh (d1 d2 : mem -> mem) gc n : forall x0 x, xsteps sh d1 d2 x0 x -> xsteps sh d1 d2 x0 (xrun sh d1 d2 gc n x).
Proof. induction n as [|n IH]; intros x0 x R; auto. cbn [xrun]. apply IH. now apply xs_step. Qed.

(** The test waits for two cycles; a task it has created and forgotten fails after the first. *)
Definition bg_fails : @prog unit := Try (OEvWait 0) (Raise ValueError).
Definition t_bg : @prog unit := Try OStartClock (Try (OCreate bg_fails) (Try (OEvWait 0) (Try (OEvWait 0) (Ret (VInt 7))))).
Definition bg_at n := xrun ids keep keep [2] n (xinit t_bg tt).
Lemma bg_reach n : xsteps ids keep keep (xinit t_bg tt) (bg_at n). Proof. apply xrun_steps, xs_refl. Qed.
Example C78_nonvacuous : fails (bg_at 25) 2 ValueError /\ unclaimed (bg_at 25) 2 /\ main_waits (x_core (bg_at 25)) /\ ~ test_over (x_core (bg_at 25)) /\ clock (x_core (bg_at 25)) <> None /\
  run_raised (bg_at 32) RuntimeError /\ nstep (x_core (bg_at 25)) = 1 /\ nstep (x_core (bg_at 32)) = 2.
Proof.
  split; [split; [vm_compute; reflexivity|discriminate]|]. split; [split; [vm_compute; intuition discriminate|eexists; split; vm_compute; reflexivity]|].
  split; [split; [unfold unfinished; vm_compute; auto|]; split; [intros b H; vm_compute in H; discriminate|]|].
  - intros [h [H1 H2]]. vm_compute in H1. destruct H1 as [<-|[]]; destruct H2 as [H2|[[e H2]|[f H2]]]; discriminate.
  - split; [vm_compute; discriminate|]. split; [vm_compute; discriminate|]. split; [vm_compute; reflexivity|split; vm_compute; reflexivity].
Qed.
(** The hypotheses of C78_run_ends hold of it. *)
Lemma xrun_add {mem} sh (d1 d2 : mem -> mem) gc n : forall k x, xrun sh d1 d2 gc (n + k) x = xrun sh d1 d2 gc k (xrun sh d1 d2 gc n x).
Proof. induction n as [|n IH]; intros k x; auto. cbn [Nat.add xrun]. apply IH. Qed.
Lemma xrun_halt {mem} sh (d1 d2 : mem -> mem) gc n x : x_stop x = true -> between (x_core x) = true -> xrun sh d1 d2 gc n x = x.
Proof. intros A B. induction n as [|n IH]; auto. cbn [xrun]. unfold xstep at 1. rewrite A, B. exact IH. Qed.
Lemma bg_add n k : bg_at (n + k) = xrun ids keep keep [2] k (bg_at n). Proof. unfold bg_at. apply xrun_add. Qed.
Lemma bg_S n : bg_at (S n) = xstep ids keep keep [] [2] (bg_at n). Proof. rewrite <- (Nat.add_1_r n), bg_add. reflexivity. Qed.
Example C78_nonvacuous_run : bg_at (26 + 0) = xstep ids keep keep [] [2] (bg_at 25) /\ xexecution ids keep keep t_bg tt (fun n => bg_at (26 + n)) /\ xyields (fun n => bg_at (26 + n)).
Proof.
  split; [change (26 + 0) with (S 25); apply bg_S|]. split; [split; [apply bg_reach|]|].
  - intros n. exists [], [2]. rewrite <- plus_n_Sm. apply bg_S.
  - intros n. exists (6 + n). split; [lia|]. replace (26 + (6 + n)) with (32 + n) by lia. rewrite bg_add, xrun_halt by (vm_compute; reflexivity). vm_compute. reflexivity.
Qed.
(** A driver call whose result differs from that of the reference models, and a reference model that raises. *)
Definition differs (v : lval) (m : world) : world * res lval := (m, Exn AssertionError).
Definition t_differs : @prog world := Op OStartClock (fun _ => Op OQNew (fun _ => call the_drv differs models method finally)).
Definition differs_at n := xrun ids keepw keepw [8] n (xinit t_differs world0).
Example C78_nonvacuous_mismatch : cur (x_core (differs_at 121)) = Some (8, BProg (conclude_call the_drv differs (VInt 9))) /\ unclaimed (differs_at 121) 8 /\ ~ test_over (x_core (differs_at 121)) /\ clock (x_core (differs_at 121)) <> None /\
  run_raised (differs_at 132) RuntimeError.
Proof.
  split; [vm_compute; reflexivity|]. split; [split; [vm_compute; intuition discriminate|eexists; split; vm_compute; reflexivity]|]. split; [vm_compute; discriminate|]. split; [vm_compute; discriminate|]. vm_compute; reflexivity.
Qed.
Definition bad_hook : @hook world := mk_hook true 10 (fun m => (m, Exn (UserExn 3))) false.
Definition t_raises : @prog world := Op OStartClock (fun _ => call the_drv no_compare [mk_minfo [] None (Some bad_hook) []] method finally).
Definition raises_at n := xrun ids keepw keepw [1] n (xinit t_raises world0).
Example C78_nonvacuous_hook : (exists todo sb, cur (x_core (raises_at 19)) = Some (1, BHook (wrapper bad_hook) (Some 1) todo sb)) /\ unclaimed (raises_at 19) 1 /\ ~ test_over (x_core (raises_at 19)) /\ run_raised (raises_at 22) RuntimeError.
Proof.
  split; [eexists _, _; vm_compute; reflexivity|]. split; [split; [vm_compute; intuition discriminate|eexists; split; vm_compute; reflexivity]|]. split; [vm_compute; discriminate|]. vm_compute; reflexivity.
Qed.

(** * What is not noticed *)
Lemma xrun_keeping {mem} sh (d1 d2 : mem -> mem) t gc n : ~ In t gc -> forall x0 x, xkeeping sh d1 d2 t x0 x -> xkeeping sh d1 d2 t x0 (xrun sh d1 d2 gc n x).
Proof. intros N. induction n as [|n IH]; intros x0 x R; auto. cbn [xrun]. apply IH. now apply xk_step. Qed.
Lemma xrun_deleting {mem} sh (d1 d2 : mem -> mem) t gc n : In t gc -> forall x0 x, xdeleting sh d1 d2 t x0 x -> xdeleting sh d1 d2 t x0 (xrun sh d1 d2 gc n x).
Proof. intros N. induction n as [|n IH]; intros x0 x R; auto. cbn [xrun]. apply IH. now apply xd_step. Qed.

(** The method of a monitor raises in the first cycle; the agent keeps the task of the monitor (_base_agent.py:207). *)
Definition bad_method (m : unit) : unit * res lval := (m, Exn ValueError).
Definition t_mon : @prog unit := Try OStartClock (Try (OCreate (monitor bad_method (fun _ => []))) (Try (OEvWait 0) (Try (OEvWait 0) (Try (OEvWait 0) (Ret (VInt 7)))))).
Definition mon_at n := xrun ids keep keep [0; 1; 3; 4; 5; 6] n (xinit t_mon tt).
Definition cleanup : @prog unit := Op (OEvWait 1) (fun r => match r with Exn _ => Raise ValueError | Ok _ => Ret VNone end).
Definition clean_at n := xrun ids keep keep [0; 1; 2; 3; 4; 5; 6] n (xinit (t_with cleanup) tt).
Lemma mon_keep n k : xkeeping ids keep keep 2 (mon_at n) (mon_at (n + k)).
Proof. unfold mon_at. rewrite xrun_add. apply xrun_keeping; [simpl; lia|apply xk_refl]. Qed.
(** A test with a monitor: the monitor fails while the test has further cycles to go, nobody waits for it, and run() returns the result of the test. *)
Theorem C79_monitor_failure_refuted : exists (test : @prog unit) method acts t e x1 x2 x3 v, t <> 0 /\
  xkeeping ids keep keep t (xinit test tt) x1 /\ cur (x_core x1) = Some (t, BProg (monitor method acts)) /\ xkeeping ids keep keep t x1 x2 /\ fails x2 t e /\ unclaimed x2 t /\ ~ test_over (x_core x2) /\
  xkeeping ids keep keep t x2 x3 /\ nstep (x_core x2) + 2 <= nstep (x_core x3) /\ run_returned x3 v /\ state_of (x_core x3) t = Some (Finished (Exn e)).
Proof.
  exists t_mon, bad_method, (fun _ => []), 2, ValueError, (mon_at 11), (mon_at (11 + 15)), (mon_at (11 + 15 + 44)), (VInt 7). split; [discriminate|].
  split; [apply (mon_keep 0)|]. split; [vm_compute; reflexivity|]. split; [apply mon_keep|]. split; [split; [vm_compute; reflexivity|discriminate]|].
  split; [split; [vm_compute; intuition discriminate|eexists; split; vm_compute; reflexivity]|]. split; [vm_compute; discriminate|]. split; [apply mon_keep|].
  split; [vm_compute; auto|]. split; vm_compute; reflexivity.
Qed.
Print Assumptions C79_monitor_failure_refuted.

Lemma clean_del n k : xdeleting ids keep keep 2 (clean_at n) (clean_at (n + k)).
Proof. unfold clean_at. rewrite xrun_add. apply xrun_deleting; [simpl; auto|apply xd_refl]. Qed.
(** A task that fails when it is cancelled at the end of the test: cancel_all_tasks gathers it with return_exceptions=True (asynchronous.py:92-100), so
    that its exception is not reported even if nobody keeps the task; run() returns the result of the test. *)
Theorem C80_failure_on_cancel_refuted : exists (test : @prog unit) t e x2 x3 v, t <> 0 /\
  xdeleting ids keep keep t (xinit test tt) x2 /\ test_over (x_core x2) /\ fails x2 t e /\ xdeleting ids keep keep t x2 x3 /\ run_returned x3 v /\ state_of (x_core x3) t = Some (Finished (Exn e)).
Proof.
  exists (t_with cleanup), 2, ValueError, (clean_at 32), (clean_at (32 + 24)), (VInt 7). split; [discriminate|].
  split; [apply (clean_del 0)|]. split; [vm_compute; reflexivity|]. split; [split; [vm_compute; reflexivity|discriminate]|]. split; [apply clean_del|]. split; vm_compute; reflexivity.
Qed.
Print Assumptions C80_failure_on_cancel_refuted.
