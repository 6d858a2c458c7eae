(** C29: the hooks of a driver call. *)
From Coq Require Import List Bool Arith ZArith Lia.
From Verif Require Import Py Prio_Model Loop_Model Loop_Spec Loop2_Spec LoopProg_Model Mon_Model Loop_Proofs Loop2_Proofs Loop3_Proofs Loop4_Proofs Loop9_Proofs Loop10_Proofs Loop13_Proofs Loop14_Proofs Loop15_Proofs Bind_Spec Loop16_Proofs Loop17_Proofs Loop18_Proofs LoopRun_Model LoopRun_Proofs P_Loop P_Loop2 P_Loop3 P_Loop4 Drv_Model Drv_Spec Drv_Proofs.
Import ListNotations.
Open Scope nat_scope.

Section Thms.
Context {mem : Type} (shuffle : list id -> list id) (dut delayers : mem -> mem).
Notation steps := (steps shuffle dut delayers). Notation step := (step shuffle dut delayers). Notation prog := (@prog mem). Notation state := (@state mem). Notation body := (@body mem).
Notation hook := (@hook mem). Notation hook_ran := (hook_ran shuffle dut delayers).
Implicit Types (s : state).
Context (d : @drv mem) (compare : lval -> mem -> mem * res lval).

(** A task that awaits a driver call in a reachable state [s], with any models, any method and anything else going on: in every later state [s'] one of
    the following holds.
    - The method has started, in a state before which every model-first hook of the call has been registered, as one of the distinct events [es], and
      called.  Which hooks are model-first and with which priority they are registered is decided by the attributes of the driver in [s].
    - The call has raised an exception (or was cancelled) without starting the method.
    - The call is still looking at ports and hooks, or waiting for the model-first hooks. *)
Theorem C29_model_first test m mi (func : prog) K s s' t : steps (init test m) s -> runs s t (call d compare mi func K) -> steps s s' ->
  (exists s1 es, steps s s1 /\ steps s1 s' /\ runs s1 t (bindr func (after_body d compare (later_hooks (d_order d (mm s)) mi) K)) /\ NoDup es /\
     Forall2 (hook_ran s s1 t (priority (d_prio d (mm s)))) (first_hooks (d_order d (mm s)) mi) es) \/
  (exists s1 e, steps s s1 /\ steps s1 s' /\ runs s1 t (K (Exn e))) \/
  (exists q, runs s' t q /\ preparing d (then_body d compare func K) (fun e => K (Exn e)) q) \/
  (exists s2 es k, steps s s2 /\ steps s2 s' /\ gathering s2 s' t (map event_wait es) k).
Proof.
  intros R0 Hr R. apply runs_wrap in Hr as [W [HW Hc]]. destruct (items_hooks mi) as [I1 [I2 I3]].
  destruct (setup_track shuffle dut delayers d (then_body d compare func K) (fun e => K (Exn e)) W (flat_map items_of mi) s s' t [] [] [] HW Hc R) as [[s2 [es [A [B [C [[D1 [D2 _]] E]]]]]]|[[s1 [e [A [B C]]]]|[q [A B]]]].
  - cbn [app] in C. unfold firsts in D1. rewrite I1 in D1. rewrite I2, I3 in C. unfold then_body in C.
    destruct (events_track shuffle dut delayers test m W s s2 s' t _ _ _ _ HW R0 A D1 C B) as [[s1 [vs [X1 [X2 [X3 X4]]]]]|[[s1 [e [X1 [X2 X3]]]]|X]].
    + left. exists s1, es. split; [eapply steps_trans; eauto|]. split; auto. split; [apply runs_wrap; exists W; split; [exact HW|exact X3]|]. split; auto.
    + right; left. exists s1, e. split; [eapply steps_trans; eauto|]. split; auto. apply runs_wrap. exists W. auto.
    + right; right; right. exists s2, es. eexists. split; [exact A|]. split; [exact B|exact X].
  - right; left. exists s1, e. split; auto. split; auto. apply runs_wrap. eauto.
  - right; right; left. exists q. split; auto. apply runs_wrap. eauto.
Qed.
(** The method, once started: it is still going on; or it has raised an exception, which the call raises; or it has returned [v], and the dut-first
    hooks [l] are handed to a new task, while the call returns [v]. *)
Theorem C29_method (test : prog) m l (func : prog) K s s' t : steps (init test m) s -> runs s t (bindr func (after_body d compare l K)) -> steps s s' ->
  awaiting s' t (after_body d compare l K) \/
  (exists s1 e, steps s s1 /\ steps s1 s' /\ runs s1 t (K (Exn e))) \/
  (exists s1 v, steps s s1 /\ steps s1 s' /\ (exists k, runs s1 t (Op (OCreate (background d compare l v)) k)) /\ (s' = s1 \/ exists fire, steps (step fire s1) s' /\ runs (step fire s1) t (K (Ok v)))).
Proof.
  intros R0 Hr R. destruct (reach_linked _ _ _ _ _ _ R0) as [WF _]. assert (IN : Inside any t (after_body d compare l K) s).
  { left. destruct Hr as [Hr|Hr]; eexists; (split; [exact Hr|]); apply leads_before; eexists; (split; [apply upto_bindr|]); auto. }
  destruct (inside_track shuffle dut delayers any s s' t _ WF IN R) as [X|[s1 [r [A [B C]]]]].
  - left. apply inside_awaiting; auto. eapply steps_wf; eauto.
  - right. assert (C' : exists W, wrap W /\ cur s1 = Some (t, W (after_body d compare l K r))) by (destruct C as [C|C]; [exists BProg|exists BTest]; unfold wrap; auto). destruct C' as [W [HW Hc]]. destruct r as [v|e].
    + right. exists s1, v. split; auto. split; auto. split; [eexists; apply runs_wrap; exists W; split; [exact HW|exact Hc]|]. destruct (steps_first _ _ _ _ _ B) as [->|[fire B1]]; auto. right. exists fire. split; auto.
      apply runs_wrap. exists W. split; auto. rewrite (step_op shuffle dut delayers W fire s1 t _ _ HW Hc). reflexivity.
    + left. exists s1, e. split; [exact A|]. split; [exact B|]. apply runs_wrap. exists W. split; [exact HW|exact Hc].
Qed.
(** The task [i] created for the dut-first hooks [l] after the method has returned, in every later state:
    - it has come to the comparison of the results; before that it has registered every hook of [l], as one of the distinct events [es], and the hook was
      called after that (the priority being decided by the attribute of the driver when the task starts, in [s0]);
    - it has raised an exception or was cancelled;
    - it has not started, is registering hooks or waiting for them. *)
Theorem C29_dut_first (test : prog) m l v s fire s' : steps (init test m) s -> current_op s = Some (OCreate (background d compare l v)) -> steps (step fire s) s' ->
  let i := List.length (futs s) in
  (exists s0 s1 es, steps s s0 /\ steps s0 s1 /\ steps s1 s' /\ runs s1 i (conclude_call d compare v) /\ NoDup es /\ Forall2 (hook_ran s0 s1 i (priority (d_prio d (mm s0)))) l es) \/
  (exists s1 e, steps s s1 /\ steps s1 s' /\ runs s1 i (Raise e)) \/
  (unfinished s' i /\ (forall b, cur s' <> Some (i, b)) /\ exists k, tget s' i = Some k /\ k_cont k = start (BProg (background d compare l v)) /\ k_wait k = None) \/
  (exists q k kx, runs s' i q /\ registering d k kx q) \/
  (exists s2 es k, steps s s2 /\ steps s2 s' /\ gathering s2 s' i (map event_wait es) k).
Proof.
  intros R0 Ho R i. destruct (reach_linked _ _ _ _ _ _ R0) as [WF _]. assert (SU : Susp i (start (BProg (background d compare l v))) None (step fire s)).
  { assert (X : exists t b, cur s = Some (t, b) /\ exists kk, step fire s = exec_op s t (OCreate (background d compare l v)) kk).
    { unfold current_op in Ho. destruct (cur s) as [[t b]|] eqn:Hc; [|discriminate]. exists t, b. split; auto. unfold Loop_Model.step. rewrite Hc.
      destruct b as [[v0|x|o kk]|[v0|x|o kk] ev todo sb|c|x g r kk|q g r kk|test0|[v0|x|o kk]]; try discriminate; injection Ho as ->; cbn [exec_body]; eauto. }
    destruct X as [t [b [Hc [kk HS]]]]. destruct (cur_task s t b WF Hc) as [cbs [k [w [mu Et]]]]. assert (t < List.length (futs s)) by (apply nth_error_Some; unfold fget in Et; congruence).
    rewrite HS. split; [intros b0 X; cbn in X; injection X as X _; unfold i in X; lia|]. exists [], false. cbn. unfold i. rewrite nth_error_app2, Nat.sub_diag by lia. reflexivity. }
  assert (WF1 : Wf (step fire s)) by now apply step_wf. destruct (susp_track shuffle dut delayers i _ _ _ s' WF1 SU R) as [[X1 [cbs [mu X2]]]|[s1 [fi [r [A [_ [B [C _]]]]]]]].
  - right; right; left. split; [apply live_iff; unfold islive; now rewrite X2|]. split; auto. eexists. split; [unfold tget, fget; rewrite X2; reflexivity|split; reflexivity].
  - assert (RS : steps s (step fi s1)) by (eapply steps_cons; apply steps_step; exact A). assert (R1 : steps (init test m) (step fi s1)) by (eapply steps_trans; eauto). set (s0 := step fi s1) in *. destruct r as [v0|e]; cbn [start] in C.
    2: { right; left. exists s0, e. split; auto. split; auto. left. exact C. }
    assert (HW : @wrap mem BProg) by now left. unfold background in C.
    destruct (reg_all_track shuffle dut delayers d _ Raise BProg l s0 s' i [] HW C B) as [[s2 [es [X1 [X2 [X3 [[X4 [X5 _]] X6]]]]]]|[[s2 [l1 [h [l2 [es [_ [_ [_ [X1 [X2 [X3 _]]]]]]]]]]]|[q [X1 X2]]]].
    + cbn [app] in X3. destruct (events_track shuffle dut delayers test m BProg s0 s2 s' i _ _ _ _ HW R1 X1 X4 X3 X2) as [[s3 [vs [Y1 [Y2 [Y3 Y4]]]]]|[[s3 [e [Y1 [Y2 Y3]]]]|Y]].
      * left. exists s0, s3, es. split; auto. split; [eapply steps_trans; eauto|]. split; auto. split; [left; exact Y3|]. auto.
      * right; left. exists s3, e. split; [eapply steps_trans; [exact RS|eapply steps_trans; eauto]|]. split; auto. left. exact Y3.
      * right; right; right; right. exists s2, es. eexists. split; [eapply steps_trans; eauto|]. split; [exact X2|exact Y].
    + right; left. exists s2, AssertionError. split; [eapply steps_trans; eauto|]. split; auto. left. exact X3.
    + right; right; right; left. exists q. eexists _, _. split; [left; exact X1|exact X2].
Qed.
(** Whatever is registered as [e] is called at most once in any execution. *)
Theorem C29_once (test : prog) m s fire s' h h' e : steps (init test m) s -> calls s h e -> steps (step fire s) s' -> ~ calls s' h' e.
Proof.
  intros R0 [c [todo [sb Hc]]] R [c' [todo' [sb' Hc']]]. assert (E : forall r : res lval, @isend mem ((fun r => match r with Ok _ => Ret VNone | Exn e => Raise e end) r)) by (intros [v|x]; exact I).
  exact (hook_twice shuffle dut delayers test m s e _ _ c todo sb fire s' _ c' todo' sb' R0 E Hc R Hc').
Qed.
End Thms.
Print Assumptions C29_model_first.
Print Assumptions C29_method.
Print Assumptions C29_dut_first.
Print Assumptions C29_once.

(** Two models with a model-first and a dut-first hook each, and a method that takes two clock cycles; the log shows who ran in which order. *)
Record world := mk_world { w_order : option bool; w_prio : option Z; w_log : list nat }.
Definition logs (n : nat) (m : world) : world * res lval := (mk_world (w_order m) (w_prio m) (w_log m ++ [n]), Ok (VInt (Z.of_nat n))).
Definition the_drv : @drv world := mk_drv w_order w_prio (fun o z m => mk_world o z (w_log m)).
Definition hk (first : bool) (z : Z) (n : nat) : @hook world := mk_hook first z (logs n) false.
Definition models : list (@minfo world) := [mk_minfo [] None (Some (hk true 30 1)) [hk false 20 2]; mk_minfo [] None (Some (hk false 40 3)) [hk true 10 4]; mk_minfo [mk_put 0 4 (Ok VNone)] None (Some (hk true 0 5)) []].
Definition method : @prog world := bindr (clock_cycles 2) (fun _ => Op (OMem (logs 7)) (fun _ => Ret (VInt 9))).
Definition no_compare (v : lval) (m : world) : world * res lval := logs 8 m.
Definition finally (r : res lval) : @prog world := Op (OEvWait 0) (fun _ => Op (OEvWait 0) (fun _ => Ret VNone)).
Definition t_call : @prog world := Op OStartClock (fun _ => Op OQNew (fun _ => call the_drv no_compare models method finally)).
Definition world0 : world := mk_world None None [].
Definition keepw (m : world) : world := m.
Definition at_ n := run ids keepw keepw n (init t_call world0).
Example C29_nonvacuous : let s := at_ 5 in let s1 := run ids keepw keepw 48 s in runs s 0 (call the_drv no_compare models method finally) /\ steps ids keepw keepw (init t_call world0) s /\ first_hooks (d_order the_drv (mm s)) models = [hk true 30 1; hk true 10 4] /\
  steps ids keepw keepw s s1 /\ runs s1 0 (bindr method (after_body the_drv no_compare [hk false 40 3; hk false 20 2] finally)) /\ w_log (mm s1) = [4; 1].
Proof.
  intros s s1. split; [right; vm_compute; reflexivity|]. split; [apply run_steps|]. split; [vm_compute; reflexivity|]. split; [apply run_steps|]. split; [right; vm_compute; reflexivity|vm_compute; reflexivity].
Qed.
Example C29_nonvacuous_dut_first : current_op (at_ 74) = Some (OCreate (background the_drv no_compare [hk false 40 3; hk false 20 2] (VInt 9))) /\ w_log (mm (at_ 74)) = [4; 1; 7] /\ List.length (futs (at_ 74)) = 8 /\
  runs (at_ 121) 8 (conclude_call the_drv no_compare (VInt 9)) /\ w_log (mm (at_ 121)) = [4; 1; 7; 2; 3].
Proof. split; [vm_compute; reflexivity|]. split; [vm_compute; reflexivity|]. split; [vm_compute; reflexivity|]. split; [left; vm_compute; reflexivity|vm_compute; reflexivity]. Qed.
Example C29_nonvacuous_once : steps ids keepw keepw (init t_call world0) (at_ 31) /\ calls (at_ 31) (hk true 10 4) 2.
Proof. split; [apply run_steps|]. eexists _, _, _. vm_compute. reflexivity. Qed.
