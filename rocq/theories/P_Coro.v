(** C95: what a driver call does when a hook is a coroutine function or the arguments do not fit. *)
From Coq Require Import List Bool Arith ZArith Lia.
From Verif Require Import Py Prio_Model Loop_Model Loop_Spec Loop2_Spec LoopProg_Model Mon_Model Loop_Proofs Loop2_Proofs Loop3_Proofs Loop4_Proofs Loop9_Proofs Loop10_Proofs Loop13_Proofs Loop14_Proofs Loop15_Proofs Bind_Spec Loop16_Proofs Loop17_Proofs Loop18_Proofs LoopRun_Model LoopRun_Proofs P_Loop P_Loop2 P_Loop3 P_Loop4 Drv_Model Drv_Spec Drv_Proofs P_Drv Hook_Spec P_Hook.
Import ListNotations.
Open Scope nat_scope.

Lemma duties_items {mem} (i : @minfo mem) : duties i = map duty_of (items_of i).
Proof.
  unfold duties, items_of. destruct i as [aps [dp|] dh ah]; cbn [mi_dport mi_aports mi_dhook mi_ahooks].
  - assert (E : map duty_of (map IPut aps ++ opt IPut (Some dp)) = map (@Deliver mem) (aps ++ [dp])) by (rewrite !map_app, map_map; reflexivity). destruct aps as [|a aps]; [reflexivity|]. cbn [app]. symmetry. exact E.
  - destruct aps as [|a aps]; cbn [app].
    + rewrite !map_app, map_map. destruct dh; reflexivity.
    + cbn [map opt duty_of app]. rewrite !app_nil_r. cbn [map]. rewrite map_map. reflexivity.
Qed.
Lemma duties_all {mem} (mi : list (@minfo mem)) : flat_map duties mi = map duty_of (flat_map items_of mi).
Proof. induction mi as [|i mi IH]; auto. cbn [flat_map]. now rewrite duties_items, IH, map_app. Qed.
Lemma asked_items {mem} o (l : list (@item mem)) : asked o (map duty_of l) = firsts o l.
Proof. unfold asked, firsts. induction l as [|x l IH]; auto. cbn [map flat_map]. rewrite IH, filter_app. destruct x; cbn [duty_of ihook filter]; auto. Qed.
(** All hooks before which the method does not start are among the duties. *)
Lemma asked_first {mem} o (mi : list (@minfo mem)) : asked o (flat_map duties mi) = first_hooks o mi.
Proof. rewrite duties_all, asked_items. unfold firsts, first_hooks. f_equal. apply items_hooks. Qed.

Section Thms.
Context {mem : Type} (shuffle : list id -> list id) (dut delayers : mem -> mem).
Notation steps := (steps shuffle dut delayers). Notation step := (step shuffle dut delayers). Notation prog := (@prog mem). Notation state := (@state mem). Notation body := (@body mem).
Notation hook := (@hook mem). Notation hook_ran := (hook_ran shuffle dut delayers). Notation registered := (Drv_Spec.registered shuffle dut delayers).
Implicit Types (s : state).
Context (d : @drv mem) (compare : lval -> mem -> mem * res lval).

(** A task that awaits a driver call in a reachable state [s], with any models whose ports exist, any method and anything else going on: in every later state
    [s'] one of the following holds.
    - The method has started.  Then everything that was to be done before could be done: the arguments fit, no hook to be called before is a coroutine function;
      and these hooks have all been called.
    - The call has raised the exception of the first thing [x] that could not be done.  Nothing after it was looked at; the hooks before it have been
      registered, the messages before it delivered (or dropped at a full port).
    - The call could do everything, but raises an exception (it was cancelled) while it waits for the hooks.
    - The call is still looking at ports and hooks, or waiting for the hooks. *)
Theorem C95_call test m mi (func : prog) K s s' t : steps (init test m) s -> runs s t (call d compare mi func K) -> (forall u, In (Deliver u) (flat_map duties mi) -> u_q u < List.length (qs s)) -> steps s s' ->
  let o := d_order d (mm s) in let z := priority (d_prio d (mm s)) in
  (Forall (possible o) (flat_map duties mi) /\ exists s1 es, steps s s1 /\ steps s1 s' /\ runs s1 t (bindr func (after_body d compare (later_hooks o mi) K)) /\ NoDup es /\ Forall2 (hook_ran s s1 t z) (first_hooks o mi) es) \/
  (exists before x after e, flat_map duties mi = before ++ x :: after /\ Forall (possible o) before /\ raises o x e /\
     exists s1 es, steps s s1 /\ steps s1 s' /\ runs s1 t (K (Exn e)) /\ NoDup es /\ Forall2 (registered s s1 t z) (asked o before) es /\ (forall u, In (Deliver u) before -> delivered shuffle dut delayers s s1 t u)) \/
  (Forall (possible o) (flat_map duties mi) /\ exists s1 e, steps s s1 /\ steps s1 s' /\ runs s1 t (K (Exn e))) \/
  (exists q, runs s' t q /\ preparing d (then_body d compare func K) (fun e => K (Exn e)) q) \/
  (Forall (possible o) (flat_map duties mi) /\ exists s2 es k, steps s s2 /\ steps s2 s' /\ gathering s2 s' t (map event_wait es) k).
Proof.
  intros R0 Hr EX R o z. apply runs_wrap in Hr as [W [HW Hc]]. destruct (items_hooks mi) as [I1 [I2 I3]]. assert (DI := duties_all mi).
  assert (PO : forall l : list (@item mem), Forall (good o) l -> Forall (possible o) (map duty_of l)) by (intros l H; apply Forall_map; exact H).
  destruct (setup_track_full shuffle dut delayers d (then_body d compare func K) (fun e => K (Exn e)) W (flat_map items_of mi) s s' t [] [] [] HW Hc R) as [[s2 [es [A [B [C [[D1 [D2 _]] [E [G _]]]]]]]]|[[s1 [e X]]|[q [A B]]]].
  - apply PO in G. rewrite <- DI in G. cbn [app] in C. unfold firsts in D1. rewrite I1 in D1. rewrite I2, I3 in C. unfold then_body in C.
    destruct (events_track shuffle dut delayers test m W s s2 s' t _ _ _ _ HW R0 A D1 C B) as [[s1 [vs [X1 [X2 [X3 X4]]]]]|[[s1 [e [X1 [X2 X3]]]]|X]].
    + left. split; [exact G|]. exists s1, es. split; [eapply steps_trans; eauto|]. split; auto. split; [apply runs_wrap; exists W; split; [exact HW|exact X3]|]. split; auto.
    + right; right; left. split; [exact G|]. exists s1, e. split; [eapply steps_trans; eauto|]. split; auto. apply runs_wrap. exists W. auto.
    + right; right; right; right. split; [exact G|]. exists s2, es. eexists. split; [exact A|]. split; [exact B|exact X].
  - right; left. destruct X as [l1 [x [l2 [es [Y1 [Y2 [Y3 [Y4 [Y5 [Y6 [[Y7 [Y8 _]] Y9]]]]]]]]]]]. exists (map duty_of l1), (duty_of x), (map duty_of l2), e. split; [rewrite DI, Y1, map_app; reflexivity|]. split; [apply PO; exact Y2|].
    split; [destruct Y3 as [Y3|Y3]; [exact Y3|]; exfalso; destruct x as [u|h|h]; auto; assert (In (Deliver u) (flat_map duties mi)) by (rewrite DI, Y1, map_app; apply in_or_app; right; left; reflexivity); specialize (EX u H); lia|].
    exists s1, es. split; auto. split; auto. split; [apply runs_wrap; exists W; auto|]. split; auto. rewrite asked_items. split; [exact Y7|]. intros u Hu. apply in_map_iff in Hu as [y [E0 Hy]]. rewrite Forall_forall in Y9. specialize (Y9 y Hy). destruct y; try discriminate E0. injection E0 as ->. exact Y9.
  - right; right; right; left. exists q. split; auto. apply runs_wrap. eauto.
Qed.
(** Whatever became of the call: the hooks that it has registered are called before the clock goes on. *)
Theorem C95_still_called (test : prog) m s s1 s' t z h e c : plain_hooks test -> steps (init test m) s -> registered s s1 t z h e -> steps s1 s' -> cycle_done s' c -> exists y, steps s y /\ steps y s' /\ calls y h e.
Proof.
  intros PH R0 [x [fire [A [[[k Hr] ->] B]]]] R Hc. assert (RG : registers x (wrapper h) true) by (destruct Hr as [Hr|Hr]; eexists _, _, _; eauto).
  destruct (C74_before_step shuffle dut delayers test m (wrapper h) true x fire s' c PH (steps_trans _ _ _ _ _ _ R0 A) RG (steps_trans _ _ _ _ _ _ B R) Hc) as [y [Y1 [Y2 Y3]]]. exists y. split; [eapply steps_trans; eauto|]. split; auto.
Qed.
(** The task [i] with the program [p] has not run yet. *)
Definition not_started s (i : id) (p : prog) : Prop := unfinished s i /\ (forall b, cur s <> Some (i, b)) /\ exists k, tget s i = Some k /\ k_cont k = start (BProg p) /\ k_wait k = None.
Lemma susp_new s i p : Susp i (start (BProg p)) None s -> not_started s i p.
Proof. intros [A [cbs [mu B]]]. split; [apply live_iff; unfold islive; now rewrite B|]. split; auto. eexists. split; [unfold tget, fget; rewrite B; reflexivity|split; reflexivity]. Qed.
(** The task of the dut-first hooks [l], created when the method has returned [v] (which the call then returns, [C29_method]), in every later state:
    - it has come to the comparison, and no hook of [l] is a coroutine function;
    - it has raised AssertionError at the first coroutine function [h]; those before it have been registered;
    - no hook of [l] is a coroutine function, but it has raised another exception (it was cancelled) while waiting for them;
    - it was made to raise (cancelled) before its first instruction;
    - it has not started, is registering hooks or waiting for them, the latter only if none is a coroutine function. *)
Theorem C95_background (test : prog) m l v s fire s' : steps (init test m) s -> current_op s = Some (OCreate (background d compare l v)) -> steps (step fire s) s' ->
  let i := List.length (futs s) in let plain := Forall (fun h => h_coro h = false) in
  (plain l /\ exists s1, steps s s1 /\ steps s1 s' /\ runs s1 i (conclude_call d compare v)) \/
  (exists before h after, l = before ++ h :: after /\ plain before /\ h_coro h = true /\
     exists s0 s1 es, steps s s0 /\ steps s0 s1 /\ steps s1 s' /\ runs s1 i (Raise AssertionError) /\ NoDup es /\ Forall2 (registered s0 s1 i (priority (d_prio d (mm s0)))) before es) \/
  (plain l /\ exists s1 e, steps s s1 /\ steps s1 s' /\ runs s1 i (Raise e)) \/
  (exists s0 fi e, steps s s0 /\ not_started s0 i (background d compare l v) /\ runs (step fi s0) i (Raise e) /\ steps (step fi s0) s') \/
  not_started s' i (background d compare l v) \/
  (exists q k kx, runs s' i q /\ registering d k kx q) \/
  (plain l /\ exists s2 es k, steps s s2 /\ steps s2 s' /\ gathering s2 s' i (map event_wait es) k).
Proof.
  intros R0 Ho R i plain. destruct (reach_linked _ _ _ _ _ _ R0) as [WF _]. pose proof (made_susp shuffle dut delayers test m _ s fire R0 Ho) as SU. fold i in SU.
  assert (WF1 : Wf (step fire s)) by now apply step_wf. destruct (susp_track shuffle dut delayers i _ _ _ s' WF1 SU R) as [X|[s1 [fi [r [A [SU1 [B [C _]]]]]]]]; [right; right; right; right; left; now apply susp_new|].
  assert (RS1 : steps s s1) by (eapply steps_cons; exact A). assert (RS : steps s (step fi s1)) by (apply steps_step; exact RS1). assert (R1 : steps (init test m) (step fi s1)) by (eapply steps_trans; eauto). destruct r as [v0|e]; cbn [start] in C.
  2: { right; right; right; left. exists s1, fi, e. split; auto. split; [now apply susp_new|]. split; [left; exact C|exact B]. }
  set (s0 := step fi s1) in *. assert (HW : @wrap mem BProg) by now left. unfold background in C.
  destruct (reg_all_track shuffle dut delayers d _ Raise BProg l s0 s' i [] HW C B) as [[s2 [es [X1 [X2 [X3 [[X4 [X5 _]] [X6 X7]]]]]]]|[[s2 [l1 [h [l2 [es [Y1 [Y2 [Y3 [X1 [X2 [X3 [X4 [X5 _]]]]]]]]]]]]]|[q [X1 X2]]]].
  - cbn [app] in X3. destruct (events_track shuffle dut delayers test m BProg s0 s2 s' i _ _ _ _ HW R1 X1 X4 X3 X2) as [[s3 [vs [Z1 [Z2 [Z3 Z4]]]]]|[[s3 [e [Z1 [Z2 Z3]]]]|Z]].
    + left. split; auto. exists s3. split; [eapply steps_trans; [exact RS|eapply steps_trans; eauto]|]. split; auto. left. exact Z3.
    + right; right; left. split; auto. exists s3, e. split; [eapply steps_trans; [exact RS|eapply steps_trans; eauto]|]. split; auto. left. exact Z3.
    + right; right; right; right; right; right. split; auto. exists s2, es. eexists. split; [eapply steps_trans; eauto|]. split; [exact X2|exact Z].
  - right; left. exists l1, h, l2. split; auto. split; auto. split; auto. exists s0, s2, es. split; auto. split; auto. split; auto. split; [left; exact X3|]. split; auto.
  - right; right; right; right; right; left. exists q. eexists _, _. split; [left; exact X1|exact X2].
Qed.
End Thms.
Print Assumptions C95_call.
Print Assumptions C95_background.
Print Assumptions C95_still_called.

(** Three models: a hook, an agent hook that is a coroutine function, a hook that is never looked at. *)
Definition ck (first : bool) (z : Z) (n : nat) : @hook world := mk_hook first z (logs n) true.
Definition coro_models : list (@minfo world) := [mk_minfo [] None (Some (hk true 30 1)) []; mk_minfo [mk_put 0 4 (Ok VNone)] None None []; mk_minfo [] None None [hk false 10 2; ck true 10 3]; mk_minfo [] None (Some (hk true 5 4)) []].
Definition t_coro : @prog world := Op OStartClock (fun _ => Op OQNew (fun _ => call the_drv no_compare coro_models method finally)).
Definition coro_at n := run ids keepw keepw n (init t_coro world0).
Example C95_nonvacuous : let s := coro_at 5 in let s1 := run ids keepw keepw 8 s in steps ids keepw keepw (init t_coro world0) s /\ runs s 0 (call the_drv no_compare coro_models method finally) /\ (forall u, In (Deliver u) (flat_map duties coro_models) -> u_q u < List.length (qs s)) /\
  flat_map duties coro_models = [Ask (hk true 30 1); Deliver (mk_put 0 4 (Ok VNone)); Ask (hk false 10 2)] ++ Ask (ck true 10 3) :: [Ask (hk true 5 4)] /\ raises (d_order the_drv (mm s)) (Ask (ck true 10 3)) AssertionError /\ asked (d_order the_drv (mm s)) [Ask (hk true 30 1); Deliver (mk_put 0 4 (Ok VNone)); Ask (hk false 10 2)] = [hk true 30 1] /\
  runs s1 0 (finally (Exn AssertionError)).
Proof.
  intros s s1. split; [apply run_steps|]. split; [right; vm_compute; reflexivity|]. split; [intros u [X|[X|[X|[X|[X|[]]]]]]; try discriminate X; injection X as <-; vm_compute; auto|]. split; [reflexivity|]. split; [vm_compute; auto|]. split; [vm_compute; reflexivity|]. right; vm_compute; reflexivity.
Qed.
Lemma run_more {mem} sh (d1 d2 : mem -> mem) n k : forall s, run sh d1 d2 (n + k) s = run sh d1 d2 k (run sh d1 d2 n s).
Proof. induction n as [|n IH]; intros s; [reflexivity|]. cbn [Nat.add run]. apply IH. Qed.
(** So a call that raises before its method is not without effect: the message is in the port of the second model, and after the call has raised, the hook of the
    first model is called, with the arguments of a call that the DUT has never seen. *)
Theorem C95_effects_remain : let h := hk true 30 1 in exists s s1 s2 e, steps ids keepw keepw (init t_coro world0) s /\ runs s 0 (call the_drv no_compare coro_models method finally) /\ w_log (mm s) = [] /\ items s 0 = [] /\
  steps ids keepw keepw s s1 /\ runs s1 0 (finally (Exn AssertionError)) /\ items s1 0 = [VNone] /\ steps ids keepw keepw s1 s2 /\ calls s2 h e /\ w_log (mm (coro_at 41)) = [1] /\ steps ids keepw keepw s2 (coro_at 41).
Proof.
  intros h. exists (coro_at 5), (run ids keepw keepw 8 (coro_at 5)), (run ids keepw keepw 17 (coro_at 5)). eexists. split; [apply run_steps|]. split; [right; vm_compute; reflexivity|]. do 2 (split; [vm_compute; reflexivity|]). split; [apply run_steps|]. split; [right; vm_compute; reflexivity|]. split; [vm_compute; reflexivity|].
  split; [change 17 with (8 + 9); rewrite run_more; apply run_steps|]. split; [eexists _, _, _; vm_compute; reflexivity|]. split; [vm_compute; reflexivity|]. change (coro_at 41) with (run ids keepw keepw (5 + (17 + 19)) (init t_coro world0)). rewrite run_more, run_more. apply run_steps.
Qed.
Print Assumptions C95_effects_remain.
(** A dut-first agent hook that is a coroutine function: the method has returned 9, the call returns it, the background task raises. *)
Definition t_bad : @prog world := Op OStartClock (fun _ => call the_drv no_compare [mk_minfo [] None (Some (hk false 30 1)) [ck false 10 3]] method finally).
Definition bad_at n := run ids keepw keepw n (init t_bad world0).
Example C95_nonvacuous_background : let l := [hk false 30 1; ck false 10 3] in current_op (bad_at 32) = Some (OCreate (background the_drv no_compare l (VInt 9))) /\ steps ids keepw keepw (init t_bad world0) (bad_at 32) /\ List.length (futs (bad_at 32)) = 4 /\
  runs (bad_at 33) 0 (finally (Ok (VInt 9))) /\ runs (bad_at 41) 4 (Raise AssertionError) /\ w_log (mm (bad_at 90)) = [7; 1].
Proof. intros l. split; [vm_compute; reflexivity|]. split; [apply run_steps|]. split; [vm_compute; reflexivity|]. split; [right; vm_compute; reflexivity|]. split; [left; vm_compute; reflexivity|vm_compute; reflexivity]. Qed.
Lemma t_coro_plain : plain_hooks t_coro.
Proof.
  assert (OP : forall (o : @op world (@prog world)) k, match o with OPrio p _ dn => dn = true /\ exists h, p = wrapper h | _ => True end -> (forall p, part o p -> allp plain_op p) -> (forall r, allp plain_op (k r)) -> allp plain_op (Op o k)).
  { intros o k A B C. apply all_op; auto. destruct o; cbn; auto. destruct A as [_ [h0 ->]]. apply instant_wrapper. }
  unfold plain_hooks, t_coro. do 2 (apply OP; [exact Logic.I|intros p X; inversion X|intros _]). apply q_call with (g := fun _ => True); auto.
  - intros o k A B C. apply OP; auto. destruct o; auto.
  - intros v. apply all_ret.
  - intros e _. apply all_raise.
  - intros i _. destruct i; cbn; unfold sound; auto.
  - intros k HK. unfold method. apply allp_bindr; auto. apply allp_bindr; [|intros r; apply OP; [exact Logic.I|intros p X; inversion X|intros _; apply all_ret]].
    cbn [clock_cycles]. unfold Let. apply OP; [exact Logic.I|intros p X; inversion X|intros [v|e]; cbn [thenv]; [|apply all_raise]]. apply OP; [exact Logic.I|intros p X; inversion X|intros [w|e]; cbn [thenv]; [apply all_ret|apply all_raise]].
  - intros r _. unfold finally. repeat (apply OP; [exact Logic.I|intros p X; inversion X|intros _]). apply all_ret.
Qed.
Lemma run_after {mem} sh (d1 d2 : mem -> mem) n s : steps sh d1 d2 (step sh d1 d2 [] s) (run sh d1 d2 n (run sh d1 d2 1 s)).
Proof. exact (run_steps sh d1 d2 n (step sh d1 d2 [] s)). Qed.
(** The rejected call of [C95_nonvacuous] meets the hypotheses: its first hook was registered, and a cycle ends. *)
Example C95_nonvacuous_still : plain_hooks t_coro /\ registered ids keepw keepw (coro_at 5) (coro_at 13) 0 (priority None) (hk true 30 1) 1 /\ steps ids keepw keepw (coro_at 13) (coro_at 31) /\ exists c, cycle_done (coro_at 31) c.
Proof.
  split; [exact t_coro_plain|]. split; [|split; [change 31 with (13 + 18); unfold coro_at; rewrite run_more; apply run_steps|eexists; left; vm_compute; reflexivity]].
  exists (coro_at 7), []. split; [change 7 with (5 + 2); unfold coro_at; rewrite run_more; apply run_steps|]. split; [split; [eexists; right; vm_compute; reflexivity|vm_compute; reflexivity]|].
  assert (E : run ids keepw keepw 5 (run ids keepw keepw 1 (coro_at 7)) = coro_at 13) by (unfold coro_at; rewrite <- !run_more; reflexivity). rewrite <- E. apply run_after.
Qed.
