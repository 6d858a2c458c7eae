(** C96: the calls of asynchronous.py that may wait: Queue.get, Queue.put, Event.wait, sleep. *)
From Coq Require Import List Bool Arith ZArith Lia Permutation.
From Verif Require Import Py Prio_Model Loop_Model Loop_Spec Loop2_Spec Bind_Spec Live_Spec Hook_Spec Prim_Spec LoopProg_Model Prim_Model Loop_Proofs Loop2_Proofs Loop3_Proofs Loop4_Proofs Loop5_Proofs Loop6_Proofs Loop10_Proofs Loop13_Proofs Loop16_Proofs Drv_Proofs Prim_Proofs P_Loop P_Loop3 P_Loop4 P_Hook P_Coro LoopRun_Model LoopRun_Proofs.
Import ListNotations.
Open Scope nat_scope.

Section Thms.
Context {mem : Type} (shuffle : list id -> list id) (dut delayers : mem -> mem).
Notation steps := (steps shuffle dut delayers). Notation step := (step shuffle dut delayers). Notation prog := (@prog mem). Notation state := (@state mem).
Notation taken := (taken shuffle dut delayers).
Implicit Types (s : state).
Context (test : prog) (m : mem).

Lemma inside_awaits s t (K : res lval -> prog) : steps (init test m) s -> Inside any t K s -> awaiting s t K.
Proof. intros R H. apply inside_awaiting; auto. eapply reach_wf; eauto. Qed.

(** [await queue.get()], in any reachable state of any test: as long as the call has not returned, the task is in it.  If it returns [v], then [v] is the one item that the
    task has taken out of the queue since the call.  If it raises, this is a CancelledError (without cancellation, only at the end of the test), and the task has taken
    nothing out of the queue: a cancelled get() loses no item. *)
Theorem C96_get q t (K : res lval -> prog) s s' l : steps (init test m) s -> q < List.length (qs s) -> runs s t (bindr (queue_get q) K) -> taken t q s s' l ->
  (awaiting s' t K /\ List.length l <= 1) \/
  exists y r l1 l2, taken t q s y l1 /\ taken t q y s' l2 /\ l = l1 ++ l2 /\ runs y t (K r) /\
    match r with Ok v => l1 = [v] | Exn e => l1 = [] /\ e = CancelledError /\ (nocancel test -> test_over y) end.
Proof.
  intros R LQ Hr T. apply runs_wrap in Hr as [W [HW Hc]]. destruct (getting_track shuffle dut delayers test m q t K W HW s s' l R LQ Hc T) as [X|[y [r [l1 [l2 [A [B [C [D E]]]]]]]]].
  - left. assert (R' : steps (init test m) s') by (eapply steps_trans; [exact R|eapply taken_steps; eauto]). split; [apply inside_awaits; auto; eapply getting_inside; eauto|].
    destruct X as [[-> _]|[v [-> _]]]; cbn; lia.
  - right. exists y, r, l1, l2. split; auto. split; auto. split; auto. split; auto. apply runs_wrap. eauto.
Qed.
(** A call that has not returned when the clock advances waits for an item that is not there: the queue is empty (or the task is being cancelled). *)
Theorem C96_get_waits q t (K : res lval -> prog) s s' l c : tame test -> steps (init test m) s -> q < List.length (qs s) -> runs s t (bindr (queue_get q) K) -> taken t q s s' l -> at_cycle s' c ->
  (exists y r l1 l2, taken t q s y l1 /\ taken t q y s' l2 /\ l = l1 ++ l2 /\ runs y t (K r) /\
     match r with Ok v => l1 = [v] | Exn e => l1 = [] /\ e = CancelledError /\ (nocancel test -> test_over y) end) \/
  (awaiting s' t K /\ ((l = [] /\ items s' q = []) \/ cancelling s')).
Proof.
  intros TA R LQ Hr T AC. apply runs_wrap in Hr as [W [HW Hc]]. assert (R' : steps (init test m) s') by (eapply steps_trans; [exact R|eapply taken_steps; eauto]).
  destruct (getting_track shuffle dut delayers test m q t K W HW s s' l R LQ Hc T) as [X|[y [r [l1 [l2 [A [B [C [D E]]]]]]]]].
  - assert (NW : forall p, cur s' <> Some (t, W p)) by (intros p Y; unfold at_cycle in AC; rewrite AC in Y; injection Y as _ Y; destruct HW as [->| ->]; discriminate).
    right. split; [apply inside_awaits; auto; eapply getting_inside; eauto|]. destruct X as [[-> [Y|[[f [w SU]]|[[f [v Y]]|[f [Y _]]]]]]|[v [_ Y]]]; try (now apply NW in Y); try (unfold at_cycle in AC; congruence).
    destruct (susp_get shuffle dut delayers test m s' t q f _ w R' SU) as [-> [fu [E KF]]]. pose proof SU as [SU0 [cbs [mu SU1]]]. destruct (cycle_canc shuffle dut delayers test m s' c TA R' AC) as [A _].
    assert (NC : t <> c) by (intros ->; now elim (SU0 _ AC)). assert (LV : islive (futs s') t = true) by (unfold islive; now rewrite SU1). destruct (A t LV NC) as [g [fg [W1 [E1 S1]]]].
    rewrite (waitof_task _ _ _ _ _ _ _ SU1) in W1. injection W1 as <-. rewrite E in E1. injection E1 as <-. assert (WF1 : waits_for s' t f) by (apply waitof_waits; now rewrite (waitof_task _ _ _ _ _ _ _ SU1)).
    destruct S1 as [S1|S1]; [left; split; auto|right; exists t, f; split; auto; now apply (state_of_get _ _ fu)]. apply (C62_no_waiting_getter_at_step shuffle dut delayers test m s' c t q TA R' AC). exists f, fu. auto.
  - left. exists y, r, l1, l2. split; auto. split; auto. split; auto. split; auto. apply runs_wrap. eauto.
Qed.

(** [await queue.put(v)] never waits: after two steps of the task it has returned None, in the same cycle, and [v] is the last item of the queue; other queues are as before. *)
Theorem C96_put q v t (K : res lval -> prog) s f1 f2 : q < List.length (qs s) -> runs s t (bindr (queue_put q v) K) -> let s1 := step f1 s in let s2 := step f2 s1 in
  items s1 q = items s q ++ [v] /\ items s2 q = items s1 q /\ (forall q', q' <> q -> items s2 q' = items s q') /\ runs s2 t (K (Ok VNone)) /\ nstep s2 = nstep s.
Proof.
  intros LQ Hr s1 s2. apply runs_wrap in Hr as [W [HW Hc]]. assert (Hc0 : cur s = Some (t, W (Op (OQPut q v) (fun r => bindr (thenv (fun _ => Let (OFlag true) (fun _ => Ret VNone)) r) K)))) by (rewrite bindr_unfold in Hc; exact Hc).
  destruct (nth_error (qs s) q) as [qu|] eqn:Eq; [|apply nth_error_None in Eq; lia]. assert (Hc1 : cur s1 = Some (t, W (Op (OFlag true) (fun r => bindr (thenv (fun _ => Ret VNone) r) K)))).
  { unfold s1. rewrite (step_op shuffle dut delayers W f1 s t _ _ HW Hc0). cbn [exec_op]. rewrite Eq. cbn [thenv]. unfold Let. rewrite bindr_unfold. reflexivity. }
  assert (I1 : forall x, items s1 x = items s x ++ (if Nat.eqb q x then [v] else [])).
  { intros x. pose proof (items_step shuffle dut delayers f1 s x) as H. fold s1 in H. assert (G : got_by s x = []) by (unfold got_by, looksb, current_op; rewrite Hc0; destruct HW as [->| ->]; reflexivity). rewrite G in H. cbn [app] in H. rewrite <- H. f_equal.
    unfold put_by, current_op. rewrite Hc0. assert (LT : Nat.ltb q (List.length (qs s)) = true) by now apply Nat.ltb_lt. destruct HW as [->| ->]; destruct (Nat.eqb_spec q x) as [->|]; cbn [andb]; rewrite ?LT; reflexivity. }
  assert (I2 : forall x, items s2 x = items s1 x).
  { intros x. pose proof (items_step shuffle dut delayers f2 s1 x) as H. fold s2 in H. assert (G : got_by s1 x = []) by (unfold got_by, looksb, current_op; rewrite Hc1; destruct HW as [->| ->]; reflexivity). rewrite G in H. cbn [app] in H. rewrite <- H.
    assert (P : put_by s1 x = []) by (unfold put_by, current_op; rewrite Hc1; destruct HW as [->| ->]; reflexivity). now rewrite P, app_nil_r. }
  split; [rewrite I1, Nat.eqb_refl; reflexivity|]. split; [apply I2|]. split; [|split].
  - intros q' Hn. rewrite I2, I1. destruct (Nat.eqb_spec q q') as [->|]; [contradiction|]. apply app_nil_r.
  - apply runs_wrap. exists W. split; auto. unfold s2. rewrite (step_op shuffle dut delayers W f2 s1 t _ _ HW Hc1). cbn [exec_op thenv]. rewrite bindr_unfold. reflexivity.
  - unfold s2. rewrite nstep_step, Hc1. unfold s1. destruct HW as [->| ->]; rewrite nstep_step, Hc0; reflexivity.
Qed.

(** [await event.wait()]: it returns (None) only if the event was set at the call or has been set since, by set(), by the clock (the clock event), or by the end of the
    hook that carries it; an exception is a CancelledError. *)
Theorem C96_wait e t (K : res lval -> prog) s s' : steps (init test m) s -> e < List.length (evs s) -> runs s t (bindr (event_wait e) K) -> steps s s' ->
  awaiting s' t K \/
  exists y r, steps s y /\ steps y s' /\ runs y t (K r) /\ match r with Ok v => v = VNone /\ set_since shuffle dut delayers s y e | Exn x => x = CancelledError /\ (nocancel test -> test_over y) end.
Proof.
  intros R LE Hr T. apply runs_wrap in Hr as [W [HW Hc]]. destruct (awaits_track shuffle dut delayers test m e t K W HW s R Hc LE s' T) as [X|[y [r [A [B [D E]]]]]].
  - left. apply inside_awaits; [eapply steps_trans; eauto|]. eapply awaits_inside; eauto.
  - right. exists y, r. split; auto. split; auto. split; auto. apply runs_wrap. eauto.
Qed.

(** [await sleep(0)] returns None, and not before every task that was ready to run at the call has run; an exception is a CancelledError. *)
Theorem C96_sleep0_turns t (K : res lval -> prog) s s' : steps (init test m) s -> runs s t (bindr sleep0 K) -> steps s s' ->
  awaiting s' t K \/
  exists y r, steps s y /\ steps y s' /\ runs y t (K r) /\ match r with Ok v => v = VNone /\ (forall u, runnable s u -> ran_since shuffle dut delayers s y u) | Exn x => x = CancelledError /\ (nocancel test -> test_over y) end.
Proof.
  intros R Hr T. apply runs_wrap in Hr as [W [HW Hc]]. destruct (sleeping_track shuffle dut delayers test m t K W HW s R Hc s' T) as [X|[y [r [A [B [D E]]]]]].
  - left. apply inside_awaits; [eapply steps_trans; eauto|]. eapply sleeping_inside; eauto.
  - right. exists y, r. split; auto. split; auto. split; [apply runs_wrap; eauto|]. destruct r as [v|x]; auto. destruct E as [-> E]. split; auto. intros u Hu. destruct (runnable_owner _ _ Hu) as [h [H1 H2]]. eauto.
Qed.
(** It takes no clock cycle: before the next dut.Step it has returned (or raised CancelledError). *)
Theorem C96_sleep0_same_cycle t (K : res lval -> prog) s s' : (forall l, Permutation l (shuffle l)) -> tame test -> steps (init test m) s -> runs s t (bindr sleep0 K) -> ~ test_over s -> steps s s' -> nstep s < nstep s' ->
  exists y, steps s y /\ steps y s' /\ nstep y = nstep s /\ (runs y t (K (Ok VNone)) \/ (runs y t (K (Exn CancelledError)) /\ (nocancel test -> test_over y))).
Proof.
  intros SH TA R Hr NO T L. destruct (cycle_between shuffle dut delayers test m SH s s' R T L NO) as [z [c [A [B [N [CD _]]]]]]. assert (Rz : steps (init test m) z) by (eapply steps_trans; eauto).
  destruct (done_quiet shuffle dut delayers test m TA SH z c Rz CD) as [[cl Hz] Q]. apply runs_wrap in Hr as [W [HW Hc]].
  destruct (sleeping_track shuffle dut delayers test m t K W HW s R Hc z A) as [X|[y [r [Y1 [Y2 [D E]]]]]].
  - exfalso. destruct X as [->|[[SU _]|[X _]]].
    + rewrite Hc in Hz. destruct HW as [->| ->]; discriminate.
    + destruct SU as [SU0 [cbs [mu SU1]]]. destruct (Q t) as [f [fu [W1 _]]]; [unfold islive; now rewrite SU1|intros ->; now elim (SU0 _ Hz)|]. rewrite (waitof_task _ _ _ _ _ _ _ SU1) in W1. discriminate.
    + rewrite Hz in X. unfold sk in X. destruct HW as [->| ->]; discriminate.
  - exists y. split; auto. split; [eapply steps_trans; eauto|]. split; [pose proof (nstep_le shuffle dut delayers _ _ Y1); pose proof (nstep_le shuffle dut delayers _ _ Y2); lia|].
    destruct r as [v|x]; [left; destruct E as [-> _]|right; destruct E as [-> E]; split; auto]; apply runs_wrap; eauto.
Qed.
End Thms.
Print Assumptions C96_get.
Print Assumptions C96_get_waits.
Print Assumptions C96_put.
Print Assumptions C96_wait.
Print Assumptions C96_sleep0_turns.
Print Assumptions C96_sleep0_same_cycle.

(** A consumer and a listener; the test waits a cycle, puts an item, sets the event and sleeps. *)
Definition pass (r : res lval) : @prog unit := match r with Ok v => Ret v | Exn e => Raise e end.
Definition after_sleep (_ : res lval) : @prog unit := bindr (clock_cycles 2) (fun _ => Ret VNone).
Definition after_put (_ : res lval) : @prog unit := Do (OEvSet 1) (bindr sleep0 after_sleep).
Definition t_prim : @prog unit :=
  Do OQNew (Do OEvNew (Do OStartClock (Do (OCreate (bindr (queue_get 0) pass)) (Do (OCreate (bindr (event_wait 1) pass)) (bindr (clock_cycles 1) (fun _ => bindr (queue_put 0 (VInt 5)) after_put)))))).
Definition prim_at n := run ids keep keep n (begin t_prim).
Lemma prim_steps a b : steps ids keep keep (prim_at a) (prim_at (a + b)).
Proof. unfold prim_at. rewrite run_more. apply run_steps. Qed.
Lemma run_last {mem} sh (d1 d2 : mem -> mem) n s : run sh d1 d2 (Datatypes.S n) s = step sh d1 d2 [] (run sh d1 d2 n s).
Proof. replace (Datatypes.S n) with (n + 1) by lia. rewrite run_more. reflexivity. Qed.
Fixpoint takes (t q a n : nat) : list lval := match n with 0 => [] | Datatypes.S n' => takes t q a n' ++ taken_by (prim_at (a + n')) t q end.
Lemma prim_taken t q a n : taken ids keep keep t q (prim_at a) (prim_at (a + n)) (takes t q a n).
Proof.
  induction n as [|n IH]; [rewrite Nat.add_0_r; constructor|]. rewrite Nat.add_succ_r. unfold prim_at at 2. rewrite run_last. cbn [takes]. now constructor.
Qed.
Example C96_get_nonvacuous : let s := prim_at 14 in let y := prim_at 38 in
  steps ids keep keep (begin t_prim) s /\ 0 < List.length (qs s) /\ runs s 2 (bindr (queue_get 0) pass) /\ taken ids keep keep 2 0 s y [VInt 5] /\ runs y 2 (pass (Ok (VInt 5))).
Proof.
  intros s y. split; [apply run_steps|]. split; [vm_compute; auto|]. split; [left; vm_compute; reflexivity|]. split; [|left; transitivity (Some (2, BProg (bindr (Ret (VInt 5)) pass))); [vm_compute; reflexivity|now rewrite (bindr_unfold (Ret _))]].
  assert (E : takes 2 0 14 24 = [VInt 5]) by (vm_compute; reflexivity). rewrite <- E. apply (prim_taken 2 0 14 24).
Qed.
Lemma t_prim_tame : tame t_prim.
Proof.
  unfold t_prim, after_put, after_sleep. repeat (first [apply all_ret | match goal with |- allp _ (pass ?r) => destruct r; cbn [pass] end | apply allp_bindr | progress intros | match goal with H : part _ _ |- _ => inversion H; subst; clear H end | match goal with |- allp _ (thenv _ ?r) => destruct r; cbn [thenv] end | apply all_op; [exact I| |] | apply all_raise]).
Qed.
Example C96_get_waits_nonvacuous : let s := prim_at 14 in let s' := prim_at 22 in
  tame t_prim /\ steps ids keep keep (begin t_prim) s /\ 0 < List.length (qs s) /\ runs s 2 (bindr (queue_get 0) pass) /\ taken ids keep keep 2 0 s s' [] /\ at_cycle s' 1 /\ items s' 0 = [].
Proof.
  intros s s'. split; [exact t_prim_tame|]. split; [apply run_steps|]. split; [vm_compute; auto|]. split; [left; vm_compute; reflexivity|]. split; [|split; vm_compute; reflexivity].
  assert (E : takes 2 0 14 8 = []) by (vm_compute; reflexivity). rewrite <- E. apply (prim_taken 2 0 14 8).
Qed.
Example C96_put_nonvacuous : let s := prim_at 27 in 0 < List.length (qs s) /\ runs s 0 (bindr (queue_put 0 (VInt 5)) after_put) /\ items s 0 = [] /\ items (prim_at 29) 0 = [VInt 5] /\ runs (prim_at 29) 0 (after_put (Ok VNone)).
Proof. intros s. split; [vm_compute; auto|]. split; [right; transitivity (Some (0, BTest (bindr (Ret VNone) (fun _ => bindr (queue_put 0 (VInt 5)) after_put)))); [vm_compute; reflexivity|now rewrite (bindr_unfold (Ret VNone))]|]. do 2 (split; [vm_compute; reflexivity|]). right. transitivity (Some (0, BTest (bindr (Ret VNone) after_put))); [vm_compute; reflexivity|now rewrite (bindr_unfold (Ret _))]. Qed.
Example C96_wait_nonvacuous : let s := prim_at 16 in let y := prim_at 42 in
  steps ids keep keep (begin t_prim) s /\ 1 < List.length (evs s) /\ runs s 3 (bindr (event_wait 1) pass) /\ ~ event_on s 1 /\ steps ids keep keep s y /\ runs y 3 (pass (Ok VNone)) /\ sets_event (prim_at 29) 1.
Proof.
  intros s y. split; [apply run_steps|]. split; [vm_compute; auto|]. split; [left; vm_compute; reflexivity|]. split; [intros [ev [E V]]; vm_compute in E; injection E as <-; discriminate V|]. split; [apply (prim_steps 16 26)|]. split; [left; transitivity (Some (3, BProg (bindr (Ret VNone) pass))); [vm_compute; reflexivity|now rewrite (bindr_unfold (Ret _))]|]. left. vm_compute. reflexivity.
Qed.
Example C96_sleep0_nonvacuous : let s := prim_at 30 in let y := prim_at 45 in let s' := prim_at 55 in
  steps ids keep keep (begin t_prim) s /\ runs s 0 (bindr sleep0 after_sleep) /\ runnable s 2 /\ runnable s 3 /\ ~ test_over s /\ steps ids keep keep s y /\ steps ids keep keep y s' /\ nstep s < nstep s' /\ nstep y = nstep s /\ runs y 0 (after_sleep (Ok VNone)).
Proof.
  intros s y s'. split; [apply run_steps|]. split; [right; vm_compute; reflexivity|]. split; [exists (HWake 2 5); split; [vm_compute; auto|right; right; eexists; reflexivity]|]. split; [exists (HWake 3 6); split; [vm_compute; auto|right; right; eexists; reflexivity]|].
  split; [vm_compute; discriminate|]. split; [apply (prim_steps 30 15)|]. split; [apply (prim_steps 45 10)|]. split; [vm_compute; auto|]. split; [vm_compute; reflexivity|]. right. transitivity (Some (0, BTest (bindr (Ret VNone) after_sleep))); [vm_compute; reflexivity|now rewrite (bindr_unfold (Ret _))].
Qed.

(** * sleep(d) with d > 0 *)
Definition t_sleep : @prog unit := Do OStartClock (bindr sleep_for pass).
Definition sleep_at n := run ids keep keep n (begin t_sleep).
(** The clock does not stop for a task in sleep(d) with d > 0, however small d is: the number of cycles that pass before it returns has no bound. *)
Theorem C96_sleep_unbounded n : exists s s', steps ids keep keep (begin t_sleep) s /\ runs s 0 (bindr sleep_for pass) /\ nstep s = 0 /\ steps ids keep keep s s' /\ nstep s' = n + 1 /\ ~ test_over s' /\ exists f, waits_for s' 0 f /\ state_of s' f = Some Pending.
Proof.
  assert (P : forall k, run ids keep keep 7 (set_nstep (sleep_at 16) k) = set_nstep (sleep_at 16) (Datatypes.S k)) by (intros k; vm_compute; reflexivity).
  assert (A : forall k, steps ids keep keep (sleep_at 16) (set_nstep (sleep_at 16) (k + 1))).
  { induction k as [|k IH]; [change (set_nstep (sleep_at 16) (0 + 1)) with (set_nstep (sleep_at 16) 1); assert (E : set_nstep (sleep_at 16) 1 = sleep_at 16) by (vm_compute; reflexivity); rewrite E; apply steps_refl|].
    eapply steps_trans; [exact IH|]. cbn [Nat.add]. rewrite <- P. apply run_steps. }
  exists (sleep_at 4), (set_nstep (sleep_at 16) (n + 1)). split; [apply run_steps|]. split; [right; vm_compute; reflexivity|]. split; [vm_compute; reflexivity|].
  split; [eapply steps_trans; [|apply A]; change 16 with (4 + 12); unfold sleep_at; rewrite run_more; apply run_steps|]. split; [reflexivity|]. split; [vm_compute; discriminate|].
  exists 2. split; [eexists; split; vm_compute; reflexivity|vm_compute; reflexivity].
Qed.
Print Assumptions C96_sleep_unbounded.
