(** C34: awaiting the clock. *)
From Coq Require Import List Bool Arith ZArith Lia.
From Verif Require Import Py Prio_Model Loop_Model Loop_Spec Loop2_Spec LoopProg_Model Loop_Proofs Loop2_Proofs Loop3_Proofs Loop4_Proofs Loop5_Proofs Loop9_Proofs Loop10_Proofs LoopRun_Model LoopRun_Proofs P_Loop.
Import ListNotations.
Open Scope nat_scope.

CoFixpoint nocancel_bindr {mem} (p : @prog mem) k : nocancel p -> (forall r, r <> Exn CancelledError -> nocancel (k r)) -> nocancel (bindr p k).
Proof.
  intros H Hk. rewrite bindr_unfold. destruct H as [v|e He|o c Ho Hp Hc].
  - apply Hk. discriminate.
  - apply Hk. congruence.
  - apply nc_op; auto.
Defined.
Lemma nocancel_cycles {mem} n : nocancel (clock_cycles n : @prog mem).
Proof. induction n as [|n IH]; [constructor|]. apply nc_op; [exact I|intros p H; inversion H|]. intros [v|e] Hr; [exact IH|]. constructor. congruence. Qed.

Section Thms.
Context {mem : Type} (shuffle : list id -> list id) (dut delayers : mem -> mem).
Notation steps := (steps shuffle dut delayers). Notation step := (step shuffle dut delayers). Notation prog := (@prog mem). Notation state := (@state mem).
Implicit Types (s : state).

(** One await of the clock event, for a task whose body is wrapped by [W]. *)
Lemma wait_one test m s s' t (W : prog -> body) (k : res lval -> prog) : W = BProg \/ W = BTest -> steps (init test m) s -> cur s = Some (t, W (Op (OEvWait 0) k)) -> steps s s' ->
  s' = s \/ (inside_wait s' t 0 /\ nstep s' <= S (nstep s)) \/
  (exists s1, steps s s1 /\ steps s1 s' /\ cur s1 = Some (t, W (k (Ok (VBool true)))) /\ nstep s1 = S (nstep s)) \/
  (exists s1, steps s s1 /\ steps s1 s' /\ cur s1 = Some (t, W (k (Exn CancelledError))) /\ (nocancel test -> tdone s1 = Some true)) \/
  (inside_wait s' t 0 /\ (nocancel test -> tdone s' = Some true)).
Proof.
  intros HW R0 Hc R. pose proof (reach_all _ _ _ _ _ _ R0) as A.
  assert (NCt : forall s1 f (kb : res lval -> body), steps (init test m) s1 -> cur s1 = Some (t, BEv 0 f CE kb) -> nocancel test -> tdone s1 = Some true).
  { intros s1 f kb R1 H1 NT. destruct (reach_nc _ _ _ _ _ _ NT R1) as [_ [_ [_ [_ [X|X]]]]]; auto. exfalso. pose proof (n_cur _ X _ _ H1) as [Y _]. now apply Y. }
  assert (NCf : forall s1 f fu, steps (init test m) s1 -> nth_error (futs s1) f = Some fu -> f_st fu = Canc -> nocancel test -> tdone s1 = Some true).
  { intros s1 f fu R1 H1 H2 NT. destruct (reach_nc _ _ _ _ _ _ NT R1) as [_ [_ [_ [_ [X|X]]]]]; auto. exfalso. destruct (n_ok _ X _ _ H1) as [[Y _] _]. now apply Y. }
  destruct (wait_once shuffle dut delayers t (fun r => W (k r)) _ s s' A Hc) as [->|[X|[X|X]]]; auto.
  - intros fire. exists s. repeat split; auto. unfold Loop_Model.step. rewrite Hc. destruct HW as [->| ->]; reflexivity.
  - right. destruct X as [f [fu [cbs [mu [H1 [H2 [H3 [H4 H5]]]]]]]]. assert (IW : inside_wait s' t 0).
    { left. exists f, fu. split; auto. exists (mk_task (fun r => BEv 0 f r (fun r => W (k r))) (Some f) mu). unfold tget, fget. rewrite H2. auto. }
    destruct H5 as [[_ H5]|[[_ [H5 _]]|H5]]; [left; split; auto; lia|left; split; auto; lia|]. do 3 right. split; auto. apply (NCf s' f fu); auto. eapply steps_trans; eauto.
  - right. destruct X as [f [r [H1 H2]]]. assert (IW : inside_wait s' t 0) by (right; eauto). destruct H2 as [[_ H2]| ->]; [left; split; auto; lia|]. do 3 right. split; auto. eapply NCt; eauto. eapply steps_trans; eauto.
  - right; right. destruct X as [s0 [fire [R1 [R2 X]]]]. assert (R3 : steps s (step fire s0)) by (apply steps_step; auto). pose proof (leaving_step shuffle dut delayers fire _ _ _ _ X) as L.
    destruct X as [f [r [H1 H2]]]. destruct H2 as [[-> H2]| ->].
    + left. exists (step fire s0). split; auto. split; auto. unfold Left_ in L. rewrite nstep_step, H1. unfold Loop_Model.step. rewrite H1. cbn. auto.
    + right. left. exists (step fire s0). split; auto. split; auto. unfold Loop_Model.step. rewrite H1. split; [reflexivity|]. intros NT. cbn [exec_body].
      assert (T0 : tdone s0 = Some true) by (eapply NCt; eauto; eapply steps_trans; eauto). destruct (nth_error (evs s0) 0); exact T0.
Qed.
Lemma cycles_W n : forall test m s s' t (W : prog -> body) (k : res lval -> prog), W = BProg \/ W = BTest -> steps (init test m) s -> cur s = Some (t, W (bindr (clock_cycles n) k)) -> steps s s' ->
  (exists s1, steps s s1 /\ steps s1 s' /\ cur s1 = Some (t, W (k (Ok VNone))) /\ nstep s1 = nstep s + n) \/
  (exists s1, steps s s1 /\ steps s1 s' /\ cur s1 = Some (t, W (k (Exn CancelledError))) /\ (nocancel test -> tdone s1 = Some true)) \/
  (((exists j, cur s' = Some (t, W (bindr (clock_cycles (S j)) k)) /\ j < n) \/ inside_wait s' t 0) /\ (nstep s' <= nstep s + n \/ (inside_wait s' t 0 /\ (nocancel test -> tdone s' = Some true)))).
Proof.
  induction n as [|n IH]; intros test m s s' t W k HW R0 Hc R.
  - left. exists s. split; [apply steps_refl|]. split; auto. rewrite Hc. rewrite bindr_unfold. split; [reflexivity|]. lia.
  - assert (Hc0 := Hc). rewrite bindr_unfold in Hc. cbn [clock_cycles] in Hc. unfold Let in Hc.
    destruct (wait_one test m s s' t W _ HW R0 Hc R) as [->|[[X Y]|[[s1 [R1 [R2 [X Y]]]]|[[s1 [R1 [R2 [X Y]]]]|[X Y]]]]].
    + right; right. split; [left; exists n; split; auto|left; lia].
    + right; right. split; auto. left. lia.
    + cbn [thenv] in X. assert (R01 : steps (init test m) s1) by (eapply steps_trans; eauto).
      destruct (IH test m s1 s' t W k HW R01 X R2) as [[s2 [Q1 [Q2 [Q3 Q4]]]]|[[s2 [Q1 [Q2 [Q3 Q4]]]]|[Q1 Q2]]].
      * left. exists s2. split; [eapply steps_trans; eauto|]. split; auto. split; auto. lia.
      * right; left. exists s2. split; [eapply steps_trans; eauto|]. auto.
      * right; right. split; [destruct Q1 as [[j [Q1 Hj]]|Q1]; auto; left; exists j; split; auto|]. destruct Q2 as [Q2|Q2]; auto. left. lia.
    + right; left. exists s1. split; auto. split; auto. cbn [thenv] in X. rewrite (bindr_unfold (Raise _)) in X. auto.
    + right; right. auto.
Qed.

(** A task that awaits [ClockCycles(x, n)] (or [bundle.step(n)]) in a reachable state [s]: in every later state [s'] either its
    continuation has started, in a state [s1] in which exactly [n] more steps have been made; or it was cancelled (without
    cancellation in the test, only after the test was over); or it is still inside the wait and at most [n] steps have been made
    (or it is being cancelled).  So the continuation starts after exactly [n] steps, and before the step after these. *)
Theorem C34_clock_cycles n (test : prog) m s s' t k : steps (init test m) s -> runs s t (bindr (clock_cycles n) k) -> steps s s' ->
  (exists s1, steps s s1 /\ steps s1 s' /\ runs s1 t (k (Ok VNone)) /\ nstep s1 = nstep s + n) \/
  (exists s1, steps s s1 /\ steps s1 s' /\ runs s1 t (k (Exn CancelledError)) /\ (nocancel test -> tdone s1 = Some true)) \/
  (((exists j, runs s' t (bindr (clock_cycles (S j)) k) /\ j < n) \/ inside_wait s' t 0) /\ (nstep s' <= nstep s + n \/ (inside_wait s' t 0 /\ (nocancel test -> tdone s' = Some true)))).
Proof.
  intros R0 [Hc|Hc] R; [pose proof (cycles_W n test m s s' t BProg k (or_introl eq_refl) R0 Hc R) as X|pose proof (cycles_W n test m s s' t BTest k (or_intror eq_refl) R0 Hc R) as X];
    (destruct X as [[s1 [Q1 [Q2 [Q3 Q4]]]]|[[s1 [Q1 [Q2 [Q3 Q4]]]]|[Q1 Q2]]]; [left; exists s1; unfold runs; auto|right; left; exists s1; unfold runs; auto 6|right; right; split; auto; destruct Q1 as [[j [Q1 Hj]]|Q1]; auto; left; exists j; unfold runs; auto]).
Qed.
(** Without cancellation and before the test is over: the continuation has started once [n + 1] steps have been made, and it started after exactly [n]. *)
Theorem C34_exactly_n n (test : prog) m s s' t k : nocancel test -> steps (init test m) s -> runs s t (bindr (clock_cycles n) k) -> steps s s' -> tdone s' <> Some true ->
  nstep s' <= nstep s + n \/ exists s1, steps s s1 /\ steps s1 s' /\ runs s1 t (k (Ok VNone)) /\ nstep s1 = nstep s + n.
Proof.
  intros NT R0 Hr R T. destruct (C34_clock_cycles n test m s s' t k R0 Hr R) as [X|[[s1 [Q1 [Q2 [Q3 Q4]]]]|[Q1 [Q2|[_ Q2]]]]]; auto; [|now apply T in Q2; auto].
  exfalso. apply T. specialize (Q4 NT). assert (O : Once test s1 /\ Wf s1).
  { assert (R1 : steps (init test m) s1) by (eapply steps_trans; eauto). destruct (reach_nc _ _ _ _ _ _ NT R1) as [A [_ [_ [B _]]]]. auto. }
  clear - Q2 Q4 O. induction Q2 as [s1|s1 s2 fire Q2 IH]; auto. assert (O2 : Once test s2 /\ Wf s2).
  { clear - Q2 O. induction Q2; auto. destruct IHQ2 as [A B]; auto. split; [now apply step_once|now apply step_wf]. }
  apply (step_tdone shuffle dut delayers test); [apply O2|auto].
Qed.
End Thms.
Print Assumptions C34_clock_cycles.
Print Assumptions C34_exactly_n.

(** A background task starts to wait for three cycles after the first step, the test goes on for six; the mark is set after 1 + 3 steps. *)
Definition after3 : @prog unit := Do (OMark 9) (Ret VNone).
Definition sleeper : @prog unit := Do (OEvWait 0) (bindr (clock_cycles 3) (fun _ => after3)).
Definition t_cycles : @prog unit := Do OStartClock (Do (OCreate sleeper) (bindr (clock_cycles 6) (fun _ => Ret VNone))).
Example C34_nonvacuous : nocancel t_cycles /\ exists s s', steps ids keep keep (begin t_cycles) s /\ runs s 2 (bindr (clock_cycles 3) (fun _ => after3)) /\ nstep s = 1 /\
  steps ids keep keep s s' /\ nstep s' = 5 /\ tdone s' = Some false /\ marks s' = [(2, 9, 4)].
Proof.
  split.
  - unfold t_cycles, sleeper, after3. repeat first [apply nocancel_cycles | apply nocancel_bindr | progress intros | match goal with H : part _ _ |- _ => inversion H; subst; clear H end | apply nc_ret | apply nc_raise; congruence | match goal with |- nocancel (thenv _ ?r) => destruct r; cbn [thenv] end | apply nc_op; [exact I| |]].
  - exists (run ids keep keep 25 (begin t_cycles)), (run ids keep keep 46 (run ids keep keep 25 (begin t_cycles))). split; [apply run_steps|]. split; [|split; [|split; [apply run_steps|]]].
    + left. vm_compute. reflexivity.
    + vm_compute. reflexivity.
    + vm_compute. auto.
Qed.
