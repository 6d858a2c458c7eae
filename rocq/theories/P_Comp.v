(** C70: when the main coroutine of a component begins. *)
From Coq Require Import List Bool Arith ZArith Lia Permutation.
From Verif Require Import Py Prio_Model Loop_Model Loop_Spec Loop2_Spec LoopProg_Model Comp_Model Loop_Proofs Loop2_Proofs Loop3_Proofs Loop4_Proofs Loop5_Proofs Loop6_Proofs Loop10_Proofs Loop13_Proofs Loop23_Proofs Comp_Proofs LoopRun_Model LoopRun_Proofs P_Loop P_Loop2.
Import ListNotations.
Open Scope nat_scope.

(** What the task of a component executes before [main]: the test whether there is a clock, a round of the event loop, the await of the clock event. *)
Inductive before_main {mem} (main : @prog mem) : @prog mem -> Prop :=
| bm_start : before_main main (component main)
| bm_sleep : before_main main (Op OSleep0 (fun r => match r with Ok _ => component main | Exn e => Raise e end))
| bm_wait : before_main main (Let (OEvWait 0) (fun _ => main)).
(** Task [t] is not done and not running; it awaits nothing and will continue with [p]. *)
Definition paused {mem} (s : @state mem) (t : id) (p : prog) : Prop :=
  unfinished s t /\ (forall b, cur s <> Some (t, b)) /\ exists tk, tget s t = Some tk /\ k_wait tk = None /\ (k_cont tk (Ok VNone) = BProg p \/ k_cont tk (Ok VNone) = BTest p).
(** [main] has not begun: the task executes what comes before, is suspended there, or awaits the clock event. *)
Definition not_begun {mem} (s : @state mem) (t : id) (main : prog) : Prop := paused s t (component main) \/ inside_wait s t 0 \/ exists p, runs s t p /\ before_main main p.

Section Thms.
Context {mem : Type} (shuffle : list id -> list id) (dut delayers : mem -> mem) (shuffled : forall l, Permutation l (shuffle l)).
Notation steps := (steps shuffle dut delayers). Notation step := (step shuffle dut delayers). Notation prog := (@prog mem). Notation state := (@state mem).
Implicit Types (s : state).

Lemma susp_paused W t k s (p : prog) : wrap W -> Susp t k None s -> k (Ok VNone) = W p -> paused s t p.
Proof.
  intros HW [Hn [cbs [m E]]] Hk. split; [apply live_iff; unfold islive; now rewrite E|]. split; auto. exists (mk_task k None m). split; [unfold tget, fget; now rewrite E|]. split; auto. destruct HW as [->| ->]; auto.
Qed.
Lemma wrap_runs W s t (p : prog) : wrap W -> cur s = Some (t, W p) -> runs s t p.
Proof. intros [->| ->] H; [now left|now right]. Qed.

(** The task of a component begins to run in a reachable state [s].  In every later state [s'] either [main] has begun, in a state
    [s1] in which exactly one more dut.Step has been made than in [s]; or the task was cancelled before (without cancellation in
    the test, only after the test was over); or [main] has not begun and at most one dut.Step has been made (or the task is being
    cancelled).  Whether the clock was started before, or is started by another task later, does not matter. *)
Theorem C70_main_after_one_step (test main : prog) m s s' t : steps (init test m) s -> runs s t (component main) -> steps s s' ->
  (exists s1, steps s s1 /\ steps s1 s' /\ runs s1 t main /\ nstep s1 = S (nstep s)) \/
  (exists s1, steps s s1 /\ steps s1 s' /\ runs s1 t (Raise CancelledError) /\ (nocancel test -> tdone s1 = Some true)) \/
  (not_begun s' t main /\ (nstep s' <= S (nstep s) \/ (inside_wait s' t 0 /\ (nocancel test -> tdone s' = Some true)))).
Proof.
  intros R0 Hr R. assert (HW : exists W, wrap W /\ cur s = Some (t, W (component main))) by (destruct Hr as [H|H]; [exists BProg|exists BTest]; split; auto; [now left|now right]).
  destruct HW as [W [HW Hc]]. destruct (comp_W shuffle dut delayers test m main W t s s' HW R0 Hc R) as [[s1 [Q1 [Q2 [Q3 Q4]]]]|[[s1 [Q1 [Q2 [Q3 Q4]]]]|[[X Y]|[X Y]]]].
  - left. exists s1. split; auto. split; auto. split; auto. eapply wrap_runs; eauto.
  - right. left. exists s1. split; auto. split; auto. split; auto. eapply wrap_runs; eauto.
  - right. right. split; [|left; lia]. destruct Y as [[_ [Y|[Y|[Y _]]]]|[Y|Y]].
    + right. right. exists (component main). split; [eapply wrap_runs; eauto|constructor].
    + right. right. eexists. split; [eapply wrap_runs; eauto|apply bm_sleep].
    + left. eapply susp_paused; eauto.
    + right. right. exists (component main). split; [eapply wrap_runs; eauto|constructor].
    + right. right. eexists. split; [eapply wrap_runs; eauto|apply bm_wait].
  - right. right. split; [right; now left|]. destruct Y as [Y|Y]; auto.
Qed.
(** Counted from its creation by a task or the test: no dut.Step is made before the task has begun to run (hooks without
    completion event being calm, as in C33), so [main] begins after the first dut.Step that follows the creation and before the
    second, unless the test ends. *)
Theorem C70_after_creation (test main : prog) m s s' t0 k : tame test -> nocancel test -> steps (init test m) s -> runs s t0 (new_component main k) -> steps s s' -> tdone s' <> Some true ->
  s' = s \/ (not_begun s' (List.length (futs s)) main /\ nstep s' <= S (nstep s)) \/
  exists s1, steps s s1 /\ steps s1 s' /\ runs s1 (List.length (futs s)) main /\ nstep s1 = S (nstep s).
Proof.
  intros TA NC R0 Hr R TD. assert (HW : exists W, wrap W /\ cur s = Some (t0, W (new_component main k))) by (destruct Hr as [H|H]; [exists BProg|exists BTest]; split; auto; [now left|now right]).
  destruct HW as [W [HW Hc]]. destruct (steps_first _ _ _ _ _ R) as [->|[fire R1]]; auto. right.
  destruct (born shuffle dut delayers test m main t0 W k fire s R0 HW Hc) as [SU [NT [NS _]]]. assert (RS : steps s (step fire s)) by (apply steps_step, steps_refl).
  assert (R01 : steps (init test m) (step fire s)) by (apply steps_step; exact R0).
  assert (DEAD : forall s1, steps s s1 -> steps s1 s' -> (nocancel test -> tdone s1 = Some true) -> False).
  { intros s1 Q1 Q2 Q3. apply TD. apply (steps_tdone shuffle dut delayers test m s1); auto. exact (steps_trans _ _ _ _ _ _ R0 Q1). }
  destruct (born_track shuffle dut delayers shuffled test m main _ _ s' TA R01 SU NT R1) as [X|[[X1 [X2 _]]|[[s1 [X1 [X2 [X3 X4]]]]|[s1 [X1 [X2 [X3 X4]]]]]]].
  - contradiction.
  - left. split; [left; exact (susp_paused BProg _ _ _ _ (or_introl eq_refl) X2 eq_refl)|lia].
  - assert (RS1 : steps s s1) by (exact (steps_trans _ _ _ _ _ _ RS X1)). assert (R0s1 : steps (init test m) s1) by (exact (steps_trans _ _ _ _ _ _ R0 RS1)).
    destruct (C70_main_after_one_step test main m s1 s' _ R0s1 (or_introl X4) X2) as [[s2 [Q1 [Q2 [Q3 Q4]]]]|[[s2 [Q1 [Q2 [Q3 Q4]]]]|[Q1 Q2]]].
    + right. exists s2. split; [exact (steps_trans _ _ _ _ _ _ RS1 Q1)|]. split; auto. split; auto. lia.
    + exfalso. apply (DEAD s2); auto. exact (steps_trans _ _ _ _ _ _ RS1 Q1).
    + left. split; auto. destruct Q2 as [Q2|[_ Q2]]; [lia|]. now apply Q2 in NC.
  - exfalso. apply (DEAD s1); auto. exact (steps_trans _ _ _ _ _ _ RS X1).
Qed.
End Thms.
Print Assumptions C70_main_after_one_step.
Print Assumptions C70_after_creation.

(** One component is created before the clock is started, another after the first step; their coroutines begin after steps 1 and 2. *)
Definition main_a : @prog unit := Do (OMark 1) (Do (OEvWait 0) (Do (OMark 2) (Ret VNone))).
Definition main_b : @prog unit := Do (OMark 3) (Ret VNone).
Definition then_clock : @prog unit := Do OSleep0 (Do OStartClock (Do (OEvWait 0) (Do (OCreate (component main_b)) (bindr (clock_cycles 4) (fun _ => Ret VNone))))).
Definition t_comp : @prog unit := new_component main_a (fun _ => then_clock).
CoFixpoint nocancel_component {mem} (main : @prog mem) : nocancel main -> nocancel (component main).
Proof.
  intros H. rewrite component_unfold. apply nc_op; [exact I|intros p X; inversion X|]. intros [[|[|]|z|n|l]|e] He; cbn [look_k]; try (apply nc_op; [exact I|intros p X; inversion X|]; intros [v|e] Hr; [apply nocancel_component; exact H|constructor; congruence]).
  - apply nc_op; [exact I|intros p X; inversion X|]. intros [v|e] Hr; [exact H|constructor; congruence].
  - constructor. congruence.
Qed.
CoFixpoint tame_component {mem} (main : @prog mem) : tame main -> tame (component main).
Proof.
  intros H. rewrite component_unfold. apply all_op; [exact I|intros p X; inversion X|]. intros [[|[|]|z|n|l]|e]; cbn [look_k]; try (apply all_op; [exact I|intros p X; inversion X|]; intros [v|e]; [apply tame_component; exact H|constructor]).
  - apply all_op; [exact I|intros p X; inversion X|]. intros [v|e]; [exact H|constructor].
  - constructor.
Qed.
Lemma tame_cycles {mem} n : tame (clock_cycles n : @prog mem).
Proof. induction n as [|n IH]; [constructor|]. apply all_op; [exact I|intros p H; inversion H|]. intros [v|e]; [exact IH|constructor]. Qed.
CoFixpoint tame_bindr {mem} (p : @prog mem) k : tame p -> (forall r, tame (k r)) -> tame (bindr p k).
Proof. intros H Hk. rewrite bindr_unfold. destruct H as [v|e|o c Ho Hp Hc]; [apply Hk|apply Hk|]. apply all_op; auto. intros r. apply tame_bindr; auto. apply Hc. Qed.
Example C70_nonvacuous : tame t_comp /\ nocancel t_comp /\ exists s s', steps ids keep keep (begin t_comp) s /\ runs s 0 (new_component main_a (fun _ => then_clock)) /\ nstep s = 0 /\ clock s = None /\
  steps ids keep keep s s' /\ tdone s' = Some false /\ nstep s' = 2 /\ marks s' = [(1, 1, 1); (1, 2, 2); (5, 3, 2)].
Proof.
  split; [|split].
  - unfold t_comp, new_component, Let, then_clock, main_a, main_b, Do. repeat first [apply tame_cycles | apply tame_bindr | apply tame_component | progress intros | match goal with H : part _ _ |- _ => inversion H; subst; clear H end | apply all_ret | apply all_raise | match goal with |- allp _ (thenv _ ?r) => destruct r; cbn [thenv] | |- tame (thenv _ ?r) => destruct r; cbn [thenv] end | apply all_op; [exact I| |]].
  - unfold t_comp, new_component, Let, then_clock, main_a, main_b, Do. repeat first [apply nocancel_cycles | apply nocancel_bindr | apply nocancel_component | progress intros | match goal with H : part _ _ |- _ => inversion H; subst; clear H end | apply nc_ret | apply nc_raise; congruence | match goal with |- nocancel (thenv _ ?r) => destruct r; cbn [thenv] end | apply nc_op; [exact I| |]].
  - exists (run ids keep keep 3 (begin t_comp)), (run ids keep keep 57 (run ids keep keep 3 (begin t_comp))). split; [apply run_steps|]. split; [right; vm_compute; reflexivity|]. split; [vm_compute; reflexivity|]. split; [vm_compute; reflexivity|]. split; [apply run_steps|]. vm_compute. auto.
Qed.
