(** C33: dut.Step and the tasks of the loop. *)
From Coq Require Import List Bool Arith ZArith Lia.
From Verif Require Import Py Prio_Model Loop_Model Loop_Spec Loop_Proofs Loop2_Proofs Loop3_Proofs Loop4_Proofs Loop5_Proofs Loop6_Proofs LoopRun_Model LoopRun_Proofs.
Import ListNotations.
Open Scope nat_scope.

Lemma unfinished_live {mem} (s : @state mem) t : unfinished s t -> islive (futs s) t = true.
Proof. intros H. now apply live_iff. Qed.
Lemma waitof_waits {mem} (s : @state mem) t f : waitof (futs s) t = Some (Some f) -> waits_for s t f.
Proof. unfold waitof, waits_for, tget, fget. destruct (nth_error (futs s) t) as [[st cbs []]|]; try discriminate. intros H. injection H as H. eauto. Qed.
Lemma state_of_get {mem} (s : @state mem) f fu st : nth_error (futs s) f = Some fu -> f_st fu = st -> state_of s f = Some st.
Proof. unfold state_of, fget. intros -> <-. reflexivity. Qed.
Lemma runnable_owner {mem} (s : @state mem) t : runnable s t -> exists h, In h (ready s) /\ owner h = Some t.
Proof. intros [h [H [->|[[e ->]|[f ->]]]]]; eauto. Qed.

Section Thms.
Context {mem : Type} (shuffle : list id -> list id) (dut delayers : mem -> mem).
Notation steps := (steps shuffle dut delayers).

(** For arbitrary coroutines that cancel nothing and whose hooks without completion event wake nobody: whenever the clock task
    calls dut.Step before the end of the test, every other unfinished task is suspended on a future that is still pending, and no
    task is about to be resumed.  Missing: cancellation, other hooks, and what asyncio.gather does behind the scenes (refuted below). *)
Theorem C33_step_when_all_wait_partial (test : @prog mem) m s c : tame test -> nocancel test -> steps (init test m) s -> at_cycle s c ->
  (forall t, unfinished s t -> t <> c -> exists f, waits_for s t f /\ state_of s f = Some Pending) /\ (forall t, ~ runnable s t).
Proof.
  intros T1 T2 R Hc. split.
  - intros t U Hn. destruct (cycle_quiet _ _ _ _ _ _ _ T1 T2 R Hc t (unfinished_live _ _ U) Hn) as [f [fu [W [E P]]]].
    exists f. split; [now apply waitof_waits|now apply (state_of_get _ _ fu)].
  - intros t H. destruct (runnable_owner _ _ H) as [h [Hh Ho]]. exact (cycle_norun _ _ _ _ _ _ _ T1 T2 R Hc h t Hh Ho).
Qed.
(** If moreover neither asyncio.gather nor asyncio.sleep(d > 0) is used, the loop has nothing left to do at all: its ready queue
    holds nothing but, possibly, the callback that stops the loop. *)
Theorem C33_nothing_ready_partial (test : @prog mem) m s c : tame test -> nocancel test -> allp direct_op test -> steps (init test m) s -> at_cycle s c ->
  forall h, In h (ready s) -> h = HStop.
Proof. intros T1 T2 T3 R Hc. exact (cycle_empty _ _ _ _ _ _ _ T1 T2 T3 R Hc). Qed.
(** With cancellation: the only tasks that can still run at dut.Step are those whose awaited future has been cancelled. *)
Theorem C33_step_with_cancellation_partial (test : @prog mem) m s c : tame test -> steps (init test m) s -> at_cycle s c ->
  (forall t, unfinished s t -> t <> c -> exists f, waits_for s t f /\ (state_of s f = Some Pending \/ state_of s f = Some Canc)) /\
  (forall t, runnable s t -> exists f, waits_for s t f /\ state_of s f = Some Canc).
Proof.
  intros T1 R Hc. destruct (cycle_canc _ _ _ _ _ _ _ T1 R Hc) as [A B]. split.
  - intros t U Hn. destruct (A t (unfinished_live _ _ U) Hn) as [f [fu [W [E P]]]]. exists f. split; [now apply waitof_waits|].
    destruct P as [P|P]; [left|right]; now apply (state_of_get _ _ fu).
  - intros t H. destruct (runnable_owner _ _ H) as [h [Hh Ho]]. destruct (B h t Hh Ho) as [f [fu [W [E P]]]].
    exists f. split; [now apply waitof_waits|now apply (state_of_get _ _ fu)].
Qed.
End Thms.
Print Assumptions C33_step_when_all_wait_partial.
Print Assumptions C33_nothing_ready_partial.
Print Assumptions C33_step_with_cancellation_partial.

(** * Concrete tests *)
Definition Do {mem} (o : @op mem prog) (p : @prog mem) : prog := Op o (fun _ => p).
Definition ids : list id -> list id := fun l => l.
Definition keep : unit -> unit := fun x => x.
Definition begin (p : @prog unit) := init p tt.
Ltac prog_tac := repeat first [progress intros | match goal with H : part _ _ |- _ => inversion H; subst; clear H end | apply all_ret | apply all_raise | apply all_op; [exact I| |]
  | apply nc_ret | apply nc_raise; discriminate | apply nc_op; [exact I| |] ].

(** A producer and a consumer talk through a queue, a third task waits for an event the consumer sets; both wait for clock cycles. *)
Definition consumer : @prog unit := Do (OQGet 0) (Do (OEvWait 0) (Do (OEvSet 1) (Do (OEvWait 0) (Ret VNone)))).
Definition listener : @prog unit := Do (OEvWait 1) (Do (OMark 7) (Ret VNone)).
Definition t_quiet : @prog unit := Do OStartClock (Do OQNew (Do OEvNew (Do (OCreate consumer) (Do (OCreate listener) (Do (OQPut 0 (VInt 5)) (Do (OEvWait 0) (Do (OEvWait 0) (Ret VNone)))))))).
Example C33_nonvacuous : tame t_quiet /\ nocancel t_quiet /\ allp direct_op t_quiet /\
  exists s, steps ids keep keep (begin t_quiet) s /\ at_cycle s 1 /\ nstep s = 1 /\ unfinished s 0 /\ marks s = [(3, 7, 1)] /\ unfinished s 2 /\ ~ unfinished s 3.
Proof.
  split; [|split; [|split]].
  - unfold tame, t_quiet, Do, consumer, listener. prog_tac.
  - unfold t_quiet, Do, consumer, listener. prog_tac.
  - unfold t_quiet, Do, consumer, listener. prog_tac.
  - exists (run ids keep keep 46 (begin t_quiet)). split; [apply run_steps|]. unfold at_cycle, unfinished. vm_compute. intuition discriminate.
Qed.

(** Cancelling a task in a cycle: the Step of that cycle comes although the cancelled task still has to run. *)
Definition waiter : @prog unit := Do (OEvWait 1) (Ret VNone).
Definition t_cancel : @prog unit := Do OStartClock (Do OEvNew (Do (OCreate waiter) (Do (OEvWait 0) (Do (OCancel 2) (Do (OEvWait 0) (Ret VNone)))))).
Theorem C33_cancelled_task_refuted : tame t_cancel /\ exists s, steps ids keep keep (begin t_cancel) s /\ at_cycle s 1 /\ unfinished s 2 /\ runnable s 2.
Proof.
  split; [unfold tame, t_cancel, Do, waiter; prog_tac|]. exists (run ids keep keep 29 (begin t_cancel)). split; [apply run_steps|]. unfold at_cycle, unfinished, runnable. vm_compute.
  split; [reflexivity|]. split; [auto 6|]. eexists. split; [left; reflexivity|]. right; right; eauto.
Qed.
Print Assumptions C33_cancelled_task_refuted.

(** A hook without completion event (a monitor hook) that sets an event: the task released by it has to wait for the next cycle. *)
Definition t_hook : @prog unit := Do OStartClock (Do OEvNew (Do (OCreate waiter) (Do (OEvWait 0) (Do (OPrio (Do (OEvSet 1) (Ret VNone)) 0 false) (Do (OEvWait 0) (Ret VNone)))))).
Theorem C33_waking_hook_refuted : nocancel t_hook /\ exists s, steps ids keep keep (begin t_hook) s /\ at_cycle s 1 /\ unfinished s 2 /\ runnable s 2.
Proof.
  split; [unfold t_hook, Do, waiter; prog_tac|]. exists (run ids keep keep 32 (begin t_hook)). split; [apply run_steps|]. unfold at_cycle, unfinished, runnable. vm_compute.
  split; [reflexivity|]. split; [auto 6|]. eexists. split; [left; reflexivity|]. right; right; eauto.
Qed.
Print Assumptions C33_waking_hook_refuted.

(** asyncio.gather: its children are done, and still the task that awaits it gets on only after another dut.Step. *)
Definition t_gather : @prog unit := Do OStartClock (Do (OCreate (Ret VNone)) (Do (OGather [2]) (Do (OAwait 3) (Do (OMark 1) (Ret VNone))))).
Theorem C33_asyncio_gather_refuted : tame t_gather /\ nocancel t_gather /\
  (exists s, steps ids keep keep (begin t_gather) s /\ at_cycle s 1 /\ nstep s = 0 /\ waits_for s 0 3 /\ state_of s 2 = Some (Finished (Ok VNone)) /\ In (HCount 3) (ready s)) /\
  (exists s, steps ids keep keep (begin t_gather) s /\ marks s = [(0, 1, 1)]).
Proof.
  split; [unfold tame, t_gather, Do; prog_tac|]. split; [unfold t_gather, Do; prog_tac|]. split.
  - exists (run ids keep keep 18 (begin t_gather)). split; [apply run_steps|]. unfold at_cycle, waits_for. vm_compute. repeat split; eauto.
  - exists (run ids keep keep 40 (begin t_gather)). split; [apply run_steps|]. vm_compute. reflexivity.
Qed.
Print Assumptions C33_asyncio_gather_refuted.
