(** C38: the end of a test. *)
From Coq Require Import List Bool Arith ZArith Lia Permutation.
From Verif Require Import Py Prio_Model Loop_Model Loop_Spec Loop2_Spec Loop3_Spec Loop_Proofs Loop2_Proofs Loop3_Proofs Loop4_Proofs Loop5_Proofs Loop9_Proofs Loop10_Proofs Loop13_Proofs Loop21_Proofs Loop22_Proofs Loop23_Proofs LoopRun_Model LoopRun_Proofs P_Loop.
Import ListNotations.
Open Scope nat_scope.

Section Thms.
Context {mem : Type} (shuffle : list id -> list id) (dut delayers : mem -> mem).
Notation steps := (steps shuffle dut delayers). Notation prog := (@prog mem). Notation state := (@state mem).
(** Iterating a Python set gives each of its elements once. *)
Context (shuffled : forall l, Permutation l (shuffle l)).

Lemma stopped_final test m (s : state) : steps (init test m) s -> stopped s -> state_of s 0 <> Some Pending.
Proof.
  intros R [_ [_ S]]. destruct (stopped_done shuffle dut delayers test m s R S) as [fu [E P]]. unfold state_of, fget. rewrite E. cbn. unfold pending in P. destruct (f_st fu); congruence.
Qed.
(** The test has returned [v] and a clock runs.  From then on, until run() is over: as long as the main coroutine is not finished at
    most one dut.Step is made; it finishes with [v], after that Step and before the one after the next; when the loop has stopped,
    it has finished.  No task awaits or cancels the main task.  Missing: exactly one Step (refuted below), and that the
    loop stops at all (refuted below). *)
Theorem C38_result_partial (test : prog) m s v s' : untouched shuffle dut delayers test m -> steps (init test m) s -> test_returned s v -> clock s <> None -> steps s s' ->
  ((state_of s' 0 = Some Pending /\ nstep s <= nstep s' <= S (nstep s)) \/ (returned s' 0 v /\ S (nstep s) <= nstep s' <= S (S (nstep s)))) /\
  (stopped s' -> returned s' 0 v).
Proof.
  intros T R Hc Hk R2. pose proof (main_result_off shuffle dut delayers shuffled test m s v s' T R Hc Hk R2) as X. split; [exact X|].
  intros ST. assert (R3 : steps (init test m) s') by exact (steps_trans _ _ _ _ _ _ R R2). pose proof (stopped_final test m s' R3 ST). destruct X as [[X _]|[X _]]; [congruence|exact X].
Qed.
(** For arbitrary tests: if a task awaits the main task, or cancels it, the main coroutine may also end up cancelled. *)
Theorem C38_result_or_cancelled (test : prog) m s v s' : steps (init test m) s -> test_returned s v -> clock s <> None -> steps s s' -> stopped s' ->
  (returned s' 0 v /\ S (nstep s) <= nstep s' <= S (S (nstep s))) \/ state_of s' 0 = Some Canc.
Proof.
  intros R Hc Hk R2 ST. assert (R3 : steps (init test m) s') by exact (steps_trans _ _ _ _ _ _ R R2). pose proof (stopped_final test m s' R3 ST).
  destruct (main_result shuffle dut delayers test m s v s' R Hc Hk R2) as [X|[X|X]]; [congruence|left; exact X|right; exact X].
Qed.
(** When the main coroutine is finished, at most one more dut.Step is made, whatever happens. *)
Theorem C38_steps_after_main (test : prog) m s s' st : steps (init test m) s -> tdone s = Some true -> state_of s 0 = Some st -> st <> Pending -> steps s s' -> nstep s' <= S (nstep s).
Proof.
  intros R T D Hst R2. eapply after_main; eauto. eapply done_fut; eauto.
Qed.
(** A dut.Step made after the test has returned: before it, in the same cycle, the clock task cancelled the other tasks, and all of
    those it found (all but itself and the main task) are done. *)
Theorem C38_cancelled_before_step (test : prog) m s c : steps (init test m) s -> at_step s c -> tdone s = Some true ->
  exists s1, steps (init test m) s1 /\ steps s1 s /\ at_cancel s1 c /\ nstep s1 = nstep s /\ tdone s1 = Some true /\ forall t, unfinished s1 t -> t <> c -> t <> 0 -> ~ unfinished s t.
Proof. intros R Hc T. exact (step_cancelled shuffle dut delayers shuffled test m s c R Hc T). Qed.
(** When the clock task starts to cancel, every other task is suspended on something that has not happened: all that could run in
    this cycle has run (hooks without completion event wake nobody, as in C33). *)
Theorem C38_all_wait_at_cancel (test : prog) m s c : tame test -> steps (init test m) s -> at_cancel s c ->
  (forall t, unfinished s t -> t <> c -> exists f, waits_for s t f /\ (state_of s f = Some Pending \/ state_of s f = Some Canc)) /\
  (forall t, runnable s t -> exists f, waits_for s t f /\ state_of s f = Some Canc).
Proof.
  intros T R Hc. destruct (cancel_quiet shuffle dut delayers shuffled test m s c T R Hc) as [A B]. split.
  - intros t U Hn. destruct (A t (unfinished_live _ _ U) Hn) as [f [fu [W [E P]]]]. exists f. split; [now apply waitof_waits|].
    destruct P as [P|P]; [left|right]; now apply (state_of_get _ _ fu).
  - intros t H. destruct (runnable_owner _ _ H) as [h [Hh Ho]]. destruct (B h t Hh Ho) as [f [fu [W [E P]]]].
    exists f. split; [now apply waitof_waits|now apply (state_of_get _ _ fu)].
Qed.
End Thms.
Print Assumptions C38_result_partial.
Print Assumptions C38_result_or_cancelled.
Print Assumptions C38_steps_after_main.
Print Assumptions C38_cancelled_before_step.
Print Assumptions C38_all_wait_at_cancel.

(** * Concrete tests *)
Definition Try (o : @op unit prog) (p : @prog unit) : prog := Op o (thenv (fun _ => p)).
(** A task that waits for ever. *)
Definition lasting : @prog unit := Try (OEvWait 1) (Ret VNone).
Definition t_with (p : @prog unit) : @prog unit := Try OStartClock (Try OEvNew (Try (OCreate p) (Try (OEvWait 0) (Ret (VInt 7))))).
Definition at_ (p : @prog unit) n := run ids keep keep n (begin (t_with p)).
Lemma ids_perm : forall l, Permutation l (ids l). Proof. intros l. apply Permutation_refl. Qed.
Ltac hands_tac := repeat first [progress intros | match goal with H : part _ _ |- _ => inversion H; subst; clear H | r : res lval |- _ => destruct r; cbn [thenv] end | apply all_ret | apply all_raise | apply all_op; [cbn; auto; discriminate| |] ].
Lemma at_plus p n k : at_ p (n + k) = run ids keep keep k (at_ p n).
Proof. unfold at_. generalize (begin (t_with p)). induction n as [|n IH]; intros s; [reflexivity|]. cbn. apply IH. Qed.
Lemma at_steps p n k : steps ids keep keep (at_ p n) (at_ p (n + k)).
Proof. rewrite at_plus. apply run_steps. Qed.
Lemma at_reach p n : steps ids keep keep (begin (t_with p)) (at_ p n). Proof. apply run_steps. Qed.
(** The test returns 7 while [lasting] still waits; it is cancelled, one Step is made, and the main coroutine returns 7. *)
Lemma hands_run (p : @prog unit) : hands_off p -> untouched ids keep keep p tt.
Proof. apply hands_untouched. Qed.
Example C38_nonvacuous : hands_off (t_with lasting) /\ untouched ids keep keep (t_with lasting) tt /\ tame (t_with lasting) /\ test_returned (at_ lasting 23) (VInt 7) /\ clock (at_ lasting 23) <> None /\ nstep (at_ lasting 23) = 1 /\ unfinished (at_ lasting 23) 2 /\
  at_cancel (at_ lasting 28) 1 /\ unfinished (at_ lasting 28) 2 /\
  at_step (at_ lasting 40) 1 /\ tdone (at_ lasting 40) = Some true /\ ~ unfinished (at_ lasting 40) 2 /\
  state_of (at_ lasting 46) 0 = Some (Finished (Ok (VInt 7))) /\ nstep (at_ lasting 46) = 2 /\ stopped (at_ lasting 56).
Proof.
  assert (HO : hands_off (t_with lasting)) by (unfold hands_off, t_with, lasting, Try; hands_tac). split; [exact HO|]. split; [now apply hands_run|]. split; [unfold tame, t_with, lasting, Try; hands_tac|]. split; [vm_compute; reflexivity|]. split; [vm_compute; discriminate|]. split; [vm_compute; reflexivity|].
  split; [unfold unfinished; vm_compute; auto|]. split; [vm_compute; reflexivity|]. split; [unfold unfinished; vm_compute; auto|]. split; [exists true; vm_compute; reflexivity|]. split; [vm_compute; reflexivity|].
  split; [unfold unfinished; vm_compute; intuition discriminate|]. split; [vm_compute; reflexivity|]. split; [vm_compute; reflexivity|]. unfold stopped; split; [|split]; vm_compute; reflexivity.
Qed.
(** "Exactly one more Step" is false: there are two, the second while the loop is already stopping. *)
Theorem C38_one_step_refuted : exists s s', steps ids keep keep (begin (t_with lasting)) s /\ hands_off (t_with lasting) /\ test_returned s (VInt 7) /\ clock s <> None /\ steps ids keep keep s s' /\ stopped s' /\ nstep s = 1 /\ nstep s' = 3.
Proof.
  exists (at_ lasting 23), (at_ lasting (23 + 33)). split; [apply at_reach|]. split; [exact (proj1 C38_nonvacuous)|]. split; [vm_compute; reflexivity|]. split; [vm_compute; discriminate|]. split; [apply at_steps|].
  split; [unfold stopped; split; [|split]; vm_compute; reflexivity|]. split; vm_compute; reflexivity.
Qed.
Print Assumptions C38_one_step_refuted.
(** "All other tasks are cancelled before the last Step" is false: a task that reacts to its cancellation by creating another one. *)
Definition respawn : @prog unit := Op (OEvWait 1) (fun r => match r with Ok _ => Ret VNone | Exn e => Try (OCreate lasting) (Raise e) end).
Theorem C38_all_cancelled_refuted : exists s, steps ids keep keep (begin (t_with respawn)) s /\ hands_off (t_with respawn) /\ at_step s 1 /\ tdone s = Some true /\ unfinished s 7.
Proof.
  exists (at_ respawn 43). split; [apply at_reach|]. split; [unfold hands_off, t_with, respawn, lasting, Try; hands_tac|]. split; [exists true; vm_compute; reflexivity|]. split; [vm_compute; reflexivity|]. unfold unfinished. vm_compute. auto.
Qed.
Print Assumptions C38_all_cancelled_refuted.
(** Executions that come to a standstill. *)
Lemma stuck_steps (P : @state unit -> bool) n s : forallb (fun k => untimed (run ids keep keep k s) && P (run ids keep keep k s)) (seq 0 (Datatypes.S n)) = true -> step ids keep keep [] (run ids keep keep n s) = run ids keep keep n s ->
  forall x, steps ids keep keep s x -> P x = true.
Proof.
  intros H F. rewrite forallb_forall in H. assert (Q : forall k, k <= n -> untimed (run ids keep keep k s) = true /\ P (run ids keep keep k s) = true) by (intros k L; apply andb_prop, H, in_seq; lia).
  assert (A : forall x, steps ids keep keep s x -> exists k, k <= n /\ x = run ids keep keep k s).
  { intros x R. remember s as s0 eqn:E0 in R. induction R as [a|a x fire R IH]; subst a; [exists 0; split; [lia|reflexivity]|]. destruct (IH eq_refl) as [k [L ->]]. rewrite untimed_step by now apply Q. rewrite <- run_S.
    destruct (Nat.eq_dec k n) as [->|]; [exists n; split; auto; rewrite run_S; exact F|]. exists (Datatypes.S k). split; [lia|reflexivity]. }
  intros x R. destruct (A x R) as [k [L ->]]. now apply Q.
Qed.
(** "run() returns" is false: a task that goes on waiting after its cancellation blocks the end of the test for ever. *)
Definition stubborn : @prog unit := Op (OEvWait 1) (fun r => match r with Ok _ => Ret VNone | Exn e => Try (OEvWait 1) (Ret VNone) end).
Definition openb (s : @state unit) : bool := negb (ended s) && match state_of s 0 with Some Pending => true | _ => false end.
Theorem C38_returns_refuted : hands_off (t_with stubborn) /\ exists s, steps ids keep keep (begin (t_with stubborn)) s /\ test_returned s (VInt 7) /\ forall s', steps ids keep keep s s' -> ~ stopped s' /\ state_of s' 0 = Some Pending.
Proof.
  split; [unfold hands_off, t_with, stubborn, Try; hands_tac|]. exists (at_ stubborn 23). split; [apply at_reach|]. split; [vm_compute; reflexivity|]. intros s' R.
  assert (X : openb s' = true) by (refine (stuck_steps openb 12 (at_ stubborn 23) _ _ s' R); vm_compute; reflexivity).
  apply andb_prop in X as [X Y]. split.
  - intros [A [B C]]. unfold ended in X. rewrite A, B, C in X. discriminate.
  - destruct (state_of s' 0) as [[]|]; try discriminate. reflexivity.
Qed.
Print Assumptions C38_returns_refuted.
(** "run() returns its result" is false if a task awaits the main task: cancelling that task cancels the main coroutine. *)
Definition meddle : @prog unit := Try (OAwait 0) (Ret VNone).
Theorem C38_result_refuted : exists s s', steps ids keep keep (begin (t_with meddle)) s /\ test_returned s (VInt 7) /\ clock s <> None /\ steps ids keep keep s s' /\ stopped s' /\ state_of s' 0 = Some Canc /\ nstep s' = nstep s.
Proof.
  exists (at_ meddle 23), (at_ meddle (23 + 14)). split; [apply at_reach|]. split; [vm_compute; reflexivity|]. split; [vm_compute; discriminate|]. split; [apply at_steps|]. split; [unfold stopped; split; [|split]; vm_compute; reflexivity|]. split; vm_compute; reflexivity.
Qed.
Print Assumptions C38_result_refuted.
