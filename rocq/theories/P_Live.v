(** C72: the clock does not stall, and run() returns. *)
From Coq Require Import List Bool Arith ZArith Lia Permutation.
From Verif Require Import Py Prio_Model Loop_Model Loop_Spec Loop2_Spec Loop3_Spec Live_Spec Loop_Proofs Loop2_Proofs Loop4_Proofs Loop10_Proofs Loop23_Proofs Live_Proofs Live2_Proofs Live3_Proofs LoopRun_Model LoopRun_Proofs P_Loop P_Loop5.
Import ListNotations.
Open Scope nat_scope.

Section Thms.
Context {mem : Type} (shuffle : list id -> list id) (dut delayers : mem -> mem).
Notation steps := (steps shuffle dut delayers). Notation prog := (@prog mem). Notation state := (@state mem). Notation execution := (execution shuffle dut delayers).
(** Iterating a Python set gives each of its elements once. *)
Context (shuffled : forall l, Permutation l (shuffle l)).
(** An infinite execution of a test with a clock [c]: the test has not returned, the main coroutine and the clock task have not ended,
    and the hooks never wait. *)
Definition keeps_going (test : prog) m (sg : nat -> state) (c : id) : Prop :=
  swift_hooks test /\ execution test m sg /\ clock (sg 0) = Some c /\ forall n, unfinished (sg n) c /\ unfinished (sg n) 0 /\ ~ test_over (sg n).

(** If from some point on no task other than the clock task runs, dut.Step is called again and again. *)
Theorem C72_clock_ticks (test : prog) m sg c N : keeps_going test m sg c -> only_runs sg N c -> forall n, exists j, n <= j /\ at_cycle (sg j) c /\ nstep (sg (S j)) = S (nstep (sg j)).
Proof.
  intros [HP [[R0 EX] [CS H]]] Q n. assert (RUN : forall i, stopping (sg i) = false) by (intros i; apply (main_runs shuffle dut delayers test m); [eapply reachn; eauto|apply H]).
  assert (BEG : forall i, tdone (sg i) <> None) by (intros i; apply (clock_begun shuffle dut delayers test m _ c); [eapply reachn; eauto|eapply clkn; eauto]).
  destruct (ticks shuffle dut delayers test m sg c R0 EX CS RUN (fun i => proj1 (H i)) HP N Q BEG shuffled (Nat.max n N) (Nat.le_max_r _ _) (proj2 (proj2 (H _)))) as [j [A B]]. exists j. split; [lia|exact B].
Qed.
Theorem C72_unboundedly_many_steps (test : prog) m sg c N : keeps_going test m sg c -> only_runs sg N c -> forall k, exists j, k <= nstep (sg j).
Proof.
  intros G Q k. induction k as [|k [j IH]]; [exists 0; lia|]. destruct (C72_clock_ticks test m sg c N G Q j) as [i [A [_ B]]]. exists (S i). rewrite B.
  assert (X : nstep (sg j) <= nstep (sg i)); [|lia]. destruct G as [_ [[_ EX] _]]. clear - EX A. induction A as [|i A IH]; auto. destruct (EX i) as [fire ->]. rewrite nstep_step. destruct (cur (sg i)) as [[t [| |[]| | | | ]]|]; lia.
Qed.
(** From every point on either a clock cycle is completed or a task other than the clock task runs: nothing in the loop itself can get stuck. *)
Theorem C72_never_stalls (test : prog) m sg c : keeps_going test m sg c -> forall n, ~ (forall j, n <= j -> nstep (sg j) = nstep (sg n) /\ forall t b, cur (sg j) = Some (t, b) -> t = c).
Proof.
  intros G n H. destruct (C72_clock_ticks test m sg c n G (fun j t b Hj => proj2 (H j Hj) t b) n) as [j [A [_ B]]]. rewrite (proj1 (H j A)), (proj1 (H (S j) ltac:(lia))) in B. lia.
Qed.
(** While a task waits for a clock cycle, it cannot be that only the clock task runs from now on: that task, or another one, runs again. *)
Theorem C72_waiter_goes_on (test : prog) m sg c n t : keeps_going test m sg c -> t <> c -> unfinished (sg n) t -> inside_wait (sg n) t 0 -> ~ only_runs sg n c.
Proof.
  intros [HP [[R0 EX] [CS H]]] Ht U IW Q. assert (RUN : forall i, stopping (sg i) = false) by (intros i; apply (main_runs shuffle dut delayers test m); [eapply reachn; eauto|apply H]).
  assert (BEG : forall i, tdone (sg i) <> None) by (intros i; apply (clock_begun shuffle dut delayers test m _ c); [eapply reachn; eauto|eapply clkn; eauto]).
  exact (no_cycle_waiter shuffle dut delayers test m sg c R0 EX CS RUN (fun i => proj1 (H i)) HP n Q BEG shuffled n t (le_n n) (fun j => proj2 (proj2 (H j))) Ht U IW).
Qed.
(** The test returns [v] in [sg 0] with a clock running.  If the hooks never wait, the clock task does not end and all tasks other than it
    and the main task are over at some point (each cancelled task ends, and nobody makes new ones for ever), then the loop stops: run()
    returns.  And what it returns is [v], if nobody awaits or cancels the main task. *)
Theorem C72_run_returns (test : prog) m sg c v N : swift_hooks test -> execution test m sg -> test_returned (sg 0) v -> clock (sg 0) = Some c -> (forall n, unfinished (sg n) c) ->
  (forall n t, N <= n -> unfinished (sg n) t -> t = c \/ t = 0) ->
  ~ (forall n, ~ stopped (sg n)) /\ (untouched shuffle dut delayers test m -> ~ (forall n, ~ (stopped (sg n) /\ returned (sg n) 0 v))).
Proof.
  intros HP [R0 EX] TR CS AL GO. assert (X : ~ (forall n, ~ stopped (sg n))) by (intros NS; exact (stops shuffle dut delayers shuffled test m sg c R0 EX CS AL HP N GO NS v TR)).
  split; [exact X|]. intros HO NS. apply X. intros n ST. apply (NS n). split; auto. assert (HK : clock (sg 0) <> None) by congruence. apply (C38_result_partial shuffle dut delayers shuffled test m (sg 0) v (sg n) HO R0 TR HK); auto. eapply later; eauto. lia.
Qed.
End Thms.
Print Assumptions C72_clock_ticks.
Print Assumptions C72_unboundedly_many_steps.
Print Assumptions C72_never_stalls.
Print Assumptions C72_waiter_goes_on.
Print Assumptions C72_run_returns.

(** * Examples *)
Ltac swift_tac := repeat first [progress intros | match goal with H : part _ _ |- _ => inversion H; subst; clear H | r : res lval |- _ => destruct r; cbn [thenv] end | apply all_ret | apply all_raise | apply sw_ret | apply sw_raise | apply sw_op; [exact Logic.I|] | apply all_op; [cbn; auto| |] ].
(** The test waits for ever for an event nobody sets; before, it has added a hook that yields once and created a task that waits for one clock cycle. *)
Definition yielding : @prog unit := Try OSleep0 (Try (OMark 5) (Ret VNone)).
Definition once_cycle : @prog unit := Try (OEvWait 0) (Ret VNone).
Definition forever : @prog unit := Try OStartClock (Try OEvNew (Try (OPrio yielding 3%Z false) (Try (OCreate once_cycle) (Try (OEvWait 1) (Ret (VInt 7)))))).
Definition fat n := run ids keep keep n (begin forever).
Definition okb (s : @state unit) : bool :=
  existsb (Nat.eqb 1) (live s) && existsb (Nat.eqb 0) (live s) && match tdone s with Some true => false | _ => true end.
Definition clockb (s : @state unit) : bool := match cur s with Some (t, _) => Nat.eqb t 1 | None => true end.
Lemma run_add n k s : run ids keep keep (n + k) s = run ids keep keep k (run ids keep keep n s).
Proof. revert s. induction n as [|n IH]; intros s; [reflexivity|]. cbn. apply IH. Qed.
(** A run that repeats itself, up to the number of steps made. *)
Lemma repeats (P : @state unit -> bool) p s : 0 < p -> (forall k, forallb (fun r => P (run ids keep keep r (set_nstep s k))) (seq 0 p) = true) -> (forall k, run ids keep keep p (set_nstep s k) = set_nstep s (S k)) ->
  forall n k, P (run ids keep keep n (set_nstep s k)) = true.
Proof.
  intros Hp H R n. induction n as [n IH] using lt_wf_ind. intros k. destruct (le_lt_dec p n) as [L|L].
  - replace n with (p + (n - p)) by lia. rewrite run_add, R. apply IH. lia.
  - specialize (H k). rewrite forallb_forall in H. apply H, in_seq. lia.
Qed.
Lemma eventually (P : @state unit -> bool) s0 m p a k0 : (forall k, run ids keep keep p (set_nstep (run ids keep keep m s0) k) = set_nstep (run ids keep keep m s0) (S k)) -> run ids keep keep m s0 = set_nstep (run ids keep keep m s0) k0 -> 0 < p ->
  forallb (fun n => P (run ids keep keep n s0)) (seq a m) = true -> (forall k, forallb (fun r => P (run ids keep keep r (set_nstep (run ids keep keep m s0) k))) (seq 0 p) = true) -> forall n, a <= n -> P (run ids keep keep n s0) = true.
Proof.
  intros R E Hp H1 H2 n L. destruct (le_lt_dec m n) as [L'|L'].
  - replace n with (m + (n - m)) by lia. rewrite run_add, E. now apply (repeats P p).
  - rewrite forallb_forall in H1. apply H1, in_seq. lia.
Qed.
Lemma fat_repeats k : run ids keep keep 7 (set_nstep (fat 36) k) = set_nstep (fat 36) (S k). Proof. vm_compute. reflexivity. Qed.
Lemma fat_36 : fat 36 = set_nstep (fat 36) 2. Proof. vm_compute. reflexivity. Qed.
Lemma fat_all (P : @state unit -> bool) a : forallb (fun n => P (fat n)) (seq a 36) = true -> (forall k, forallb (fun r => P (run ids keep keep r (set_nstep (fat 36) k))) (seq 0 7) = true) -> forall n, a <= n -> P (fat n) = true.
Proof.
  generalize fat_repeats fat_36. unfold fat. generalize (begin forever) as s0. intros s0 H1 H2 H3 H4. refine (eventually P s0 36 7 a 2 H1 H2 _ H3 H4). lia.
Qed.
Lemma execution_fat n0 : execution ids keep keep forever tt (fun n => fat (n0 + n)).
Proof. unfold fat, begin. generalize forever. intros test. split; [apply run_steps|]. intros n. exists []. rewrite <- plus_n_Sm. apply run_S. Qed.
Lemma okb_ok s : okb s = true -> unfinished s 1 /\ unfinished s 0 /\ ~ test_over s.
Proof.
  unfold okb. intros H. apply andb_prop in H as [H C]. apply andb_prop in H as [A B]. apply existsb_exists in A as [x [A Ex]], B as [y [B Ey]]. apply Nat.eqb_eq in Ex, Ey. subst x y.
  split; [exact A|]. split; [exact B|]. unfold test_over. intros E. now rewrite E in C.
Qed.
Lemma clockb_ok s t b : clockb s = true -> cur s = Some (t, b) -> t = 1.
Proof. unfold clockb. intros H E. rewrite E in H. now apply Nat.eqb_eq. Qed.
(** [forever] keeps going from its fourth step on, only the clock task runs from the 31st on, and in the 27th task 2 waits for the clock. *)
Example C72_nonvacuous : keeps_going ids keep keep forever tt (fun n => fat (4 + n)) 1 /\ only_runs (fun n => fat (4 + n)) 27 1 /\ unfinished (fat (4 + 23)) 2 /\ inside_wait (fat (4 + 23)) 2 0 /\ nstep (fat (4 + 21)) = 0 /\ nstep (fat (4 + 39)) = 3.
Proof.
  split; [|split; [|split; [|split; [|split]]]].
  - split; [unfold swift_hooks, forever, yielding, once_cycle, Try; swift_tac|]. split; [apply execution_fat|]. split; [vm_compute; reflexivity|]. intros n. apply okb_ok. apply (fat_all okb 4); [vm_compute; reflexivity| |lia]. intros k. vm_compute. reflexivity.
  - intros n t b L H. apply (clockb_ok (fat (4 + n)) t b); auto. apply (fat_all clockb 31); [vm_compute; reflexivity| |lia]. intros k. vm_compute. reflexivity.
  - unfold unfinished. vm_compute. auto.
  - left. exists 4. vm_compute. eexists. split; [eexists; split; reflexivity|split; reflexivity].
  - vm_compute. reflexivity.
  - vm_compute. reflexivity.
Qed.
(** The hypothesis that no other task runs is no idle one: task 2, which waits in the 27th step, runs in the 29th. *)
Example C72_nonvacuous_waiter : ~ only_runs (fun n => fat (4 + n)) 23 1 /\ exists b, cur (fat 29) = Some (2, b).
Proof.
  split; [|eexists; vm_compute; reflexivity]. destruct C72_nonvacuous as [A [_ [B [C _]]]]. revert A B C. generalize fat. intros g A B C.
  exact (C72_waiter_goes_on ids keep keep ids_perm forever tt (fun n => g (4 + n)) 1 23 2 A ltac:(discriminate) B C).
Qed.
(** The test of C38's example: it returns 7 while a task still waits; from the 40th step on only the clock task and the main task are left,
    and run() returns 7. *)
Definition goneb (s : @state unit) : bool := forallb (fun t => orb (Nat.eqb t 1) (Nat.eqb t 0)) (live s).
Definition aliveb (s : @state unit) : bool := existsb (Nat.eqb 1) (live s).
Lemma settled (P : @state unit -> bool) s0 m a : step ids keep keep [] (run ids keep keep m s0) = run ids keep keep m s0 -> forallb (fun n => P (run ids keep keep n s0)) (seq a (S m)) = true -> a <= m -> forall n, a <= n -> P (run ids keep keep n s0) = true.
Proof.
  intros F H La n L. rewrite forallb_forall in H. destruct (le_lt_dec n (a + m)) as [L'|L'].
  - apply H, in_seq. lia.
  - assert (X : forall i, run ids keep keep (m + i) s0 = run ids keep keep m s0) by (induction i as [|i IH]; [now rewrite Nat.add_0_r|rewrite <- plus_n_Sm, run_S, IH; exact F]).
    replace n with (m + (n - m)) by lia. rewrite X. apply H, in_seq. lia.
Qed.
Lemma lasting_fix : step ids keep keep [] (at_ lasting 56) = at_ lasting 56. Proof. vm_compute. reflexivity. Qed.
Lemma lasting_all (P : @state unit -> bool) a : forallb (fun n => P (at_ lasting n)) (seq a 57) = true -> a <= 56 -> forall n, a <= n -> P (at_ lasting n) = true.
Proof. generalize lasting_fix. unfold at_. generalize (begin (t_with lasting)) as s0. intros s0 H. exact (settled P s0 56 a H). Qed.
Lemma execution_at (p : @prog unit) n0 : execution ids keep keep (t_with p) tt (fun n => at_ p (n0 + n)).
Proof. unfold at_, begin. generalize (t_with p). intros test. split; [apply run_steps|]. intros n. exists []. rewrite <- plus_n_Sm. apply run_S. Qed.
Example C72_nonvacuous_returns : swift_hooks (t_with lasting) /\ untouched ids keep keep (t_with lasting) tt /\ execution ids keep keep (t_with lasting) tt (fun n => at_ lasting (23 + n)) /\ test_returned (at_ lasting (23 + 0)) (VInt 7) /\ clock (at_ lasting (23 + 0)) = Some 1 /\
  (forall n, unfinished (at_ lasting (23 + n)) 1) /\ (forall n t, 17 <= n -> unfinished (at_ lasting (23 + n)) t -> t = 1 \/ t = 0).
Proof.
  split; [unfold swift_hooks, t_with, lasting, Try; swift_tac|]. split; [exact (proj1 (proj2 C38_nonvacuous))|]. split; [apply execution_at|]. split; [vm_compute; reflexivity|]. split; [vm_compute; reflexivity|]. split.
  - intros n. assert (H : aliveb (at_ lasting (23 + n)) = true) by (apply lasting_all with (a := 23); [vm_compute; reflexivity|lia|lia]). apply existsb_exists in H as [x [A E]]. apply Nat.eqb_eq in E. now subst x.
  - intros n t L U. assert (H : goneb (at_ lasting (23 + n)) = true) by (apply lasting_all with (a := 40); [vm_compute; reflexivity|lia|lia]). unfold goneb in H. rewrite forallb_forall in H. apply H in U. apply orb_prop in U as [U|U]; apply Nat.eqb_eq in U; auto.
Qed.
(** That the hooks never wait is needed: with a hook that waits for an event nobody sets, the clock task never gets to a Step although no
    task has ended and the test goes on.  (The hook's owner is told nothing: the test, waiting for a clock cycle, waits for ever.) *)
Definition blocking : @prog unit := Try OStartClock (Try OEvNew (Try (OPrio lasting 3%Z false) (Try (OEvWait 0) (Ret (VInt 7))))).
Definition bat n := run ids keep keep n (begin blocking).
Definition stillb (s : @state unit) : bool := okb s && Nat.eqb (nstep s) 0 && match cur s with None => true | _ => false end && match clock s with Some c => Nat.eqb c 1 | None => false end.
Theorem C72_waiting_hook_stalls : exists s, steps ids keep keep (begin blocking) s /\ unfinished s 0 /\ inside_wait s 0 0 /\
  forall s', steps ids keep keep s s' -> clock s' = Some 1 /\ unfinished s' 1 /\ ~ test_over s' /\ nstep s' = 0 /\ cur s' = None.
Proof.
  exists (bat 18). split; [apply run_steps|]. split; [unfold unfinished; vm_compute; auto|]. split; [left; exists 2; vm_compute; eexists; split; [eexists; split; reflexivity|split; reflexivity]|]. intros s' R.
  assert (X : stillb s' = true) by (refine (stuck_steps stillb 4 (bat 18) _ _ s' R); vm_compute; reflexivity).
  apply andb_prop in X as [X K]. apply andb_prop in X as [X Y]. apply andb_prop in X as [X Z]. apply okb_ok in X as [A [_ B]]. apply Nat.eqb_eq in Z. destruct (clock s') as [c|]; [|discriminate]. apply Nat.eqb_eq in K. subst c. destruct (cur s') as [[t b]|]; [discriminate|]. auto.
Qed.
Print Assumptions C72_waiting_hook_stalls.
