(** C75: a test that raises ends the run. *)
From Coq Require Import List Bool Arith ZArith Lia.
From Verif Require Import Py Prio_Model Loop_Model Loop_Spec Loop2_Spec Loop3_Spec Live_Spec Fail_Spec Loop_Proofs Loop2_Proofs Loop3_Proofs Loop4_Proofs Loop5_Proofs Loop6_Proofs Loop9_Proofs Loop10_Proofs Loop22_Proofs Fail_Proofs LoopRun_Model LoopRun_Proofs P_Loop P_Loop5 P_Live.
Import ListNotations.
Open Scope nat_scope.

Section Thms.
Context {mem : Type} (shuffle : list id -> list id) (dut delayers : mem -> mem).
Notation steps := (steps shuffle dut delayers). Notation step := (step shuffle dut delayers). Notation prog := (@prog mem). Notation state := (@state mem).
Notation execution := (execution shuffle dut delayers).
Implicit Types (s : state).

(** The main task has failed with that very exception, in every later state. *)
Theorem C75_outcome (test : prog) m s e fire s' : steps (init test m) s -> test_failed s e -> steps (step fire s) s' -> failed s' 0 e.
Proof.
  intros R0 H R. destruct (reach_linked _ _ _ _ _ _ R0) as [W _]. eapply (failed_stays shuffle dut delayers); [|eapply failed_done; eauto|exact R]. now apply step_wf.
Qed.
(** The DUT makes at most two more steps. *)
Theorem C75_at_most_two_steps (test : prog) m s e s' : steps (init test m) s -> test_failed s e -> steps s s' -> nstep s' <= nstep s + 2.
Proof.
  intros R0 H R. destruct (steps_first _ _ _ _ _ R) as [->|[fire R1]]; [lia|]. destruct (reach_linked _ _ _ _ _ _ R0) as [W _]. assert (D : done0 (step fire s)) by (eapply failed_done0, failed_done; eauto).
  assert (N : nstep (step fire s) = nstep s) by (rewrite nstep_step; unfold test_failed in H; rewrite H; reflexivity). assert (R01 : steps (init test m) (step fire s)) by (apply steps_step; exact R0).
  pose proof (main_done shuffle dut delayers test m (step fire s) s' R01 D R1). lia.
Qed.
(** If no task runs for ever without awaiting something, the loop stops, that is run() is left, with the exception of the test: whatever the other
    tasks, the hooks and the clock task are doing or waiting for. *)
Theorem C75_run_ends (test : prog) m sg e : execution test m sg -> test_failed (sg 0) e -> yields sg -> exists n, stopped (sg n) /\ failed (sg n) 0 e.
Proof.
  intros [R0 EX] H Y. destruct (EX 0) as [fire E1]. assert (R1 : steps (init test m) (sg 1)) by (rewrite E1; apply steps_step; exact R0).
  destruct (reach_linked _ _ _ _ _ _ R0) as [W _]. assert (F : failed (sg 1) 0 e) by (rewrite E1; apply failed_done; auto).
  destruct (loop_stops shuffle dut delayers test m (fun n => sg (S n)) R1 (fun n => EX (S n))) as [n ST]; [|eapply failed_done0; exact F|].
  - intros n. destruct (Y (S n)) as [j [L C]]. exists (j - 1). split; [lia|]. now replace (S (j - 1)) with j by lia.
  - exists (S n). split; auto. apply (failed_stays shuffle dut delayers e (sg 1)); auto; [rewrite E1; now apply step_wf|]. clear ST. induction n as [|n IH]; [apply steps_refl|]. destruct (EX (S n)) as [fi ->]. now apply steps_step.
Qed.
End Thms.
Print Assumptions C75_outcome.
Print Assumptions C75_at_most_two_steps.
Print Assumptions C75_run_ends.

(** The test waits for one clock cycle and raises, while another task waits for ever. *)
Definition t_fail : @prog unit := Try OStartClock (Try OEvNew (Try (OCreate lasting) (Try (OEvWait 0) (Raise ValueError)))).
Definition fail_at n := run ids keep keep n (begin t_fail).
(** Two more steps are what happens here: the clock task runs after the main task in the same iteration, and once more in the iteration in which the
    loop is told to stop. *)
Example C75_nonvacuous : test_failed (fail_at 23) ValueError /\ nstep (fail_at 23) = 1 /\ unfinished (fail_at 23) 2 /\ stopped (fail_at 38) /\ failed (fail_at 38) 0 ValueError /\ nstep (fail_at 38) = 3 /\ unfinished (fail_at 38) 2.
Proof. split; [vm_compute; reflexivity|]. split; [vm_compute; reflexivity|]. split; [unfold unfinished; vm_compute; auto|]. split; [unfold stopped; split; [|split]; vm_compute; reflexivity|]. split; [left; vm_compute; reflexivity|]. split; [vm_compute; reflexivity|unfold unfinished; vm_compute; auto]. Qed.
Lemma stopped_step {mem} sh (d1 d2 : mem -> mem) fire (s : @state mem) : stopped s -> step sh d1 d2 fire s = s.
Proof. intros [A [B C]]. unfold step. now rewrite A, B, C. Qed.
Lemma fail_add n k : fail_at (n + k) = run ids keep keep k (fail_at n).
Proof. unfold fail_at. apply run_add. Qed.
Lemma run_stopped k (s : @state unit) : stopped s -> run ids keep keep k s = s.
Proof. intros H. induction k as [|k IH]; auto. cbn [run]. rewrite stopped_step; auto. Qed.
(** The hypotheses of C75_run_ends hold of it. *)
Example C75_nonvacuous_run : execution ids keep keep t_fail tt (fun n => fail_at (23 + n)) /\ test_failed (fail_at (23 + 0)) ValueError /\ yields (fun n => fail_at (23 + n)).
Proof.
  split; [split; [apply run_steps|]|split; [vm_compute; reflexivity|]].
  - intros n. exists []. replace (23 + S n) with ((23 + n) + 1) by lia. rewrite fail_add. reflexivity.
  - intros n. exists (15 + n). split; [lia|]. replace (23 + (15 + n)) with (38 + n) by lia. rewrite fail_add, run_stopped by (unfold stopped; split; [|split]; vm_compute; reflexivity). vm_compute. reflexivity.
Qed.
