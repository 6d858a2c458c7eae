(** Progress: after the test has returned, the loop stops. *)
From Coq Require Import List Bool Arith ZArith Lia Permutation.
From Verif Require Import Py Prio_Model Loop_Model Loop_Spec Loop_Proofs Loop2_Proofs Loop3_Proofs Loop4_Proofs Loop5_Proofs Loop6_Proofs Loop7_Proofs Loop8_Proofs Loop9_Proofs Loop10_Proofs Loop2_Spec Loop3_Spec Loop13_Proofs Loop16_Proofs Loop17_Proofs Loop20_Proofs Loop21_Proofs Loop22_Proofs Loop23_Proofs Live_Spec Live_Proofs Live2_Proofs.
Import ListNotations.
Open Scope nat_scope.

Section Live3.
Context {mem : Type}.
Notation prog := (@prog mem). Notation state := (@state mem). Notation body := (@body mem).
Implicit Types (s : state).
Context (shuffle : list id -> list id) (dut delayers : mem -> mem).
Notation step := (step shuffle dut delayers). Notation steps := (steps shuffle dut delayers).
Context (shuffled : forall l, Permutation l (shuffle l)).
Context (test : prog) (m : mem) (sg : nat -> state) (c : id).
Context (R0 : steps (init test m) (sg 0)) (EX : forall n, exists fire, sg (S n) = step fire (sg n)).
Context (CS : clock (sg 0) = Some c) (ALIVE : forall n, unfinished (sg n) c) (HP : allp hooks_op test).
Notation reachn := (reachn shuffle dut delayers test m sg R0 EX).
Notation clkn := (clkn shuffle dut delayers sg c EX CS).
Notation alln := (alln shuffle dut delayers test m sg R0 EX).
Notation wfn := (wfn shuffle dut delayers test m sg R0 EX).
Lemma later n j : n <= j -> steps (sg n) (sg j).
Proof. intros H. induction H as [|j H IH]; [apply steps_refl|]. destruct (EX j) as [fire ->]. now apply steps_step. Qed.
Lemma begun n : tdone (sg n) <> None.
Proof. apply (clock_begun shuffle dut delayers test m _ c (reachn n)). apply clkn. Qed.
Lemma stays_finished n j t : n <= j -> t < List.length (futs (sg n)) -> ~ unfinished (sg n) t -> ~ unfinished (sg j) t.
Proof.
  intros H L U. enough (t < List.length (futs (sg j)) /\ ~ unfinished (sg j) t) by tauto. induction H as [|j H [IH1 IH2]]; auto. destruct (EX j) as [fire ->]. split; [pose proof (step_len shuffle dut delayers fire _ (wfn j)); lia|]. apply unfinished_step; auto. apply wfn.
Qed.
Lemma cur_unfinished n t b : cur (sg n) = Some (t, b) -> unfinished (sg n) t.
Proof. intros Hc. destruct (cur_live _ (proj1 (wfn n)) t b Hc) as [cbs [k [mu E]]]. cbn [coreof snd] in E. unfold unfinished. apply live_iff. unfold islive. now rewrite E. Qed.
Lemma unfinished_dec s t : unfinished s t \/ ~ unfinished s t.
Proof. unfold unfinished. rewrite live_iff. destruct (islive (futs s) t); auto. Qed.
Lemma main_len n : 0 < List.length (futs (sg n)).
Proof. pose proof (live_len (sg n) c (ALIVE n)). lia. Qed.
Context (N : nat) (GONE : forall n t, N <= n -> unfinished (sg n) t -> t = c \/ t = 0).
Lemma quiet n : ~ unfinished (sg n) 0 -> forall j t b, Nat.max N n <= j -> cur (sg j) = Some (t, b) -> t = c.
Proof.
  intros U j t b Hj Hc. pose proof (cur_unfinished j t b Hc) as X. destruct (GONE j t ltac:(lia) X) as [->| ->]; auto. exfalso. apply (stays_finished n j 0 ltac:(lia) (main_len n) U X).
Qed.
(** A loop that has been told to stop stops. *)
Lemma stop_reached k : forall n, (forall j t b, n <= j -> cur (sg j) = Some (t, b) -> t = c) -> stopping (sg n) = true -> batch (sg n) = k -> exists j, stopped (sg j).
Proof.
  induction k as [|k IH]; intros n Q ST Hb; destruct (idle shuffle dut delayers test m sg c R0 EX CS ALIVE HP n Q n (le_n n)) as [j [L [A [B [C D]]]]]; unfold bs in D; injection D as D1 D2.
  - exists j. split; auto. split; congruence.
  - destruct (EX j) as [fire E]. destruct (step_ready shuffle dut delayers fire (sg j) (wfn j)) as [[t' [b' [L' [X _]]]]|[[_ [X _]]|[[L' [_ [X _]]]|[[k' [_ [X1 [X2 X3]]]]|[k' [h' [r' [L' [_ [X1 [_ [_ [X2 X3]]]]]]]]]]]]]; try congruence.
    + exists (S j). rewrite E, X3. split; [exact B|]. split; [reflexivity|]. cbn. congruence.
    + apply (IH (S j)); [intros i t b Hi; apply Q; lia| |]; rewrite E; [rewrite X3; destruct h'; congruence|congruence].
Qed.
Context (NS : forall n, ~ stopped (sg n)).
Lemma never_stopping n : stopping (sg n) = false.
Proof.
  destruct (stopping (sg n)) eqn:ST; auto. exfalso.
  assert (U : ~ unfinished (sg n) 0) by (intros X; pose proof (main_runs shuffle dut delayers test m _ (reachn n) X); congruence).
  assert (ST2 : stopping (sg (Nat.max N n)) = true).
  { assert (Z : forall j, n <= j -> stopping (sg j) = true); [|apply Z; lia]. intros j Hj. induction Hj as [|j Hj IH]; auto. destruct (EX j) as [fire ->].
    destruct (step_ready shuffle dut delayers fire (sg j) (wfn j)) as [[t' [b' [L' [_ [_ X]]]]]|[[_ [_ [_ ->]]]|[[L' [_ [_ [X _]]]]|[[k' [_ [_ [_ ->]]]]|[k' [h' [r' [L' [_ [_ [_ [_ [_ X]]]]]]]]]]]]]; auto; try congruence.
    - unfold bs in X. congruence.
    - rewrite X. destruct h'; auto. }
  destruct (stop_reached _ (Nat.max N n) (quiet n U) ST2 eq_refl) as [j X]. exact (NS j X).
Qed.
Lemma main_lives n : unfinished (sg n) 0.
Proof.
  destruct (unfinished_dec (sg n) 0) as [X|U]; auto. exfalso. set (n1 := Nat.max N n). assert (U1 : ~ unfinished (sg n1) 0) by (apply (stays_finished n n1 0); auto; [lia|apply main_len]).
  destruct (main_ended shuffle dut delayers test m _ (reachn n1) U1) as [X|X]; [pose proof (never_stopping n1); congruence|].
  destruct (drain shuffle dut delayers test m sg c R0 EX CS never_stopping ALIVE HP n1 (quiet n U) n1 HStop (le_n _) X) as [j [r [k [A [B [C D]]]]]].
  destruct (EX j) as [fire E]. pose proof (never_stopping (S j)) as Z. rewrite E in Z. unfold Loop_Model.step in Z. rewrite B, C, D in Z. discriminate Z.
Qed.
Context (v : lval) (TR : test_returned (sg 0) v).
Lemma main_clock : 0 <> c.
Proof.
  intros <-. unfold test_returned in TR. destruct (pr_pr _ _ (reach_pro shuffle dut delayers test m _ HP R0) 0 CS) as [[b [Hc Hb]]|[[k [SU _]]|[[g SU]|X]]].
  - rewrite TR in Hc. injection Hc as <-. exact Hb.
  - exact (proj1 SU _ TR).
  - exact (proj1 SU _ TR).
  - exact (X (ALIVE 0)).
Qed.
Lemma enter : InWait (nstep (sg 0)) 0 (kbv v) (sg 1).
Proof.
  destruct (EX 0) as [fire E]. assert (HK : clock (sg 0) <> None) by congruence. pose proof (ret_waits shuffle dut delayers fire (sg 0) v TR HK) as X. rewrite <- E in X. rewrite X.
  destruct (cur_live _ (proj1 (wfn 0)) 0 _ TR) as [cbs [k [mu E1]]]. cbn [coreof snd] in E1. destruct (v_zero _ (proj1 (alln 0))) as [ws Z]. change (nstep (sg 0)) with (nstep (set_tdone (sg 0) (Some true))). eapply wait_enter; [exact E1|exact Z].
Qed.
Lemma not_left n n0 : ~ Left_ n0 0 (kbv v) (sg n).
Proof.
  intros H. assert (X : exists pr r, cur (sg n) = Some (0, BProg pr) /\ exec_body shuffle dut delayers (sg n) 0 (BProg pr) = finish (sg n) 0 r) by (destruct H as [[H _]|H]; unfold kbv in H; [exists (Ret v), (Ok v)|exists (Raise CancelledError), (Exn CancelledError)]; auto).
  destruct X as [pr [r [Hc E]]]. destruct (EX n) as [fire E2]. assert (E3 : sg (S n) = finish (sg n) 0 r) by (rewrite E2; unfold Loop_Model.step; now rewrite Hc).
  destruct (cur_live _ (proj1 (wfn n)) 0 _ Hc) as [cbs [k [mu E4]]]. cbn [coreof snd] in E4. pose proof (finish_at (sg n) 0 r cbs k None mu E4) as F. rewrite <- E3 in F. pose proof (main_lives (S n)) as U. unfold unfinished in U. apply live_iff in U. unfold islive in U.
  unfold state_of, fget in F. destruct (nth_error (futs (sg (S n))) 0) as [fu|]; [|discriminate]. injection F as F. destruct fu as [st cb kd]. cbn in F. subst st. destruct r as [w|[]], mu; discriminate.
Qed.
Lemma inwait n : 1 <= n -> InWait (nstep (sg 0)) 0 (kbv v) (sg n).
Proof.
  intros H. induction H as [|n H IH]; [apply enter|]. destruct (EX n) as [fire E]. destruct (inwait_step shuffle dut delayers fire _ _ _ _ (alln n) IH) as [X|X]; rewrite <- E in X; auto.
  exfalso. destruct (EX (S n)) as [fire2 E2]. apply (leaving_step shuffle dut delayers fire2) in X. rewrite <- E2 in X. exact (not_left _ _ X).
Qed.
Theorem stops : False.
Proof.
  set (N1 := S N). assert (Q : forall j t b, N1 <= j -> cur (sg j) = Some (t, b) -> t = c).
  { intros j t b Hj Hc. destruct (GONE j t ltac:(unfold N1 in Hj; lia) (cur_unfinished j t b Hc)) as [->| ->]; auto. exfalso. destruct (inwait j ltac:(unfold N1 in Hj; lia)) as [f [fu [cbs [mu [X _]]]]]. exact (X _ Hc). }
  assert (DONE : forall n, N1 <= n -> tdone (sg n) = Some true).
  { intros n Hn. destruct (EX 0) as [fire E]. apply (steps_tdone shuffle dut delayers test m (sg 1)); [apply reachn| |apply later; unfold N1 in Hn; lia]. rewrite E. eapply ret_tdone. exact TR. }
  destruct (reach_last shuffle dut delayers test m sg c R0 EX CS never_stopping ALIVE HP N1 Q begun shuffled DONE ltac:(intros n t Hn; apply GONE; unfold N1 in Hn; lia) N1 (le_n _)) as [j [A B]].
  assert (Z : forall n, N1 <= n -> nstep (sg n) = nstep (sg 0)).
  { intros n Hn. destruct (waiting shuffle dut delayers test m sg c R0 EX CS never_stopping ALIVE HP N1 Q n 0 Hn (main_lives n) main_clock) as [f [fu [W1 [W2 [W3 _]]]]].
    destruct (inwait n ltac:(unfold N1 in Hn; lia)) as [f1 [fu1 [cbs [mu [_ [E1 [E2 [_ Ph]]]]]]]]. rewrite (waitof_task _ _ _ _ _ _ _ E1) in W1. injection W1 as <-. rewrite W2 in E2. injection E2 as <-.
    destruct Ph as [[_ P]|[[P _]|P]]; auto; unfold pending in W3; rewrite P in W3; discriminate. }
  destruct B as [l B]. destruct (EX j) as [fire E]. pose proof (nstep_step shuffle dut delayers fire (sg j)) as X. rewrite B, <- E in X. rewrite (Z j A), (Z (S j) ltac:(lia)) in X. lia.
Qed.
End Live3.
