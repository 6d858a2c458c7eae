(** Lemmas about [run]. *)
From Coq Require Import List Bool Arith ZArith.
From Verif Require Import Py Prio_Model Loop_Model Loop2_Proofs LoopRun_Model.
Import ListNotations.
Open Scope nat_scope.

Section Run.
Context {mem : Type} (shuffle : list id -> list id) (dut delayers : mem -> mem).
Lemma run_steps n (s : @state mem) : steps shuffle dut delayers s (run shuffle dut delayers n s).
Proof.
  revert s. induction n as [|n IH]; intros s; simpl; [constructor|]. eapply steps_trans; [|apply IH]. econstructor. constructor.
Qed.
End Run.

(** Executions without timers that come to an end have only the states of [run]. *)
Section Det.
Context {mem : Type} (shuffle : list id -> list id) (dut delayers : mem -> mem).
Notation run := (run shuffle dut delayers). Notation step := (step shuffle dut delayers).
Definition untimed (s : @state mem) : bool := forallb (fun fu => match f_kind fu with KTimer => false | _ => true end) (futs s).
Definition ended (s : @state mem) : bool := match cur s, batch s with None, 0 => stopping s | _, _ => false end.
Lemma untimed_fire l (s : @state mem) : untimed s = true -> fold_left fire1 l s = s.
Proof.
  intros H. induction l as [|f l IH]; simpl; auto. enough (E : fire1 s f = s) by now rewrite E. unfold fire1, fget. destruct (nth_error (futs s) f) as [[st cbs k]|] eqn:Ef; auto. destruct k; auto.
  apply nth_error_In in Ef. unfold untimed in H. rewrite forallb_forall in H. apply H in Ef. discriminate.
Qed.
Lemma untimed_step fire (s : @state mem) : untimed s = true -> step fire s = step [] s.
Proof. intros H. unfold Loop_Model.step. destruct (cur s) as [[t b]|]; auto. destruct (batch s); auto. destruct (stopping s); auto. now rewrite untimed_fire. Qed.
Fixpoint allrun (P : @state mem -> bool) (n : nat) (s : @state mem) : bool := P s && match n with 0 => ended s | S m => allrun P m (step [] s) end.
Lemma run_S n (s : @state mem) : run (S n) s = step [] (run n s).
Proof. revert s. induction n as [|n IH]; intros s; auto. simpl in *. now rewrite IH. Qed.
Lemma allrun_steps P n : forall (s : @state mem), allrun (fun s => untimed s && P s) n s = true -> forall x, steps shuffle dut delayers s x -> P x = true.
Proof.
  intros s H. assert (A : forall x, steps shuffle dut delayers s x -> exists k, k <= n /\ x = run k s).
  { intros x R. induction R as [s|s x fire R IH]; [exists 0; split; auto; apply le_0_n|]. destruct (IH H) as [k [L ->]]. clear IH R. revert s k H L. induction n as [|n IH]; intros s k H L; simpl in H; apply andb_prop in H as [H1 H2]; apply andb_prop in H1 as [H0 H1].
    - apply Nat.le_0_r in L. subst k. exists 0. split; auto. simpl. unfold ended in H2. unfold Loop_Model.step. destruct (cur s); [discriminate|]. destruct (batch s); [|discriminate]. now rewrite H2.
    - destruct k as [|k].
      + exists 1. split; [apply le_n_S, le_0_n|]. simpl. now apply untimed_step.
      + simpl. destruct (IH (step [] s) k H2 (le_S_n _ _ L)) as [k' [L' E]]. exists (S k'). split; [now apply le_n_S|]. exact E. }
  intros x R. destruct (A x R) as [k [L ->]]. clear A R. revert s k H L. induction n as [|n IH]; intros s k H L; simpl in H; apply andb_prop in H as [H1 H2]; apply andb_prop in H1 as [_ H1].
  - apply Nat.le_0_r in L. now subst k.
  - destruct k as [|k]; auto. simpl. apply IH; auto. now apply le_S_n.
Qed.
End Det.
