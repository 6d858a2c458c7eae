(** C78: the failure of a task whose outcome somebody takes care of does not end the run. *)
From Coq Require Import List Bool Arith ZArith Lia.
From Verif Require Import Py Loop_Model Handler_Model Handler_Spec Handler_Proofs Handler2_Spec LoopProg_Model LoopRun_Model LoopRun_Proofs P_Loop5 P_Loop P_Handler.
Import ListNotations.
Open Scope nat_scope.

Section Thms.
Context {mem : Type} (shuffle : list id -> list id) (dut delayers : mem -> mem).
Notation xstep := (xstep shuffle dut delayers). Notation xsteps := (xsteps shuffle dut delayers). Notation xstate := (@xstate mem).

Lemma claims_cared (s : @state mem) t : cared_for s t -> In t (claims s) /\ between s = false.
Proof.
  intros H. assert (N : cur s <> None). { destruct H as [(c & k & [E|[E|(? & ? & ? & E)]])|[(l & (c & k & [E|[E|(? & ? & ? & E)]]) & _)|(b & fu & E & _)]]; rewrite E; discriminate. }
  split; [|unfold between; destruct (cur s); [reflexivity|congruence]]. unfold claims.
  destruct H as [(c & k & [E|[E|(? & ? & ? & E)]])|[(l & (c & k & [E|[E|(? & ? & ? & E)]]) & Hl)|(b & fu & E & Hf & Hc)]]; rewrite E; apply in_app_iff; cbn [body_op].
  1-3: right; now left. 1-3: right; exact Hl.
  left. unfold waited. rewrite Hf. destruct fu as [st [|cb cbs] kd]; [now elim Hc|now left].
Qed.
Lemma claimed_step fire gc (x : xstate) t : In t (x_claimed x) -> In t (x_claimed (xstep fire gc x)).
Proof. intros H. unfold Handler_Model.xstep. destruct (x_stop x && between (x_core x)); auto. cbn [x_claimed]. apply in_app_iff. auto. Qed.
Lemma claimed_steps (x x' : xstate) t : xsteps x x' -> In t (x_claimed x) -> In t (x_claimed x').
Proof. intros R H. induction R as [x|x x1 fire gc R IH]; auto. apply claimed_step. auto. Qed.

(** Once task [t] has been awaited or gathered, by a test, a task or a hook, or somebody has waited for it while it ran, then deleting it never calls the handler: the loop stops
    only if it would have stopped without that. *)
Theorem C78_awaited : forall (x x' : xstate) t fire gc fire' gc1 gc2, cared_for (x_core x) t -> xsteps (xstep fire gc x) x' ->
  xstep fire' (gc1 ++ t :: gc2) x' = xstep fire' (gc1 ++ gc2) x'.
Proof.
  intros x x' t fire gc fire' gc1 gc2 H R. destruct (claims_cared _ _ H) as [Hc Hb].
  assert (C : In t (x_claimed x')). { eapply claimed_steps; [exact R|]. unfold Handler_Model.xstep. rewrite Hb, andb_false_r. cbn [x_claimed]. apply in_app_iff. auto. }
  unfold Handler_Model.xstep. destruct (x_stop x' && between (x_core x')); auto. f_equal. f_equal. rewrite !existsb_app. cbn [existsb].
  replace (lost _ _ t) with false; [reflexivity|]. symmetry. unfold lost. destruct (fget _ t) as [[[|[|]| ] cbs [| | | | |k]]|]; auto.
  all: apply negb_false_iff, existsb_exists; exists t; split; [apply in_app_iff; auto|apply Nat.eqb_refl].
Qed.
End Thms.
Print Assumptions C78_awaited.

(** The test awaits the task that fails; a hook does.  Both catch the exception. *)
Definition t_aw : @prog unit := Do OStartClock (Do (OCreate (Raise ValueError)) (Do (OAwait 2) (Do (OEvWait 0) (Ret (VInt 7))))).
Definition t_hk : @prog unit := Do OStartClock (Do (OCreate (Raise ValueError)) (Do (OPrio (Do (OAwait 2) (Ret VNone)) 0 false) (Do (OEvWait 0) (Do (OEvWait 0) (Ret (VInt 7)))))).
Definition kept p n := xrun ids keep keep [] n (xinit p tt).
Definition gone p n k := xrun ids keep keep [2] k (kept p n).
Example C78_awaited_nonvacuous : cared_for (x_core (kept t_aw 5)) 2 /\ cared_for (x_core (kept t_hk 17)) 2 /\
  run_returned (gone t_aw 6 70) (VInt 7) /\ run_returned (gone t_hk 18 70) (VInt 7) /\ run_raised (gone t_hk 16 70) RuntimeError.
Proof.
  split; [left; do 2 eexists; right; left; vm_compute; reflexivity|]. split; [left; do 2 eexists; right; right; do 3 eexists; vm_compute; reflexivity|].
  split; [vm_compute; reflexivity|]. split; vm_compute; reflexivity.
Qed.
