(** C87: when the results of a driver call are compared, every hook of the call has returned, once. *)
From Coq Require Import List Bool Arith ZArith Lia.
From Verif Require Import Py Prio_Model Loop_Model Loop_Spec Loop2_Spec LoopProg_Model Mon_Model Loop_Proofs Loop2_Proofs Loop3_Proofs Loop4_Proofs Loop9_Proofs Loop10_Proofs Loop13_Proofs Loop14_Proofs Loop15_Proofs Bind_Spec Loop16_Proofs Loop17_Proofs Loop18_Proofs LoopRun_Model LoopRun_Proofs P_Loop Drv_Model Drv_Spec Drv_Proofs P_Drv Whole_Spec.
Import ListNotations.
Open Scope nat_scope.

Section Thms.
Context {mem : Type} (shuffle : list id -> list id) (dut delayers : mem -> mem).
Notation steps := (steps shuffle dut delayers). Notation step := (step shuffle dut delayers). Notation prog := (@prog mem). Notation state := (@state mem).
Notation hook_ran := (hook_ran shuffle dut delayers).
Implicit Types (s : state).
Context (d : @drv mem) (compare : lval -> mem -> mem * res lval).
Notation compares := (compares shuffle dut delayers d compare). Notation handed_over := (handed_over shuffle dut delayers d compare).
Notation under_way := (under_way shuffle dut delayers d compare). Notation busy := (busy shuffle dut delayers d compare).

Lemma ran_events s s1 t z hs es : Forall2 (hook_ran s s1 t z) hs es -> forall e, In e es -> In e (ran s1) /\ List.length (evs s) <= e.
Proof.
  intros F. induction F as [|h e hs es H F IH]; intros e0 I0; [destruct I0|]. destruct I0 as [<-|I0]; auto.
  destruct H as [x [f1 [y [f2 [A [[_ E] [_ [_ [_ H]]]]]]]]]. split; auto. pose proof (evs_le _ _ _ _ _ A). lia.
Qed.
Lemma nodup_app (A : Type) (l1 l2 : list A) : NoDup l1 -> NoDup l2 -> (forall x, In x l1 -> ~ In x l2) -> NoDup (l1 ++ l2).
Proof.
  intros N1 N2 H. induction N1 as [|x l X N1 IH]; cbn [app]; auto. constructor.
  - intros Y. apply in_app_or in Y as [Y|Y]; [now apply X|]. apply (H x); [now left|exact Y].
  - apply IH. intros y Y. apply H. now right.
Qed.
Lemma runs_current s t o (k : res lval -> prog) : runs s t (Op o k) -> current_op s = Some o.
Proof. intros [H|H]; unfold current_op; rewrite H; reflexivity. Qed.

(** A task [t] that awaits a driver call in a reachable state [s], with any models and any method and whatever else is going on.  In every later state
    [s'] one of the following holds.
    - The results have been handed to the comparison.  By then every hook of the call (those of the models without a port for it) has been registered, under
      a name [e] of its own, and has returned, once: the model-first ones before the method started, the others after it had returned.  The comparison is
      made with the value which the method returned and which the caller got.
    - The call has raised an exception (or was cancelled).
    - The caller has got its result, and the task left behind has raised an exception (or was cancelled).
    - The call has not returned yet.
    - The caller has got its result, and the task left behind registers hooks or waits for them. *)
Theorem C87_all_hooks test m mi (func : prog) K s s' t : steps (init test m) s -> runs s t (call d compare mi func K) -> steps s s' ->
  let h1 := first_hooks (d_order d (mm s)) mi in let h2 := later_hooks (d_order d (mm s)) mi in
  (exists s1 s2 s3 s4 i v es1 es2, compares func K s t h1 h2 s1 s2 s3 s4 i v es1 es2 /\ steps s4 s') \/
  (exists s1 e, steps s s1 /\ steps s1 s' /\ runs s1 t (K (Exn e))) \/
  (exists s2 v s1 e, handed_over K h2 s s2 s1 t v /\ steps s1 s' /\ runs s1 (List.length (futs s2)) (Raise e)) \/
  under_way func K h2 s s' t \/
  (exists s2 v, handed_over K h2 s s2 s' t v /\ busy h2 v s2 s' (List.length (futs s2))).
Proof.
  intros R0 Hr R h1 h2.
  destruct (C29_model_first shuffle dut delayers d compare test m mi func K s s' t R0 Hr R) as [[s1 [es1 [A [B [C [N1 F1]]]]]]|[X|[[q [X Y]]|[s2 [es [k [X [Y Z]]]]]]]].
  2: { right; left. exact X. }
  2: { right; right; right; left. eapply uw_prepare; eauto. }
  2: { right; right; right; left. eapply uw_first; eauto. }
  fold h1 in F1. fold h2 in C. assert (R1 : steps (init test m) s1) by (eapply steps_trans; eauto).
  destruct (C29_method shuffle dut delayers d compare test m h2 func K s1 s' t R1 C B) as [X|[[s2 [e [X [Y Z]]]]|[s2 [v [A2 [B2 [[k C2] D2]]]]]]].
  { right; right; right; left. now apply uw_method. }
  { right; left. exists s2, e. split; [eapply steps_trans; eauto|auto]. }
  destruct D2 as [->|[fire [D2 E2]]]. { right; right; right; left. eapply uw_create; eauto. }
  assert (R2 : steps (init test m) s2) by (eapply steps_trans; eauto).
  assert (HO : forall z y, steps z s1 -> steps (step fire s2) y -> handed_over K h2 z s2 y t v).
  { intros z y Z Y. split; [eapply steps_trans; eauto|]. split; [eauto|]. exists fire. auto. }
  assert (OTHER : forall y q, runs y (List.length (futs s2)) q -> steps s2 y -> steps (step fire s2) y).
  { intros y q Y S. destruct (reach_linked _ _ _ _ _ _ R2) as [WF _]. assert (CU : exists b, cur s2 = Some (t, b)) by (destruct C2 as [C2|C2]; eauto). destruct CU as [b CU].
    destruct (cur_task s2 t b WF CU) as [cbs [k0 [w [mu Et]]]]. assert (LT : t < List.length (futs s2)) by (apply nth_error_Some; unfold fget in Et; congruence).
    destruct (steps_first _ _ _ _ _ S) as [->|[fire' S']].
    - exfalso. destruct Y as [Y|Y]; rewrite CU in Y; injection Y as Y _; lia.
    - replace (step fire s2) with (step fire' s2); auto. unfold Loop_Model.step. rewrite CU. reflexivity. }
  pose proof (C29_dut_first shuffle dut delayers d compare test m h2 v s2 fire s' R2 (runs_current _ _ _ _ C2) D2) as P. cbv zeta in P.
  destruct P as [[s3 [s4 [es2 [A3 [B3 [C3 [D3 [N2 F2]]]]]]]]|[[s3 [e [X [Y Z]]]]|[[X [Y [kk [Z1 [Z2 Z3]]]]]|[[q [k' [kx [X Y]]]]|[s3 [es [k' [X [Y Z]]]]]]]]].
  - assert (D4 : steps (step fire s2) s4) by (eapply OTHER; [exact D3|eapply steps_trans; eauto]).
    assert (R4 : steps (init test m) s4) by (eapply steps_trans; [exact R2|eapply steps_trans; eauto]).
    pose proof (ran_events _ _ _ _ _ _ F1) as L1. pose proof (ran_events _ _ _ _ _ _ F2) as L2.
    destruct (ran_once shuffle dut delayers test m s1 R1) as [_ B1]. destruct (ran_once shuffle dut delayers test m s2 R2) as [_ B4]. destruct (ran_once shuffle dut delayers test m s4 R4) as [N4 _].
    pose proof (evs_le shuffle dut delayers _ _ A2) as E12. pose proof (evs_le shuffle dut delayers _ _ A3) as E23. assert (S14 : steps s1 s4) by (eapply steps_trans; [exact A2|eapply steps_trans; eauto]).
    left. exists s1, s2, s3, s4, (List.length (futs s2)), v, es1, es2. split; auto. constructor; auto.
    + split; [|reflexivity]. apply HO; [constructor|exact D4].
    + apply nodup_app; auto. intros e I1 I2. destruct (L1 e I1) as [X _]. apply B1 in X. destruct (L2 e I2) as [_ Y]. lia.
    + intros e I1. now apply L1.
    + intros e I2 X. apply B4 in X. destruct (L2 e I2) as [_ Y]. lia.
    + intros e I0. split; [|exact N4]. apply in_app_or in I0 as [I1|I2]; [|now apply L2]. apply (ran_grows shuffle dut delayers s1 s4 S14). now apply L1.
  - right; right; left. exists s2, v, s3, e. split; [|auto]. apply HO; [exact A|]. eapply OTHER; [exact Z|exact X].
  - right; right; right; right. exists s2, v. split; [apply HO; [exact A|exact D2]|]. eapply by_new; eauto.
  - right; right; right; right. exists s2, v. split; [apply HO; [exact A|exact D2]|]. eapply by_register; eauto.
  - right; right; right; right. exists s2, v. split; [apply HO; [exact A|exact D2]|]. eapply by_wait; eauto.
Qed.
End Thms.

Print Assumptions C87_all_hooks.

(** The call of C29's example: two models with two hooks each, and one with a port.  The method starts when two hooks have returned, the results are compared
    when all four have. *)
Definition a0 := at_ 5.
Definition a1 := run ids keepw keepw 48 a0.
Definition a2 := run ids keepw keepw 21 a1.
Definition a4 := run ids keepw keepw 47 a2.
Example C87_nonvacuous : runs a0 0 (call the_drv no_compare models method finally) /\ steps ids keepw keepw (init t_call world0) a0 /\ steps ids keepw keepw a0 a4 /\
  runs a1 0 (bindr method (after_body the_drv no_compare [hk false 40 3; hk false 20 2] finally)) /\ ran a1 = [2; 1] /\
  current_op a2 = Some (OCreate (background the_drv no_compare [hk false 40 3; hk false 20 2] (VInt 9))) /\ ran a2 = [2; 1] /\
  runs a4 8 (conclude_call the_drv no_compare (VInt 9)) /\ ran a4 = [2; 1; 4; 3] /\ w_log (mm a4) = [4; 1; 7; 2; 3].
Proof.
  split; [right; vm_compute; reflexivity|]. split; [apply run_steps|]. split.
  { eapply steps_trans; [apply (run_steps ids keepw keepw 48)|]. eapply steps_trans; [apply (run_steps ids keepw keepw 21)|]. apply (run_steps ids keepw keepw 47). }
  split; [right; vm_compute; reflexivity|]. split; [vm_compute; reflexivity|]. split; [vm_compute; reflexivity|]. split; [vm_compute; reflexivity|]. split; [left; vm_compute; reflexivity|]. split; vm_compute; reflexivity.
Qed.
