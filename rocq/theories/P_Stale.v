(** C106: order and priority given to [exec] for one driver call, and the calls of the same driver that come after it. *)
From Coq Require Import List String Bool Arith ZArith Lia.
From Verif Require Import Py Prio_Model Loop_Model Loop_Spec Loop2_Spec LoopProg_Model Mon_Model Loop_Proofs Loop2_Proofs Loop3_Proofs Loop4_Proofs Loop9_Proofs Loop10_Proofs Loop13_Proofs Loop14_Proofs Loop15_Proofs Bind_Spec Loop16_Proofs Loop17_Proofs Loop18_Proofs LoopRun_Model LoopRun_Proofs P_Loop P_Loop2 P_Loop3 P_Loop4 Drv_Model Drv_Spec Drv_Proofs P_Drv Exec_Model Exec_Spec Exec_Proofs P_Exec P_Exec2 P_Coro.
Import ListNotations.
Open Scope nat_scope.

Section Thms.
Context {mem : Type} (shuffle : list id -> list id) (dut delayers : mem -> mem).
Notation steps := (steps shuffle dut delayers). Notation step := (step shuffle dut delayers). Notation prog := (@prog mem). Notation state := (@state mem).
Notation hook_ran := (hook_ran shuffle dut delayers).
Implicit Types (s : state).
Context (d : @drv mem) (compare : lval -> mem -> mem * res lval).
(** No order and no priority are assigned to the driver. *)
Definition unset (m : mem) : Prop := d_order d m = None /\ d_prio d m = None.
(** The model-first hooks of the models, and the others, by their own decoration. *)
Definition own_first (mi : list (@minfo mem)) : list hook := filter (@h_first mem) (flat_map (fun i => drv_hooks i ++ agt_hooks i) mi).
Definition own_later (mi : list (@minfo mem)) : list hook := filter (fun h => negb (h_first h)) (flat_map drv_hooks mi) ++ filter (fun h => negb (h_first h)) (flat_map agt_hooks mi).

(** A driver call made while neither attribute is assigned: when its method starts, the hooks that are model-first by their own decoration have been
    registered with their own priority and called, and the others are left for afterwards; or the call has raised, or is still preparing.
    Missing for the full claim (every call that is not given to [exec]): that the attributes are unassigned then, see [C106_refuted]. *)
Theorem C106_own_partial test m mi (func : prog) K s s' t : steps (init test m) s -> runs s t (call d compare mi func K) -> unset (mm s) -> steps s s' ->
  (exists s1 es, steps s s1 /\ steps s1 s' /\ runs s1 t (bindr func (after_body d compare (own_later mi) K)) /\ NoDup es /\ Forall2 (hook_ran s s1 t (@h_prio mem)) (own_first mi) es) \/
  (exists s1 e, steps s s1 /\ steps s1 s' /\ runs s1 t (K (Exn e))) \/
  (exists q, runs s' t q /\ preparing d (then_body d compare func K) (fun e => K (Exn e)) q) \/
  (exists s2 es k, steps s s2 /\ steps s2 s' /\ gathering s2 s' t (map event_wait es) k).
Proof. intros R0 Hr [U1 U2] R. pose proof (C29_model_first shuffle dut delayers d compare test m mi func K s s' t R0 Hr R) as T. rewrite U1, U2 in T. exact T. Qed.
(** The hooks left for afterwards, if the priority is unassigned until they are done. *)
Theorem C106_own_later_partial (test : prog) m l v s fire s' : steps (init test m) s -> current_op s = Some (OCreate (background d compare l v)) -> steps (step fire s) s' ->
  (forall x, steps s x -> steps x s' -> unset (mm x)) ->
  let i := List.length (futs s) in
  (exists s0 s1 es, steps s s0 /\ steps s0 s1 /\ steps s1 s' /\ runs s1 i (conclude_call d compare v) /\ NoDup es /\ Forall2 (hook_ran s0 s1 i (@h_prio mem)) l es) \/
  (exists s1 e, steps s s1 /\ steps s1 s' /\ runs s1 i (Raise e)) \/
  (unfinished s' i /\ (forall b, cur s' <> Some (i, b)) /\ exists k, tget s' i = Some k /\ k_cont k = start (BProg (background d compare l v)) /\ k_wait k = None) \/
  (exists q k kx, runs s' i q /\ registering d k kx q) \/
  (exists s2 es k, steps s s2 /\ steps s2 s' /\ gathering s2 s' i (map event_wait es) k).
Proof. intros R0 Ho R U. apply (C31_dut_first_partial shuffle dut delayers d compare test m None l v s fire s' R0 Ho R). intros x A B. exact (proj2 (U x A B)). Qed.
(** A call whose hooks are done compares the results; if the comparison raises, the exception is that of the task and the attributes are those the comparison
    leaves; otherwise the next thing the task does is to make both unassigned, whoever assigned them. *)
Theorem C106_reset v s s' i : attributes d -> runs s i (conclude_call d compare v) -> steps s s' ->
  s' = s \/ exists fire, steps (step fire s) s' /\ mm (step fire s) = fst (compare v (mm s)) /\
    match snd (compare v (mm s)) with
    | Exn e => runs (step fire s) i (Raise e)
    | Ok _ => s' = step fire s \/ exists fire', steps (step fire' (step fire s)) s' /\ unset (mm (step fire' (step fire s))) /\ runs (step fire' (step fire s)) i (Ret VNone)
    end.
Proof.
  intros LW Hr R. destruct (steps_first _ _ _ _ _ R) as [->|[fire R1]]; [now left|right]. exists fire. split; [exact R1|]. apply runs_wrap in Hr as [W [HW Hc]]. unfold conclude_call in Hc.
  assert (HS := step_op shuffle dut delayers W fire s i _ _ HW Hc). cbn [exec_op] in HS. destruct (compare v (mm s)) as [m1 r] eqn:E. cbn [fst snd]. split; [rewrite HS; reflexivity|]. destruct r as [w|e].
  - destruct (steps_first _ _ _ _ _ R1) as [->|[fire' R2]]; [now left|right]. exists fire'. split; [exact R2|].
    assert (Hc1 : cur (step fire s) = Some (i, W (Op (OMem (fun m => (d_set d None None m, Ok VNone))) (fun _ => Ret VNone)))) by (rewrite HS; reflexivity).
    assert (HS1 := step_op shuffle dut delayers W fire' (step fire s) i _ _ HW Hc1). cbn [exec_op] in HS1. destruct (LW None None (mm (step fire s))) as [L1 L2]. split; [rewrite HS1; split; cbn; auto|]. apply runs_wrap. exists W. split; [exact HW|]. rewrite HS1. reflexivity.
  - apply runs_wrap. exists W. split; [exact HW|]. rewrite HS. reflexivity.
Qed.
End Thms.
Print Assumptions C106_own_partial.
Print Assumptions C106_own_later_partial.
Print Assumptions C106_reset.

(** A call given to [exec] with priority 5 and order "dut_first", in a block of its own; when the block is left, a plain call of the same driver, whose hook is
    model-first with priority 50.  [method]: the method of the first call. *)
Definition given (method : @prog xworld) : @coro xworld := mk_coro "push" (Some ("agent"%string, xdrv)) (call xdrv xcompare (xmi 1) method).
Definition plain_then (_ : list id) (r : res lval) : @prog xworld := call xdrv xcompare (xmi 2) (work 12 1) (fun _ => xend).
Definition x_then (method : @prog xworld) : @prog xworld := Op OStartClock (fun _ => execute xstore "all" 1 (add_all [mk_request (given method) (Some 5%Z) (Some "dut_first"%string) None]) plain_then).
Definition zat method n := run ids xkeep xkeep n (init (x_then method) xw0).
Definition fails : @prog xworld := bindr (clock_cycles 1) (fun _ => Raise (UserExn 7)).
(** The claim is false.  The block is left without any exception, but the first call is not concluded before its hook is done, which the block does not wait
    for: the plain call still finds the order "dut_first", and its method starts, and returns, before its model-first hook is even registered. *)
Theorem C106_refuted : let K := fun _ : res lval => xend in exists s s1 s2, steps ids xkeep xkeep (init (x_then (work 11 1)) xw0) s /\ runs s 0 (call xdrv xcompare (xmi 2) (work 12 1) K) /\ x_res (mm s) = [("agent.push"%string, VInt 11)] /\
  own_first (xmi 2) = [xh 2] /\ steps ids xkeep xkeep s s1 /\ runs s1 0 (bindr (work 12 1) (after_body xdrv xcompare [xh 2] K)) /\ x_log (mm s1) = [11] /\ steps ids xkeep xkeep s1 s2 /\ (exists i e, enrols s2 i (xh 2) 50 e) /\ x_log (mm s2) = [11; 1; 12].
Proof.
  intros K. set (s := zat (work 11 1) 38). set (s1 := run ids xkeep xkeep 1 s). exists s, s1, (run ids xkeep xkeep 45 s1). split; [apply run_steps|]. split; [right; vm_compute; reflexivity|]. split; [vm_compute; reflexivity|]. split; [reflexivity|]. split; [apply run_steps|].
  split; [right; vm_compute; reflexivity|]. split; [vm_compute; reflexivity|]. split; [apply run_steps|]. split; [exists 8; eexists; split; [eexists; left; vm_compute; reflexivity|reflexivity]|vm_compute; reflexivity].
Qed.
(** The method of the first call raises, the exception leaves the block and is caught: order and priority stay assigned, and the hook of the plain call is
    registered after its method, with the priority 5 instead of 50. *)
Theorem C106_raised_refuted : let K := fun _ : res lval => xend in exists s s1 s2, steps ids xkeep xkeep (init (x_then fails) xw0) s /\ runs s 0 (call xdrv xcompare (xmi 2) (work 12 1) K) /\
  own_first (xmi 2) = [xh 2] /\ h_prio (xh 2) = 50%Z /\ (forall i, unfinished s i -> i = 0 \/ i = 1) /\
  steps ids xkeep xkeep s s1 /\ runs s1 0 (bindr (work 12 1) (after_body xdrv xcompare [xh 2] K)) /\ steps ids xkeep xkeep s1 s2 /\ (exists i e, enrols s2 i (xh 2) 5 e) /\ x_log (mm s2) = [12].
Proof.
  intros K. set (s := zat fails 30). set (s1 := run ids xkeep xkeep 1 s). exists s, s1, (run ids xkeep xkeep 19 s1). split; [apply run_steps|]. split; [right; vm_compute; reflexivity|]. split; [reflexivity|]. split; [reflexivity|].
  split; [|split; [apply run_steps|]; split; [right; vm_compute; reflexivity|]; split; [apply run_steps|]; split; [exists 5; eexists; split; [eexists; left; vm_compute; reflexivity|reflexivity]|vm_compute; reflexivity]].
  intros i H. unfold unfinished in H. replace (live s) with [0; 1] in H by (vm_compute; reflexivity). destruct H as [<-|[<-|[]]]; auto.
Qed.
Print Assumptions C106_refuted.
Print Assumptions C106_raised_refuted.

(** Calls made while nothing is assigned: that of [C29_nonvacuous]. *)
Example C106_nonvacuous : let s := at_ 5 in let s1 := run ids keepw keepw 48 s in steps ids keepw keepw (init t_call world0) s /\ runs s 0 (call the_drv no_compare models method finally) /\ unset the_drv (mm s) /\ own_first models = [hk true 30 1; hk true 10 4] /\
  steps ids keepw keepw s s1 /\ runs s1 0 (bindr method (after_body the_drv no_compare (own_later models) finally)) /\ w_log (mm s1) = [4; 1].
Proof.
  intros s s1. split; [apply run_steps|]. split; [right; vm_compute; reflexivity|]. split; [split; vm_compute; reflexivity|]. split; [vm_compute; reflexivity|]. split; [apply run_steps|]. split; [right; vm_compute; reflexivity|vm_compute; reflexivity].
Qed.
Definition none_set (s : @state world) : bool := match w_order (mm s), w_prio (mm s) with None, None => true | _, _ => false end.
Example C106_nonvacuous_later : let s := at_ 74 in let s' := run ids keepw keepw 47 s in steps ids keepw keepw (init t_call world0) s /\ current_op s = Some (OCreate (background the_drv no_compare (own_later models) (VInt 9))) /\
  (forall x, steps ids keepw keepw s x -> unset the_drv (mm x)) /\ steps ids keepw keepw s s' /\ runs s' 8 (conclude_call the_drv no_compare (VInt 9)) /\ w_log (mm s') = [4; 1; 7; 2; 3].
Proof.
  intros s s'. split; [apply run_steps|]. split; [vm_compute; reflexivity|]. split; [|split; [apply run_steps|]; split; [left; vm_compute; reflexivity|vm_compute; reflexivity]].
  intros x R. assert (X : none_set x = true) by (refine (allrun_steps ids keepw keepw none_set 200 s _ x R); vm_compute; reflexivity). unfold none_set in X. split; cbn; destruct (w_order (mm x)), (w_prio (mm x)); try discriminate; reflexivity.
Qed.
(** The first call of [x_then] is concluded, and its order and priority are gone. *)
Example C106_nonvacuous_reset : let s := zat (work 11 1) 63 in attributes xdrv /\ steps ids xkeep xkeep (init (x_then (work 11 1)) xw0) s /\ runs s 4 (conclude_call xdrv xcompare (VInt 11)) /\ x_prio (mm s) = Some 5%Z /\ unset xdrv (mm (run ids xkeep xkeep 2 s)).
Proof. intros s. split; [apply xdrv_attributes|]. split; [apply run_steps|]. split; [left; vm_compute; reflexivity|]. split; [vm_compute; reflexivity|]. split; vm_compute; reflexivity. Qed.
