(** C31: priority and order given to [exec] for one driver call. *)
From Coq Require Import List String Bool Arith ZArith Lia.
From Verif Require Import Py Prio_Model Loop_Model Loop_Spec Loop2_Spec LoopProg_Model Mon_Model Loop_Proofs Loop2_Proofs Loop3_Proofs Loop4_Proofs Loop9_Proofs Loop10_Proofs Loop13_Proofs Loop14_Proofs Loop15_Proofs Bind_Spec Loop16_Proofs Loop17_Proofs Loop18_Proofs LoopRun_Model LoopRun_Proofs P_Loop P_Loop2 P_Loop3 P_Loop4 Drv_Model Drv_Spec Drv_Proofs P_Drv Exec_Model Exec_Spec Exec_Proofs P_Exec.
Import ListNotations.
Open Scope nat_scope.

Section Calls.
Context {mem : Type}.
Notation prog := (@prog mem).
(** Driver calls can be awaited by an executor; if the method leaves the event [e] alone, so does the call. *)
Section Upto.
Context (C : @op mem prog -> Prop) (HC : forall o, (forall e, o <> OEvSet e) -> C o).
Ltac lib := apply HC; intros e0 X0; discriminate X0.
Lemma upto_await_all l : forall vs J K, (forall r, upto C K (J r)) -> upto C K (@await_all mem l vs J).
Proof. induction l as [|i l IH]; intros vs J K H; cbn [await_all]; [apply H|]. apply upto_op; [lib|]. intros [v|e]; [apply IH; auto|apply H]. Qed.
Lemma upto_create_all l : forall is J X K, (forall is, upto C K (J is)) -> (forall r, upto C K (X r)) -> upto C K (@create_all mem l is J X).
Proof. induction l as [|p l IH]; intros is J X K H1 H2; cbn [create_all]; [apply H1|]. apply upto_op; [lib|]. intros [v|e]; [destruct v; auto|apply H2]. Qed.
Lemma upto_gather l J K : (forall r, upto C K (J r)) -> upto C K (@gather mem l J).
Proof. intros H. unfold gather. apply upto_create_all; auto. intros is. now apply upto_await_all. Qed.
Lemma upto_bindr_to (p : prog) J K : allp C p -> (forall r, upto C K (J r)) -> upto C K (bindr p J).
Proof. intros A H. revert p A. cofix IH. intros p A. rewrite bindr_unfold. destruct p as [v|e|o k]; [apply H|apply H|]. apply upto_op; [now inversion A|]. intros r. apply IH. now inversion A. Qed.
Lemma upto_call (d : @drv mem) compare mi func K : allp C func -> upto C K (call d compare mi func K).
Proof.
  intros A. unfold call. assert (KX : forall e : exn, upto C K (K (Exn e))) by (intros e; apply upto_end).
  assert (TB : forall es ld la, upto C K (then_body d compare func K es ld la)).
  { intros es ld la. unfold then_body. apply upto_gather. intros [v|e]; [|apply upto_end]. apply upto_bindr_to; auto. unfold after_body. intros [w|e]; [|apply upto_end]. apply upto_op; [lib|]. intros [x|e]; apply upto_end. }
  generalize (@nil id) as es. generalize (@nil (@hook mem)) at 1 as ld. generalize (@nil (@hook mem)) as la.
  assert (RG : forall h k, (forall e, upto C K (k e)) -> upto C K (reg d h k (fun e => K (Exn e)))).
  { intros h k Hk. unfold reg. destruct (h_coro h); [apply upto_end|]. apply upto_op; [lib|]. intros [[]|e]; try apply upto_end. unfold enroll. apply upto_op; [lib|]. intros [[]|e]; try apply upto_end. apply Hk. }
  induction (flat_map items_of mi) as [|x l IH]; intros la ld es; cbn [setup]; [apply TB|]. destruct x as [u|h|h].
  - unfold port_put. destruct (u_msg u) as [v|e]; [|apply upto_end]. apply upto_op; [lib|]. intros [[]|e]; try apply upto_end. destruct (_ && _); [apply IH|]. unfold put_now. apply upto_op; [lib|]. intros [w|e]; [|apply upto_end]. unfold flagged. apply upto_op; [lib|]. intros r. apply IH.
  - unfold choose. apply upto_op; [lib|]. intros [[|[]| | |]|e]; try apply upto_end; [apply RG; intros e; apply IH|apply IH].
  - unfold choose. apply upto_op; [lib|]. intros [[|[]| | |]|e]; try apply upto_end; [apply RG; intros e; apply IH|apply IH].
Qed.
End Upto.
Lemma call_awaitable name ag (d : @drv mem) compare mi func : awaitable (mk_coro name ag (call d compare mi func)).
Proof. intros K. apply upto_call; [intros; exact I|]. revert func. cofix IH. intros [v|e|o k]; [apply all_ret|apply all_raise|apply all_op; [exact I|intros; apply IH|intros; apply IH]]. Qed.
Lemma call_leaves e name ag (d : @drv mem) compare mi func : allp (fun o => o <> OEvSet e) func -> leaves e (mk_coro name ag (call d compare mi func)).
Proof. intros A K. apply upto_call; auto. Qed.
End Calls.

Section Thms.
Context {mem : Type} (shuffle : list id -> list id) (dut delayers : mem -> mem).
Notation steps := (steps shuffle dut delayers). Notation step := (step shuffle dut delayers). Notation prog := (@prog mem). Notation state := (@state mem).
Notation hook_ran := (hook_ran shuffle dut delayers). Notation added := (@added mem).
Implicit Types (s : state).
Context (d : @drv mem) (compare : lval -> mem -> mem * res lval).
(** Assigning the attributes of the driver: what is read afterwards is what was assigned. *)
Definition attributes : Prop := forall o p m, d_order d (d_set d o p m) = o /\ d_prio d (d_set d o p m) = p.

Lemma order_meant x o : means x o -> o = order_of x.
Proof.
  intros [A B]. unfold order_of. destruct x as [x|].
  - destruct (String.eqb_spec x "model_first") as [->|N1]; [now apply A|]. destruct (String.eqb_spec x "dut_first") as [->|N2]; [now apply B|]. destruct o as [[]|]; auto; exfalso; [apply N1|apply N2]; [assert (X := proj1 A eq_refl)|assert (X := proj1 B eq_refl)]; congruence.
  - destruct o as [[]|]; auto; [assert (X := proj1 A eq_refl)|assert (X := proj1 B eq_refl)]; discriminate.
Qed.
(** The task of a group comes to the driver call [a], with the order and priority given to [exec]; whatever the attributes of the driver were, whatever other
    groups and calls do: in every later state [s'] the attributes have not yet been assigned, or one of the following holds.
    - The method has started; before that every hook that is model-first according to the given order (without one: according to the hook) has been
      registered with the given priority (without one: that of the hook) and called; the other hooks are left to run afterwards.
    - The call has raised an exception (or was cancelled) without starting the method.
    - The call is looking at ports and hooks, or waiting for the model-first hooks.
    Missing for the full claim: the priority of the hooks that run afterwards, see [C31_dut_first_partial] and [C31_refuted]. *)
Theorem C31_model_first_partial test m (a : added) rest vs ce ag mi (func : prog) s s' t o : attributes -> means (a_order a) o -> c_drv (a_coro a) = Some (ag, d) -> c_await (a_coro a) = call d compare mi func ->
  steps (init test m) s -> runs s t (seq_all (a :: rest) vs ce) -> steps s s' ->
  s' = s \/ exists s0 K, begins_coro shuffle dut delayers a s s0 /\ runs s0 t (call d compare mi func K) /\ (forall v, K (Ok v) = seq_all rest (vs ++ [v]) ce) /\
  ((exists s1 es, steps s0 s1 /\ steps s1 s' /\ runs s1 t (bindr func (after_body d compare (later_hooks o mi) K)) /\ NoDup es /\
     Forall2 (hook_ran s0 s1 t (priority (a_prio a))) (first_hooks o mi) es) \/
   (exists s1 e, steps s0 s1 /\ steps s1 s' /\ runs s1 t (K (Exn e))) \/
   (exists q, runs s' t q /\ preparing d (then_body d compare func K) (fun e => K (Exn e)) q) \/
   (exists s2 es k, steps s0 s2 /\ steps s2 s' /\ gathering s2 s' t (map event_wait es) k)).
Proof.
  intros LW MO Hd Ha R0 Hr R. apply order_meant in MO. subst o. destruct (steps_first _ _ _ _ _ R) as [->|[fire R1]]; [now left|right]. apply runs_wrap in Hr as [W [HW Hc]]. cbn [seq_all] in Hc. unfold assign in Hc. rewrite Hd, Ha in Hc.
  assert (HS := step_op shuffle dut delayers W fire s t _ _ HW Hc). cbn [exec_op] in HS. set (K := fun r : res lval => match r with Ok v => seq_all rest (vs ++ [v]) ce | Exn e => Raise e end) in *. destruct (LW (order_of (a_order a)) (a_prio a) (mm s)) as [L1 L2].
  exists (step fire s), K. assert (RN : runs (step fire s) t (call d compare mi func K)) by (rewrite HS; apply runs_wrap; exists W; split; [exact HW|reflexivity]).
  split; [unfold begins_coro; rewrite Hd; eauto|]. split; [exact RN|]. split; [reflexivity|].
  assert (RR : steps (init test m) (step fire s)) by (apply steps_step; exact R0). pose proof (C29_model_first shuffle dut delayers d compare test m mi func K (step fire s) s' t RR RN R1) as T.
  replace (d_order d (mm (step fire s))) with (order_of (a_order a)) in T by (rewrite HS; cbn; auto). replace (d_prio d (mm (step fire s))) with (a_prio a) in T by (rewrite HS; cbn; auto). exact T.
Qed.
(** The hooks left to run afterwards: if the attribute of the driver is still the priority given to [exec] until they are done (in every state between the return
    of the method and [s']), they are registered with it. *)
Theorem C31_dut_first_partial (test : prog) m p l v s fire s' : steps (init test m) s -> current_op s = Some (OCreate (background d compare l v)) -> steps (step fire s) s' ->
  (forall x, steps s x -> steps x s' -> d_prio d (mm x) = p) ->
  let i := List.length (futs s) in
  (exists s0 s1 es, steps s s0 /\ steps s0 s1 /\ steps s1 s' /\ runs s1 i (conclude_call d compare v) /\ NoDup es /\ Forall2 (hook_ran s0 s1 i (priority p)) l es) \/
  (exists s1 e, steps s s1 /\ steps s1 s' /\ runs s1 i (Raise e)) \/
  (unfinished s' i /\ (forall b, cur s' <> Some (i, b)) /\ exists k, tget s' i = Some k /\ k_cont k = start (BProg (background d compare l v)) /\ k_wait k = None) \/
  (exists q k kx, runs s' i q /\ registering d k kx q) \/
  (exists s2 es k, steps s s2 /\ steps s2 s' /\ gathering s2 s' i (map event_wait es) k).
Proof.
  intros R0 Ho R HP i. destruct (C29_dut_first shuffle dut delayers d compare test m l v s fire s' R0 Ho R) as [[s0 [s1 [es [A [B [C [D [E F]]]]]]]]|X]; [left|right; exact X].
  exists s0, s1, es. rewrite (HP s0 A (steps_trans _ _ _ _ _ _ B C)) in F. auto 8.
Qed.
End Thms.
Print Assumptions C31_model_first_partial.
Print Assumptions C31_dut_first_partial.

(** Two calls of the same driver in one group: the first with priority 5 and order "dut_first", the second with priority 7; the hook of the first call logs 1,
    that of the second 2. *)
Definition xh (n : nat) : @hook xworld := mk_hook true 50 (xlog n) false.
Definition xmi (n : nat) : list (@minfo xworld) := [mk_minfo [] None (Some (xh n)) []].
Definition xcompare (v : lval) (m : xworld) : xworld * res lval := (m, Ok VNone).
Definition xcall (n : nat) : @coro xworld := mk_coro "push" (Some ("agent"%string, xdrv)) (call xdrv xcompare (xmi n) (work (10 + n) 1)).
Definition calls2 (o : string) : @coros xworld := add_all [mk_request (xcall 1) (Some 5%Z) (Some o) None; mk_request (xcall 2) (Some 7%Z) (Some o) None].
Definition x_two (o : string) : @prog xworld := Op OStartClock (fun _ => Op OEvNew (fun _ => execute xstore "all" 1 (calls2 o) (fun _ _ => xend))).
Definition yat o n := run ids xkeep xkeep n (init (x_two o) xw0).
Lemma xdrv_attributes : attributes xdrv.
Proof. intros o p m. split; reflexivity. Qed.
Example C31_nonvacuous : let s := yat "parallel" 12 in let s1 := run ids xkeep xkeep 30 s in let a := mk_added (xcall 1) (Some "model_first"%string) (Some 5%Z) in
  let l := [mk_added (xcall 2) (Some "model_first"%string) (Some 7%Z)] in
  steps ids xkeep xkeep (init (x_two "parallel") xw0) s /\ runs s 2 (seq_all (a :: l) [] None) /\ means (a_order a) (Some true) /\ first_hooks (Some true) (xmi 1) = [xh 1] /\
  runs s1 2 (bindr (work 11 1) (after_body xdrv xcompare [] (fun r => match r with Ok v => seq_all l [v] None | Exn e => Raise e end))) /\ x_log (mm s1) = [1] /\ enrols (run ids xkeep xkeep 3 s) 2 (xh 1) 5 2 /\ x_prio (mm (run ids xkeep xkeep 43 s)) = Some 7%Z /\ enrols (run ids xkeep xkeep 45 s) 2 (xh 2) 7 3.
Proof.
  intros s s1 a l. split; [apply run_steps|]. split; [left; vm_compute; reflexivity|]. split; [split; split; auto; discriminate|]. split; [reflexivity|]. split; [left; vm_compute; reflexivity|]. split; [vm_compute; reflexivity|].
  split; [split; [eexists; left; vm_compute; reflexivity|vm_compute; reflexivity]|]. split; [vm_compute; reflexivity|]. split; [eexists; left; vm_compute; reflexivity|vm_compute; reflexivity].
Qed.
(** The claim is false for the hooks that run afterwards: the hook of the first call is registered with the priority 7 of the second, and the hook of the second,
    whose priority has been reset when the first call was concluded, with its own priority 50. *)
Theorem C31_refuted : let a1 := mk_added (xcall 1) (Some "dut_first"%string) (Some 5%Z) in let a2 := mk_added (xcall 2) (Some "dut_first"%string) (Some 7%Z) in
  exists s x y e1 e2, steps ids xkeep xkeep (init (x_two "dut_first") xw0) s /\ runs s 2 (seq_all [a1; a2] [] None) /\
    later_hooks (Some false) (xmi 1) = [xh 1] /\ later_hooks (Some false) (xmi 2) = [xh 2] /\
    steps ids xkeep xkeep s x /\ (exists i, enrols x i (xh 1) 7 e1) /\ steps ids xkeep xkeep x y /\ (exists i, enrols y i (xh 2) 50 e2).
Proof.
  intros a1 a2. set (s := yat "dut_first" 12). set (x := run ids xkeep xkeep 24 s). exists s, x, (run ids xkeep xkeep 47 x). eexists _, _. split; [apply run_steps|]. split; [left; vm_compute; reflexivity|]. split; [reflexivity|]. split; [reflexivity|].
  split; [apply run_steps|]. split; [exists 4; split; [eexists; left; vm_compute; reflexivity|reflexivity]|]. split; [apply run_steps|]. exists 8; split; [eexists; left; vm_compute; reflexivity|reflexivity].
Qed.
Print Assumptions C31_refuted.
(** A single call whose comparison fails, so that the attributes are not reset. *)
Definition xfail (v : lval) (m : xworld) : xworld * res lval := (m, Exn AssertionError).
Definition xcall1 : @coro xworld := mk_coro "push" (Some ("agent"%string, xdrv)) (call xdrv xfail (xmi 1) (work 11 1)).
Definition x_one : @prog xworld := Op OStartClock (fun _ => execute xstore "all" 1 (add_all [mk_request xcall1 (Some 5%Z) (Some "dut_first"%string) None]) (fun _ _ => xend)).
Definition five (s : @state xworld) : bool := match x_prio (mm s) with Some 5%Z => true | _ => false end.
Example C31_nonvacuous_dut_first : let s := run ids xkeep xkeep 25 (init x_one xw0) in let s' := run ids xkeep xkeep 37 s in current_op s = Some (OCreate (background xdrv xfail [xh 1] (VInt 11))) /\ (forall x, steps ids xkeep xkeep s x -> d_prio xdrv (mm x) = Some 5%Z) /\
  runs s' 4 (conclude_call xdrv xfail (VInt 11)).
Proof.
  intros s s'. split; [vm_compute; reflexivity|]. split; [|left; vm_compute; reflexivity]. intros x R. assert (X : five x = true) by (refine (allrun_steps ids xkeep xkeep five 200 s _ x R); vm_compute; reflexivity).
  unfold five in X. change (d_prio xdrv (mm x)) with (x_prio (mm x)). destruct (x_prio (mm x)) as [z|]; [|discriminate]. destruct z as [|[[]|[]|]|]; try discriminate; auto. all: destruct p; try discriminate; auto.
Qed.
