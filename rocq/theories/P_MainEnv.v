(** C76: run(test, env_handle). *)
From Coq Require Import List Bool Arith ZArith Lia Permutation.
From Verif Require Import Py Prio_Model Loop_Model Loop_Spec Bind_Spec Loop2_Spec Loop3_Spec MainEnv_Model MainEnv_Spec Loop_Proofs Loop2_Proofs Loop3_Proofs Loop4_Proofs Loop5_Proofs Loop10_Proofs Loop13_Proofs Loop23_Proofs MainEnv_Proofs LoopRun_Model LoopRun_Proofs P_Loop P_Loop5.
Import ListNotations.
Open Scope nat_scope.

Section Thms.
Context {mem : Type} (shuffle : list id -> list id) (dut delayers : mem -> mem).
Notation steps := (steps shuffle dut delayers). Notation step := (step shuffle dut delayers). Notation prog := (@prog mem). Notation state := (@state mem).
Implicit Types (s : state).
Context (shuffled : forall l, Permutation l (shuffle l)).
Context (env : prog) (test : lval -> prog).
Notation T := (main_env env test).
Notation env_returned := (env_returned shuffle dut delayers env test). Notation env_raised := (env_raised shuffle dut delayers env test).

(** When the loop has stopped, that is run() is left: env_handle has raised an exception and run() fails with it; or env_handle has returned [a], a
    task was made for the test applied to [a], it is done and run() has its result: the value it returned or the exception it failed with.  The third
    case needs user code that awaits or cancels the main task. *)
Theorem C76_result_or_cancelled m s : steps (init T m) s -> stopped s ->
  (exists e, env_raised m s e /\ failed s 0 e) \/
  (exists a i, env_returned m s a (test a) i /\ ((exists v, returned s i v /\ returned s 0 v) \/ (exists e, failed s i e /\ failed s 0 e))) \/
  (state_of s 0 = Some Canc /\ ~ untouched shuffle dut delayers T m).
Proof.
  intros R ST. pose proof (stopped_final shuffle dut delayers T m s R ST) as NP. destruct (reach_linked _ _ _ _ _ _ R) as [WF _].
  destruct (env_track shuffle dut delayers env test m s R) as [[X _]|[s1 [r [W [HW [A [B C]]]]]]]; [apply unfinished_pending in X; congruence|].
  destruct (reach_linked _ _ _ _ _ _ A) as [W1 _].
  assert (RW : forall y p, cur y = Some (0, W p) -> runs y 0 p) by (intros y p; destruct HW as [->| ->]; [now left|now right]).
  assert (END : forall x e, steps (init T m) x -> steps x s -> runs x 0 (Raise e) -> failed s 0 e).
  { intros x e R1 R2 H. destruct (steps_first _ _ _ _ _ R2) as [->|[fire R3]]; [destruct ST as [ST _]; destruct H as [H|H]; congruence|]. destruct (reach_linked _ _ _ _ _ _ R1) as [W2 _].
    eapply (failed_later shuffle dut delayers); [|eapply raise_done; eauto|exact R3]. now apply step_wf. }
  destruct r as [a|e].
  - destruct (test_track shuffle dut delayers env test m shuffled s1 s a W HW A C B) as [->|[[X _]|[[s2 [v [D [E [F G]]]]]|[[s2 [e [D [E [F G]]]]]|[s2 [D [E [F G]]]]]]]].
    + destruct ST as [ST _]. congruence.
    + apply unfinished_pending in X; congruence.
    + assert (R2 : steps (init T m) s2) by (eapply steps_trans; eauto). destruct (reach_linked _ _ _ _ _ _ R2) as [W2 _].
      destruct (ret_result shuffle dut delayers env test m shuffled s2 s v R2 F E ST) as [X|X]; [|auto]. right; left. exists a, (List.length (futs s1)). split.
      * exists s1. split; auto. split; auto. split; [auto|]. split; [|reflexivity]. unfold current_op. rewrite C. destruct HW as [->| ->]; reflexivity.
      * left. exists v. split; auto. unfold returned in *. eapply state_of_done; eauto. discriminate.
    + assert (R2 : steps (init T m) s2) by (eapply steps_trans; eauto). destruct (reach_linked _ _ _ _ _ _ R2) as [W2 _].
      right; left. exists a, (List.length (futs s1)). split.
      * exists s1. split; auto. split; auto. split; [auto|]. split; [|reflexivity]. unfold current_op. rewrite C. destruct HW as [->| ->]; reflexivity.
      * right. exists e. split; [exact (failed_later shuffle dut delayers e s2 s _ W2 G E)|]. eapply END; eauto.
    + assert (R2 : steps (init T m) s2) by (eapply steps_trans; eauto). right; right. split; auto.
      destruct (steps_first _ _ _ _ _ E) as [->|[fire E1]]; [destruct ST as [ST _]; destruct F as [F|F]; congruence|]. destruct (reach_linked _ _ _ _ _ _ R2) as [W2 _].
      pose proof (cancelled_done shuffle dut delayers fire s2 0 W2 F) as Z.
      eapply state_of_done; [|exact E1|exact Z|discriminate]. now apply step_wf.
  - left. exists e. split; [exists s1; split; auto; split; auto|]. eapply END; [exact A|exact B|]. apply RW. exact C.
Qed.
(** User code leaves the main task alone. *)
Theorem C76_result m s : untouched shuffle dut delayers T m -> steps (init T m) s -> stopped s ->
  (exists e, env_raised m s e /\ failed s 0 e) \/
  (exists a i, env_returned m s a (test a) i /\ ((exists v, returned s i v /\ returned s 0 v) \/ (exists e, failed s i e /\ failed s 0 e))).
Proof. intros H R ST. destruct (C76_result_or_cancelled m s R ST) as [X|[X|[_ X]]]; [now left|now right|contradiction]. Qed.
(** The test is not started before env_handle has returned: up to then no task has been made for it by the main task, which is still inside env_handle; after that it has
    one task, and the main task awaits exactly this one. *)
Theorem C76_progress m s : steps (init T m) s ->
  in_env env test s \/ (exists e, env_raised m s e) \/
  exists a s0, steps (init T m) s0 /\ steps s0 s /\ runs s0 0 (after_env test (Ok a)) /\ current_op s0 = Some (OCreate (test a)) /\ let i := List.length (futs s0) in
    s = s0 \/ (unfinished s 0 /\ (runs s 0 (await_test i) \/ waits_for s 0 i)) \/ (exists v, returned s i v) \/ (exists e, failed s i e) \/ ~ untouched shuffle dut delayers T m.
Proof.
  intros R. destruct (env_track shuffle dut delayers env test m s R) as [X|[s1 [r [W [HW [A [B C]]]]]]]; [now left|right].
  assert (RW : forall y p, cur y = Some (0, W p) -> runs y 0 p) by (intros y p; destruct HW as [->| ->]; [now left|now right]).
  destruct r as [a|e]; [right|left; exists e, s1; split; [exact A|split; [exact B|apply RW; exact C]]]. exists a, s1. split; auto. split; auto. split; [auto|]. split; [unfold current_op; rewrite C; destruct HW as [->| ->]; reflexivity|]. cbv zeta.
  destruct (test_track shuffle dut delayers env test m shuffled s1 s a W HW A C B) as [->|[X|[[s2 [v [D [E [F G]]]]]|[[s2 [e [D [E [F G]]]]]|[s2 [D [E [F G]]]]]]]]; auto.
  - right; right; left. exists v. assert (R2 : steps (init T m) s2) by (eapply steps_trans; eauto). destruct (reach_linked _ _ _ _ _ _ R2) as [W2 _]. unfold returned in *. eapply state_of_done; eauto. discriminate.
  - right; right; right; left. exists e. assert (R2 : steps (init T m) s2) by (eapply steps_trans; eauto). destruct (reach_linked _ _ _ _ _ _ R2) as [W2 _]. exact (failed_later shuffle dut delayers e s2 s _ W2 G E).
Qed.
(** What the hypothesis of C76_result asks of env_handle and of the test. *)
Lemma hands_main_env : hands_off env -> (forall a, hands_off (test a)) -> hands_off T.
Proof.
  intros HE HT. unfold hands_off, main_env in *. apply allp_bindr; auto. intros [a|e]; [|apply all_raise]. apply all_op; [exact Logic.I|intros p X; inversion X; subst; apply HT|]. intros [[| |z|[|i]|l]|e]; try apply all_raise.
  apply all_op; [cbn; discriminate|intros p X; inversion X|]. intros [v|e]; [apply all_ret|apply all_raise].
Qed.
End Thms.
Print Assumptions C76_result_or_cancelled.
Print Assumptions C76_result.
Print Assumptions C76_progress.

(** env_handle starts the clock and makes an event; the test waits for the next clock cycle and returns what env_handle gave, or raises. *)
Definition e_env : @prog unit := Op OStartClock (fun _ => Op OEvNew (fun r => match r with Ok v => Ret v | Exn e => Raise e end)).
Definition e_ok (a : lval) : @prog unit := Op (OEvWait 0) (fun _ => Ret a).
Definition e_bad (a : lval) : @prog unit := Op (OEvWait 0) (fun _ => Raise ValueError).
Definition env_at env test n := run ids keep keep n (begin (main_env env test)).
Example C76_nonvacuous : untouched ids keep keep (main_env e_env e_ok) tt /\ stopped (env_at e_env e_ok 53) /\ returned (env_at e_env e_ok 53) 2 (VId 1) /\ returned (env_at e_env e_ok 53) 0 (VId 1) /\
  untouched ids keep keep (main_env e_env e_bad) tt /\ stopped (env_at e_env e_bad 45) /\ failed (env_at e_env e_bad 45) 2 ValueError /\ failed (env_at e_env e_bad 45) 0 ValueError.
Proof.
  split; [apply hands_untouched, hands_main_env; [unfold hands_off, e_env; hands_tac|]; intros a; apply all_op; [exact Logic.I|intros p X; inversion X|intros r; apply all_ret]|]. split; [unfold stopped; split; [|split]; vm_compute; reflexivity|]. split; [vm_compute; reflexivity|]. split; [vm_compute; reflexivity|].
  split; [apply hands_untouched, hands_main_env; [unfold hands_off, e_env; hands_tac|]; intros a; apply all_op; [exact Logic.I|intros p X; inversion X|intros r; apply all_raise]|]. split; [unfold stopped; split; [|split]; vm_compute; reflexivity|]. split; left; vm_compute; reflexivity.
Qed.
