(** C112: what is left of a test after run(). *)
From Coq Require Import List Bool Arith ZArith Lia Permutation.
From Verif Require Import Py Prio_Model Loop_Model Loop_Spec Loop2_Spec Loop3_Spec Loop_Proofs Loop2_Proofs Loop3_Proofs Loop4_Proofs Loop5_Proofs Loop9_Proofs Loop10_Proofs Loop13_Proofs Loop20_Proofs Loop21_Proofs Loop22_Proofs Loop23_Proofs LoopRun_Model LoopRun_Proofs P_Loop P_Loop5 Cleanup_Model Cleanup_Spec Cleanup_Proofs.
Import ListNotations.
Open Scope nat_scope.

Section Thms.
Context {mem : Type} (shuffle : list id -> list id) (dut delayers : mem -> mem) (shuffled : forall l, Permutation l (shuffle l)).
Notation steps := (steps shuffle dut delayers). Notation step := (step shuffle dut delayers). Notation goes := (goes shuffle dut delayers). Notation cleanup := (cleanup shuffle). Notation prog := (@prog mem).
Lemma goes_wf (s s' : @state mem) : Wf s -> goes s s' -> Wf s'.
Proof. intros W R. induction R as [s|s s1 fire R IH|s s1 R IH]; auto; [now apply step_wf, IH|]. destruct (IH W) as [I [K1 K2 K3]]. split; [exact I|constructor; assumption]. Qed.
Lemma goes_done (s s' : @state mem) f st : Wf s -> goes s s' -> state_of s f = Some st -> st <> Pending -> state_of s' f = Some st.
Proof. intros W R E Hn. induction R as [s|s s1 fire R IH|s s1 R IH]; auto. eapply state_of_done; [eapply goes_wf; eauto| | |exact Hn]; [apply steps_step, steps_refl|auto]. Qed.

(** The DUT is not stepped any more once the loop has stopped, whatever the cancelled tasks do, provided the clock task was not inside a hook. *)
Theorem C112_no_step_partial (test : prog) m s c s' : steps (init test m) s -> stopped s -> clock s = Some c -> between_hooks s c -> goes (cleanup s) s' -> nstep s' = nstep s.
Proof.
  intros R ST HC BH G. pose proof (reach_all shuffle dut delayers test m s R) as A.
  destruct (dm_goes shuffle dut delayers c (cleanup s) s') as [_ [_ [_ [_ N]]]]; auto.
  - apply cleanup_wf; auto. exact (v_wf _ (proj1 A)).
  - apply cleanup_clk1; auto. exact (proj2 A).
  - now rewrite cleanup_clock.
  - eapply cleanup_dm; eauto.
  - rewrite N. apply cleanup_nstep.
Qed.
(** When the loop has stopped again, every task that was unfinished has ended (the future that gathers them is known to the cleanup alone; nobody else cancels it). *)
Theorem C112_all_ended_partial (test : prog) m s s' : steps (init test m) s -> stopped s -> steps (cleanup s) s' -> stopped s' -> state_of s' (List.length (futs s)) <> Some Canc -> all_ended s s'.
Proof.
  intros R ST G ST' NC t U. pose proof (reach_all shuffle dut delayers test m s R) as A. pose proof (v_wf _ (proj1 A)) as W.
  assert (Ht : In t (shuffle (live s))) by (now apply live_shuffle). assert (Ne : shuffle (live s) <> []) by (intros X; rewrite X in Ht; destruct Ht).
  destruct (reach_sp shuffle dut delayers test m s R) as [_ Z]. specialize (Z (proj2 (proj2 ST))). pose proof (cleanup_wf shuffle shuffled s W) as W1.
  destruct (stge_steps shuffle dut delayers _ _ _ W1 (cleanup_stge shuffle shuffled s Ne Z) G) as [_ Q]. destruct (Q (proj2 (proj2 ST'))) as [fu [E P]].
  assert (X : exists r, state_of s' (List.length (futs s)) = Some (Finished r)).
  { unfold state_of, fget in *. rewrite E in *. cbn in *. unfold pending in P. destruct (f_st fu); [discriminate|eauto|congruence]. }
  destruct X as [r X]. pose proof (gat_steps shuffle dut delayers _ _ _ _ W1 (cleanup_gat shuffle shuffled s (reach_fresh shuffle dut delayers test m s R) Ne) G) as GA.
  pose proof (gat_done _ _ _ _ GA X t Ht) as D. unfold unfinished in U. apply live_iff in U. destruct (live_task _ _ U) as [cbs [k [w [mu Et]]]].
  assert (E1 : exists fu1, nth_error (futs (cleanup s)) t = Some fu1 /\ is_task (f_kind fu1) = true).
  { rewrite cleanup_put by auto. cbn [fput set_futs futs]. rewrite (put_nth_get _ _ _ _ t (prep_g s _ (live_lt shuffle shuffled s))). destruct (Nat.eqb_spec t (List.length (futs s))) as [->|].
    - pose proof (islive_len _ _ U). lia.
    - destruct (mstar_ext _ _ _ _ (prep_core s (shuffle (live s))) t _ Et) as [fu1 [Y [K _]]]. exists fu1. split; [exact Y|]. destruct fu1 as [? ? []]; cbn in *; auto; contradiction. }
  destruct E1 as [fu1 [E1 T1]]. destruct (steps_fext shuffle dut delayers _ _ W1 G t fu1 E1) as [fu2 [E2 [K2 _]]]. unfold state_of, fget. rewrite E2. exists (f_st fu2). split; auto. intros Y.
  unfold islive in D. rewrite E2 in D. destruct fu2 as [st2 cbs2 kd2], fu1 as [st1 cbs1 kd1]. cbn in *. subst st2. destruct kd1; try discriminate. destruct kd2; try contradiction. discriminate.
Qed.
(** The cleanup does not change what run() returns or raises. *)
Theorem C112_outcome (test : prog) m s s' : steps (init test m) s -> stopped s -> goes (cleanup s) s' -> exists st, state_of s 0 = Some st /\ st <> Pending /\ state_of s' 0 = Some st.
Proof.
  intros R ST G. pose proof (reach_all shuffle dut delayers test m s R) as A. pose proof (v_wf _ (proj1 A)) as W. destruct (stopped_done shuffle dut delayers test m s R (proj2 (proj2 ST))) as [fu [E P]].
  exists (f_st fu). assert (Hn : f_st fu <> Pending) by (intros X; unfold pending in P; rewrite X in P; discriminate). split; [unfold state_of, fget; now rewrite E|]. split; auto.
  apply (goes_done (cleanup s)); auto; [now apply cleanup_wf|]. unfold state_of, fget.
  destruct (shuffle (live s)) as [|x0 l0] eqn:El; [rewrite cleanup_none by auto; now rewrite E|]. rewrite cleanup_put by (auto; congruence). cbn [fput set_futs futs].
  rewrite (put_nth_get _ _ _ _ 0 (prep_g s _ (live_lt shuffle shuffled s))). destruct (Nat.eqb_spec 0 (List.length (futs s))) as [L0|]; [destruct (futs s); discriminate|].
  destruct (mstar_ext _ _ _ _ (prep_core s (shuffle (live s))) 0 _ E) as [fu1 [Y [_ Q]]]. cbn [coreof snd] in Y. rewrite Y. cbn. f_equal. auto.
Qed.
End Thms.
Print Assumptions C112_no_step_partial.
Print Assumptions C112_all_ended_partial.
Print Assumptions C112_outcome.

(** * Concrete tests that raise after one cycle, with the task [p] in the background *)
Definition t_raise (p : @prog unit) : @prog unit := Try OStartClock (Try OEvNew (Try (OCreate p) (Op (OEvWait 0) (fun _ => Raise RuntimeError)))).
Definition ra (p : @prog unit) n := run ids keep keep n (begin (t_raise p)).
Definition cl (s : @state unit) n := run ids keep keep n (cleanup ids s).
Lemma ra_reach p n : steps ids keep keep (begin (t_raise p)) (ra p n). Proof. apply run_steps. Qed.
Lemma cl_steps s n : steps ids keep keep (cleanup ids s) (cl s n). Proof. apply run_steps. Qed.
(** [lasting] and the clock task are unfinished when the loop stops; they are cancelled and end; no step is made; the exception of the test is the outcome. *)
Example C112_nonvacuous : stopped (ra lasting 38) /\ clock (ra lasting 38) = Some 1 /\ between_hooks (ra lasting 38) 1 /\ live (ra lasting 38) = [1; 2] /\ state_of (ra lasting 38) 0 = Some (Finished (Exn RuntimeError)) /\
  stopped (cl (ra lasting 38) 11) /\ state_of (cl (ra lasting 38) 11) 1 = Some Canc /\ state_of (cl (ra lasting 38) 11) 2 = Some Canc /\ nstep (cl (ra lasting 38) 11) = 3 /\
  state_of (cl (ra lasting 38) 11) (List.length (futs (ra lasting 38))) = Some (Finished (Ok VNone)).
Proof.
  split; [unfold stopped; split; [|split]; vm_compute; reflexivity|]. split; [vm_compute; reflexivity|].
  split. { intros tk H. assert (X : exists x, option_map k_cont (tget (ra lasting 38) 1) = Some (start (BClk x))) by (eexists; vm_compute; reflexivity). destruct X as [x X]. rewrite H in X. injection X as X. eauto. }
  split; [vm_compute; reflexivity|]. split; [vm_compute; reflexivity|]. split; [unfold stopped; split; [|split]; vm_compute; reflexivity|]. split; [vm_compute; reflexivity|]. split; [vm_compute; reflexivity|]. split; vm_compute; reflexivity.
Qed.
(** "Nothing is left" is false: a task created by a cancelled task is left pending. *)
Theorem C112_left_refuted : exists s s', steps ids keep keep (begin (t_raise respawn)) s /\ stopped s /\ steps ids keep keep (cleanup ids s) s' /\ stopped s' /\ unfinished s' 6.
Proof.
  exists (ra respawn 38), (cl (ra respawn 38) 14). split; [apply ra_reach|]. split; [unfold stopped; split; [|split]; vm_compute; reflexivity|]. split; [apply cl_steps|].
  split; [unfold stopped; split; [|split]; vm_compute; reflexivity|]. unfold unfinished. vm_compute. auto.
Qed.
Print Assumptions C112_left_refuted.
(** A task that goes on waiting after its cancellation: the test has raised, but run() never returns. *)
Theorem C112_returns_refuted : exists s, steps ids keep keep (begin (t_raise stubborn)) s /\ stopped s /\ state_of s 0 = Some (Finished (Exn RuntimeError)) /\ forall s', steps ids keep keep (cleanup ids s) s' -> ~ stopped s'.
Proof.
  exists (ra stubborn 38). split; [apply ra_reach|]. split; [unfold stopped; split; [|split]; vm_compute; reflexivity|]. split; [vm_compute; reflexivity|]. intros s' R.
  assert (X : negb (ended s') = true) by (refine (stuck_steps (fun s => negb (ended s)) 8 (cleanup ids (ra stubborn 38)) _ _ s' R); vm_compute; reflexivity).
  intros [A [B C]]. unfold ended in X. rewrite A, B, C in X. discriminate.
Qed.
Print Assumptions C112_returns_refuted.
(** A hook that catches the cancellation of the clock task: the DUT is stepped after the test has raised and the loop has stopped. *)
Definition greedy : @prog unit := Op (OEvSet 1) (fun _ => Op (OEvWait 2) (fun _ => Ret VNone)).
Definition t_hook : @prog unit := Try OStartClock (Try OEvNew (Try OEvNew (Try (OPrio greedy 0%Z false) (Op (OEvWait 1) (fun _ => Raise RuntimeError))))).
Theorem C112_step_refuted : exists s s', steps ids keep keep (begin t_hook) s /\ stopped s /\ clock s = Some 1 /\ nstep s = 0 /\ steps ids keep keep (cleanup ids s) s' /\ nstep s' = 8.
Proof.
  exists (run ids keep keep 24 (begin t_hook)), (cl (run ids keep keep 24 (begin t_hook)) 56). split; [apply run_steps|]. split; [unfold stopped; split; [|split]; vm_compute; reflexivity|]. split; [vm_compute; reflexivity|]. split; [vm_compute; reflexivity|].
  split; [apply cl_steps|]. vm_compute. reflexivity.
Qed.
Print Assumptions C112_step_refuted.
