(** C35: gather. *)
From Coq Require Import List Bool Arith ZArith Lia.
From Verif Require Import Py Prio_Model Loop_Model Loop_Spec Loop2_Spec LoopProg_Model Loop_Proofs Loop2_Proofs Loop3_Proofs Loop4_Proofs Loop5_Proofs Loop9_Proofs Loop10_Proofs Loop13_Proofs LoopRun_Model LoopRun_Proofs P_Loop P_Loop2 P_Loop3.
Import ListNotations.
Open Scope nat_scope.

Section Thms.
Context {mem : Type} (shuffle : list id -> list id) (dut delayers : mem -> mem).
Notation steps := (steps shuffle dut delayers). Notation step := (step shuffle dut delayers). Notation prog := (@prog mem). Notation state := (@state mem). Notation body := (@body mem).
Notation made_between := (made_between shuffle dut delayers).
Implicit Types (s : state).

Lemma runs_wrap s t p : runs s t p <-> exists W : prog -> body, wrap W /\ cur s = Some (t, W p).
Proof. unfold runs, wrap. split; [intros [H|H]; [exists BProg|exists BTest]; auto|intros [W [[->| ->] H]]; auto]. Qed.
Lemma made_mono s0 s s1 s2 p i : steps s0 s -> steps s1 s2 -> made_between s s1 p i -> made_between s0 s2 p i.
Proof. intros A B [x [C [D E]]]. exists x. split; [eapply steps_trans; eauto|]. split; auto. eapply steps_trans; eauto. Qed.
Lemma current_wrap W s t o k : wrap W -> cur s = Some (t, W (Op o k)) -> current_op s = Some o.
Proof. intros [->| ->] H; unfold current_op; now rewrite H. Qed.
Lemma futs_create s t p k : futs (exec_op s t (OCreate p) k) = futs s ++ [mk_fut Pending [] (KTask (mk_task (start (BProg p)) None false))].
Proof. reflexivity. Qed.

(** Creating the tasks. *)
Lemma create_track W after k ps : forall s s' t ids, wrap W -> cur s = Some (t, W (create_all ps ids after k)) -> steps s s' ->
  (exists s1, steps s s1 /\ steps s1 s' /\ cur s1 = Some (t, W (after (ids ++ seq (List.length (futs s)) (List.length ps)))) /\ List.length (futs s1) = List.length (futs s) + List.length ps /\
     (forall i p, nth_error ps i = Some p -> made_between s s1 p (List.length (futs s) + i) /\ exists fu, fget s1 (List.length (futs s) + i) = Some fu /\ f_kind fu = KTask (mk_task (start (BProg p)) None false)) /\
     nstep s1 = nstep s /\ ran s1 = ran s /\ prio s1 = prio s /\ (forall f fu, fget s f = Some fu -> fget s1 f = Some fu) /\ evs s1 = evs s /\ tdone s1 = tdone s /\ mm s1 = mm s) \/
  (exists j, j < List.length ps /\ cur s' = Some (t, W (create_all (skipn j ps) (ids ++ seq (List.length (futs s)) j) after k)) /\ List.length (futs s') = List.length (futs s) + j).
Proof.
  induction ps as [|p ps IH]; intros s s' t ids HW Hc R.
  - left. exists s. cbn [create_all] in Hc. simpl. rewrite app_nil_r. split; [apply steps_refl|]. repeat split; auto; try lia; try (destruct i; discriminate). 
  - destruct (steps_first _ _ _ _ _ R) as [->|[fire R1]].
    + right. exists 0. simpl. rewrite app_nil_r, Nat.add_0_r. repeat split; auto. lia.
    + assert (HS := step_op shuffle dut delayers W fire s t _ _ HW Hc). assert (R2 : steps s (step fire s)) by (apply steps_step, steps_refl).
      assert (Hc1 : cur (step fire s) = Some (t, W (create_all ps (ids ++ [List.length (futs s)]) after k))) by (rewrite HS; reflexivity).
      assert (L1 : futs (step fire s) = futs s ++ [mk_fut Pending [] (KTask (mk_task (start (BProg p)) None false))]) by (rewrite HS; apply futs_create).
      assert (L2 : List.length (futs (step fire s)) = Datatypes.S (List.length (futs s))) by (rewrite L1, app_length; simpl; lia).
      destruct (IH (step fire s) s' t (ids ++ [List.length (futs s)]) HW Hc1 R1) as [[s1 [A [B [C [D [E [G [H [P [F [V [T M]]]]]]]]]]]]|[j [A [B C]]]].
      * left. exists s1. rewrite L2 in *. split; [eapply steps_trans; eauto|]. split; auto. split; [rewrite C; f_equal; f_equal; f_equal; f_equal; rewrite <- app_assoc; reflexivity|]. split; [simpl; lia|].
        split; [intros i q Hq; destruct i as [|i]; simpl in Hq|split; [|split; [|split; [|split; [|split; [|split]]]]]].
        -- injection Hq as ->. rewrite Nat.add_0_r. split.
           ++ exists s. split; [apply steps_refl|]. split; [eapply steps_trans; eauto|]. split; auto. eapply current_wrap; eauto.
           ++ eexists. split; [apply F; unfold fget; rewrite L1, nth_error_app2, Nat.sub_diag; [reflexivity|lia]|reflexivity].
        -- destruct (E i q Hq) as [E1 E2]. replace (List.length (futs s) + Datatypes.S i) with (Datatypes.S (List.length (futs s)) + i) by lia. split; auto. eapply made_mono; [exact R2|apply steps_refl|exact E1].
        -- rewrite G, HS. reflexivity.
        -- rewrite H, HS. reflexivity.
        -- rewrite P, HS. reflexivity.
        -- intros f fu Hf. apply F. unfold fget in *. rewrite L1. rewrite nth_error_app1; auto. apply nth_error_Some. congruence.
        -- rewrite V, HS. reflexivity.
        -- rewrite T, HS. reflexivity.
        -- rewrite M, HS. reflexivity.
      * right. exists (Datatypes.S j). rewrite L2 in *. simpl. split; [lia|]. split; [|lia]. rewrite B. rewrite <- app_assoc. reflexivity.
Qed.

(** Awaiting tasks in order; [done] of them are done. *)
Lemma await_track test m W k : forall ids s s' t vs, wrap W -> steps (init test m) s -> cur s = Some (t, W (await_all ids vs k)) -> ~ In t ids -> (forall i, In i ids -> exists fu, fget s i = Some fu /\ nameable (f_kind fu) = true) -> steps s s' ->
  (exists s1 ws, steps s s1 /\ steps s1 s' /\ cur s1 = Some (t, W (k (Ok (VList (vs ++ ws))))) /\ Forall2 (returned s1) ids ws) \/
  (exists s1 i e ws, steps s s1 /\ steps s1 s' /\ cur s1 = Some (t, W (k (Exn e))) /\ i < List.length ids /\ Forall2 (returned s1) (firstn i ids) ws /\ failed s1 (nth i ids 0) e) \/
  (exists s1, steps s s1 /\ steps s1 s' /\ cur s1 = Some (t, W (k CE)) /\ (nocancel test -> tdone s1 = Some true)) \/
  (exists i ws, i < List.length ids /\ Forall2 (returned s') (firstn i ids) ws /\ (cur s' = Some (t, W (await_all (skipn i ids) (vs ++ ws) k)) \/ waits_for s' t (nth i ids 0) /\ unfinished s' t)).
Proof.
  induction ids as [|i ids IH]; intros s s' t vs HW R0 Hc Nt Kn R.
  - left. exists s, []. rewrite app_nil_r. split; [apply steps_refl|]. repeat split; auto.
  - destruct (reach_linked _ _ _ _ _ _ R0) as [WF _]. destruct (Kn i (or_introl eq_refl)) as [fu [Ef Nm]]. assert (Hn : t <> i) by (intros ->; apply Nt; now left).
    destruct (await_one shuffle dut delayers test m W s s' t i _ fu HW R0 Hc Hn Ef Nm R) as [->|[X|[s1 [A [B C]]]]].
    + right; right; right. exists 0, []. simpl. rewrite app_nil_r. split; [lia|]. split; [constructor|]. left. exact Hc.
    + right; right; right. exists 0, []. simpl. split; [lia|]. split; [constructor|]. right. destruct X as [X [cbs [mu E]]]. split.
      * exists (mk_task (fun r => W (match r with Ok v => await_all ids (vs ++ [v]) k | Exn e => k (Exn e) end)) (Some i) mu). unfold tget, fget. rewrite E. split; reflexivity.
      * unfold unfinished. apply live_iff. unfold islive. rewrite E. reflexivity.
    + assert (R01 : steps (init test m) s1) by (eapply steps_trans; eauto). destruct (reach_linked _ _ _ _ _ _ R01) as [WF1 _]. destruct C as [[st [C1 [C2 C3]]]|[C1 C2]].
      * assert (CASE : (exists v, st = Finished (Ok v)) \/ (exists e, outcome st = Exn e /\ failed s1 i e)).
        { destruct st as [|[v|e]|]; [congruence| | |]; eauto; right; eexists; (split; [reflexivity|]); [left|right]; auto. }
        destruct CASE as [[v ->]|[e [Q1 Q2]]].
        -- cbn [outcome] in C1. assert (Nt1 : ~ In t ids) by (intros Hin; apply Nt; now right). assert (Kn1 : forall x, In x ids -> exists fx, fget s1 x = Some fx /\ nameable (f_kind fx) = true).
           { intros x Hx. destruct (Kn x (or_intror Hx)) as [fx [Ex Nx]]. destruct (steps_fext shuffle dut delayers s s1 WF A x fx Ex) as [fx' [Ex' [Kx _]]]. exists fx'. split; auto. destruct (f_kind fx), (f_kind fx'); simpl in *; congruence || tauto || auto. }
           destruct (IH s1 s' t (vs ++ [v]) HW R01 C1 Nt1 Kn1 B) as [[s2 [ws [X1 [X2 [X3 X4]]]]]|[[s2 [j [e [ws [X1 [X2 [X3 [X4 [X5 X6]]]]]]]]]|[[s2 [X1 [X2 [X3 X4]]]]|[j [ws [X1 [X2 X3]]]]]]].
           ++ left. exists s2, (v :: ws). split; [eapply steps_trans; eauto|]. split; auto. split; [rewrite X3, <- app_assoc; reflexivity|]. constructor; auto. eapply state_of_done; eauto; discriminate.
           ++ right; left. exists s2, (Datatypes.S j), e, (v :: ws). split; [eapply steps_trans; eauto|]. split; auto. split; auto. simpl. split; [lia|]. split; [constructor; auto; eapply state_of_done; eauto; discriminate|exact X6].
           ++ right; right; left. exists s2. split; [eapply steps_trans; eauto|]. auto.
           ++ right; right; right. exists (Datatypes.S j), (v :: ws). simpl. split; [lia|]. split; [constructor; auto; eapply state_of_done; eauto; discriminate|]. rewrite <- app_assoc in X3. exact X3.
        -- right; left. exists s1, 0, e, []. rewrite Q1 in C1. split; auto. split; auto. split; auto. simpl. split; [lia|]. split; [constructor|exact Q2].
      * right; right; left. exists s1. auto.
Qed.

(** The tasks a [gather] of [ps] started in state [s] creates. *)
Notation children s ps := (seq (List.length (futs s)) (List.length ps)).
Lemma gather_track test m W k ps s s' t : wrap W -> steps (init test m) s -> cur s = Some (t, W (gather ps k)) -> steps s s' ->
  (exists s1 vs, steps s s1 /\ steps s1 s' /\ cur s1 = Some (t, W (k (Ok (VList vs)))) /\ Forall2 (made_between s s1) ps (children s ps) /\ Forall2 (returned s1) (children s ps) vs) \/
  (exists s1 i e vs, steps s s1 /\ steps s1 s' /\ cur s1 = Some (t, W (k (Exn e))) /\ i < List.length ps /\ Forall2 (made_between s s1) ps (children s ps) /\
     Forall2 (returned s1) (firstn i (children s ps)) vs /\ failed s1 (List.length (futs s) + i) e) \/
  (exists s1, steps s s1 /\ steps s1 s' /\ cur s1 = Some (t, W (k CE)) /\ (nocancel test -> tdone s1 = Some true)) \/
  (exists i, i < List.length ps /\ cur s' = Some (t, W (create_all (skipn i ps) (seq (List.length (futs s)) i) (fun ids => await_all ids [] k) k))) \/
  (exists i vs, i < List.length ps /\ Forall2 (returned s') (firstn i (children s ps)) vs /\ Forall2 (made_between s s') ps (children s ps) /\
     (cur s' = Some (t, W (await_all (skipn i (children s ps)) vs k)) \/ waits_for s' t (List.length (futs s) + i) /\ unfinished s' t)).
Proof.
  intros HW R0 Hc R. destruct (reach_linked _ _ _ _ _ _ R0) as [WF _]. unfold gather in Hc.
  destruct (create_track W _ k ps s s' t [] HW Hc R) as [[s1 [A [B [C [D [E [_ [_ [_ [F _]]]]]]]]]]|[j [A [B C]]]].
  - cbn [app] in C. assert (MB : Forall2 (made_between s s1) ps (children s ps)).
    { clear - E. assert (X : forall n l, (forall i p, nth_error l i = Some p -> made_between s s1 p (n + i)) -> Forall2 (made_between s s1) l (seq n (List.length l))).
      { intros n l. revert n. induction l as [|p l IH]; intros n H; simpl; constructor; [replace n with (n + 0) by lia; now apply H|]. apply IH. intros i q Hq. replace (Datatypes.S n + i) with (n + Datatypes.S i) by lia. now apply H. }
      apply X. intros i p Hp. now destruct (E i p Hp). }
    assert (R01 : steps (init test m) s1) by (eapply steps_trans; eauto). assert (MM : forall s2, steps s1 s2 -> Forall2 (made_between s s2) ps (children s ps)).
    { intros s2 R2. clear - MB R2. induction MB as [|p i l1 l2 H MB IH]; constructor; auto. eapply made_mono; [apply steps_refl|exact R2|exact H]. }
    assert (Nt : ~ In t (children s ps)). { rewrite in_seq. destruct (cur_task s t _ WF Hc) as [cbs [k0 [w [mu Et]]]]. assert (t < List.length (futs s)) by (apply nth_error_Some; unfold fget in Et; congruence). lia. }
    destruct (await_track test m W k (children s ps) s1 s' t [] HW R01 C Nt) as [[s2 [ws [X1 [X2 [X3 X4]]]]]|[[s2 [j [e [ws [X1 [X2 [X3 [X4 [X5 X6]]]]]]]]]|[[s2 [X1 [X2 [X3 X4]]]]|[j [ws [X1 [X2 X3]]]]]]]; auto.
    + intros i Hi. apply in_seq in Hi. destruct (nth_error ps (i - List.length (futs s))) as [p|] eqn:Ep; [|apply nth_error_None in Ep; lia]. destruct (E _ _ Ep) as [_ [fu [E1 E2]]].
      replace (List.length (futs s) + (i - List.length (futs s))) with i in E1 by lia. exists fu. split; auto. now rewrite E2.
    + left. exists s2, ws. split; [eapply steps_trans; eauto|]. auto 6.
    + right; left. rewrite seq_length in X4. rewrite seq_nth in X6 by exact X4. exists s2, j, e, ws. split; [eapply steps_trans; eauto|]. auto 8.
    + right; right; left. exists s2. split; [eapply steps_trans; eauto|]. auto.
    + right; right; right; right. rewrite seq_length in X1. rewrite seq_nth in X3 by exact X1. exists j, ws. split; [exact X1|]. split; [exact X2|]. split; [now apply MM|]. exact X3.
  - right; right; right; left. exists j. auto.
Qed.

(** A task that awaits [gather] of the coroutines [ps] in a reachable state [s]: in every later state [s'] one of the following holds, [ps] being run by
    the tasks with the ids [children s ps], in this order.
    - Its continuation has started, in a state in which all of them have returned, with the list of their results in argument order.
    - Its continuation has started with an exception: that of the first of them, in argument order, that did not return a result;
      all before it have returned.
    - It was cancelled (without cancellation in the test: after the test was over).
    - It is still creating the tasks, or the first [i] have returned and it waits for the next one. *)
Theorem C35_gather test m k ps s s' t : steps (init test m) s -> runs s t (gather ps k) -> steps s s' ->
  (exists s1 vs, steps s s1 /\ steps s1 s' /\ runs s1 t (k (Ok (VList vs))) /\ Forall2 (made_between s s1) ps (children s ps) /\ Forall2 (returned s1) (children s ps) vs) \/
  (exists s1 i e vs, steps s s1 /\ steps s1 s' /\ runs s1 t (k (Exn e)) /\ i < List.length ps /\ Forall2 (made_between s s1) ps (children s ps) /\
     Forall2 (returned s1) (firstn i (children s ps)) vs /\ failed s1 (List.length (futs s) + i) e) \/
  (exists s1, steps s s1 /\ steps s1 s' /\ runs s1 t (k (Exn CancelledError)) /\ (nocancel test -> tdone s1 = Some true)) \/
  (exists i ids, i < List.length ps /\ runs s' t (create_all (skipn i ps) ids (fun ids => await_all ids [] k) k)) \/
  (exists i vs, i < List.length ps /\ Forall2 (returned s') (firstn i (children s ps)) vs /\ Forall2 (made_between s s') ps (children s ps) /\
     (runs s' t (await_all (skipn i (children s ps)) vs k) \/ waits_for s' t (List.length (futs s) + i) /\ unfinished s' t)).
Proof.
  intros R0 Hr R. apply runs_wrap in Hr as [W [HW Hc]].
  destruct (gather_track test m W k ps s s' t HW R0 Hc R) as [[s1 [vs [A [B [C [D E]]]]]]|[[s1 [i [e [vs [A [B [C [D [E [F G]]]]]]]]]]|[[s1 [A [B [C D]]]]|[[i [A B]]|[i [vs [A [B [D C]]]]]]]]].
  - left. exists s1, vs. split; auto. split; auto. split; [apply runs_wrap; eauto|]. auto.
  - right; left. exists s1, i, e, vs. split; auto. split; auto. split; [apply runs_wrap; eauto|]. auto.
  - right; right; left. exists s1. split; auto. split; auto. split; [apply runs_wrap; eauto|]. auto.
  - right; right; right; left. eexists i, _. split; auto. apply runs_wrap. eauto.
  - right; right; right; right. exists i, vs. split; auto. split; auto. split; auto. destruct C as [C|C]; auto. left. apply runs_wrap. eauto.
Qed.
(** It does not wait for a task that is done: then it is resumed. *)
Theorem C35_not_stuck (test : prog) m s t i st : steps (init test m) s -> unfinished s t -> (forall b, cur s <> Some (t, b)) -> waits_for s t i -> state_of s i = Some st -> st <> Pending -> runnable s t.
Proof.
  intros R0 U Hc [tk [T Hw]] Hs Hn. destruct (reach_linked _ _ _ _ _ _ R0) as [WF _]. unfold state_of, fget in Hs. destruct (nth_error (futs s) i) as [fu|] eqn:E; [|discriminate]. injection Hs as <-.
  unfold tget, fget in T. destruct (nth_error (futs s) t) as [[st cbs [| | | | |[k w mu]]]|] eqn:Et; try discriminate. injection T as <-. cbn [k_wait] in Hw. subst w.
  apply live_iff in U. unfold islive in U. rewrite Et in U. destruct st; try discriminate. exists (HWake t i). split; [|eauto]. eapply done_ready; eauto. unfold pending. destruct (f_st fu); congruence.
Qed.
End Thms.
Print Assumptions C35_gather.
Print Assumptions C35_not_stuck.

(** Three tasks of which the first takes longest; the second gather has a failing one. *)
Definition after_cycles (n : nat) (p : @prog unit) : @prog unit := bindr (clock_cycles n) (fun _ => p).
Definition gath (p : @prog unit) : list (@prog unit) := [after_cycles 3 (Ret (VInt 10)); after_cycles 1 p; after_cycles 2 (Ret (VInt 30))].
Definition after_gath (r : res lval) : @prog unit := match r with Ok _ => Do (OMark 1) (Do (OEvWait 0) (Ret VNone)) | Exn _ => Do (OMark 2) (Do (OEvWait 0) (Ret VNone)) end.
Definition t_gath (p : @prog unit) : @prog unit := Do OStartClock (gather (gath p) after_gath).
Example C35_nonvacuous : exists s, steps ids keep keep (begin (t_gath (Ret (VInt 20)))) s /\ runs s 0 (gather (gath (Ret (VInt 20))) after_gath) /\
  exists s1, steps ids keep keep s s1 /\ runs s1 0 (after_gath (Ok (VList [VInt 10; VInt 20; VInt 30]))) /\ nstep s1 = 3.
Proof.
  exists (run ids keep keep 4 (begin (t_gath (Ret (VInt 20))))). split; [apply run_steps|]. split; [right; vm_compute; reflexivity|].
  exists (run ids keep keep 61 (run ids keep keep 4 (begin (t_gath (Ret (VInt 20)))))). split; [apply run_steps|]. split; [right; vm_compute; reflexivity|vm_compute; reflexivity].
Qed.
Example C35_nonvacuous_exn : exists s1 e, steps ids keep keep (begin (t_gath (Raise (UserExn 7)))) s1 /\ runs s1 0 (after_gath (Exn e)) /\ nstep s1 = 3 /\ returned s1 2 (VInt 10) /\ failed s1 3 (UserExn 7).
Proof.
  exists (run ids keep keep 64 (begin (t_gath (Raise (UserExn 7))))), (UserExn 7). split; [apply run_steps|]. split; [right; vm_compute; reflexivity|]. split; [vm_compute; reflexivity|]. split; [vm_compute; reflexivity|left; vm_compute; reflexivity].
Qed.
Example C35_nonvacuous_wait : let s := run ids keep keep 30 (begin (t_gath (Ret (VInt 20)))) in waits_for s 0 2 /\ unfinished s 0.
Proof. split; [eexists; split; vm_compute; reflexivity|vm_compute; auto]. Qed.
