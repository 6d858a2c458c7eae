(** The comparison of a driver call at the end of the test. *)
From Coq Require Import List Bool Arith ZArith Lia Permutation.
From Verif Require Import Live_Proofs Py Prio_Model Loop_Model Loop_Spec Loop2_Spec LoopProg_Model Mon_Model Loop_Proofs Loop2_Proofs Loop3_Proofs Loop4_Proofs Loop5_Proofs Loop6_Proofs Loop9_Proofs Loop10_Proofs Loop13_Proofs Loop14_Proofs Loop15_Proofs Bind_Spec Loop16_Proofs Loop17_Proofs Loop18_Proofs LoopRun_Model LoopRun_Proofs Drv_Model Drv_Spec Drv_Proofs Loop3_Spec Loop20_Proofs Loop21_Proofs Loop22_Proofs Loop23_Proofs Comp_Proofs Live_Spec Hook_Spec Hook_Proofs Handler_Model Handler_Spec Handler_Proofs Loop8_Proofs MainEnv_Proofs Fail_Spec Fail_Proofs Loop7_Proofs Exec_Proofs Test_Proofs P_Loop P_Loop2 P_Loop3 P_Loop4 P_Drv P_Loop5 P_Hook P_Handler.
Import ListNotations.
Open Scope nat_scope.

Section Last.
Context {mem : Type} (shuffle : list id -> list id) (dut delayers : mem -> mem).
Notation steps := (steps shuffle dut delayers). Notation step := (step shuffle dut delayers). Notation prog := (@prog mem). Notation state := (@state mem). Notation body := (@body mem). Notation xstate := (@xstate mem).
Notation xstep := (xstep shuffle dut delayers). Notation xsteps := (xsteps shuffle dut delayers). Notation xdeleting := (xdeleting shuffle dut delayers).
Notation hook_ran := (hook_ran shuffle dut delayers).
Implicit Types (s : state) (x : xstate).

(** A task that is not the clock task ends with an exception only by raising it. *)
Lemma end_only test m fire z i e : steps (init test m) z -> clock z <> Some i -> i <> 0 -> state_of z i = Some Pending -> islive (futs z) i = true -> state_of (step fire z) i = Some (Finished (Exn e)) ->
  cur z = Some (i, BProg (Raise e)) /\ e <> CancelledError.
Proof.
  intros R NCl N0 SP L SF. pose proof (reach_all shuffle dut delayers test m z R) as A. pose proof (v_wf _ (proj1 A)) as W.
  assert (Rn : steps (init test m) (step fire z)) by (apply steps_step; exact R). pose proof (reach_all shuffle dut delayers test m _ Rn) as An. pose proof (v_wf _ (proj1 An)) as Wn.
  assert (CU : forall b, cur (step fire z) <> Some (i, b)) by (intros b X; rewrite (cur_pending _ _ _ An X) in SF; discriminate).
  assert (SU : forall k w, ~ Susp i k w (step fire z)) by (intros k w [_ [cbs [mu X]]]; unfold state_of, fget in SF; rewrite X in SF; discriminate).
  assert (D : (exists b, cur z = Some (i, b)) \/ forall b, cur z <> Some (i, b)).
  { destruct (cur z) as [[t b]|]; [|right; discriminate]. destruct (Nat.eq_dec t i) as [->|N]; [left; eauto|right; congruence]. }
  destruct D as [[b Hc]|Hc].
  - destruct (cur_task z i b W Hc) as [cbs [k0 [w [mu Et]]]]. assert (HS : step fire z = exec_body shuffle dut delayers z i b) by (unfold Loop_Model.step; now rewrite Hc).
    pose proof (proj1 (proj2 A i NCl) b Hc) as NK.
    destruct (reach_ended shuffle dut delayers test m z R) as [_ [O _]].
    destruct b as [[v|e0|o kk]|q ev todo sb|c|e0 f r kk|q f r kk|test0|p0]; cbn [noclkb] in NK; try contradiction.
    + rewrite HS in SF. cbn [exec_body] in SF. rewrite (finish_at z i (Ok v) _ _ _ _ Et) in SF. destruct mu; discriminate.
    + rewrite HS in SF. cbn [exec_body] in SF. rewrite (finish_at z i (Exn e0) _ _ _ _ Et) in SF. assert (e0 = e /\ e0 <> CancelledError) as [-> Y] by (destruct e0; try discriminate SF; injection SF as <-; split; auto; discriminate). auto.
    + exfalso. destruct (exec_op_out z i o (fun r => BProg (kk r)) _ _ _ _ Et) as [[r [_ X]]|[k' [w' [S D]]]]; [eapply CU|eapply SU]; rewrite HS; [exact X|exact S].
    + exfalso. eapply CU. rewrite HS. cbn [exec_body]. destruct (nth_error (evs z) e0); reflexivity.
    + exfalso. destruct r as [v|e1].
      * destruct (q_get_out z i q kk _ _ _ _ Et) as [[r [_ X]]|[f' [w' S]]]; [eapply CU|eapply SU]; rewrite HS; [exact X|exact S].
      * eapply CU. rewrite HS. reflexivity.
    + exfalso. exact (proj1 (O i N0) _ Hc).
    + exfalso. exact (proj1 (O i N0) _ Hc).
  - exfalso. destruct (live_task _ _ L) as [cbs [k [w [mu E]]]]. destruct (susp_step shuffle dut delayers fire i k w z W) as [X|[r [X _]]]; [split; eauto|eapply SU; exact X|eapply CU; exact X].
Qed.

(** The main coroutine is not about to return in the clock cycle of a state in which the test was running. *)
Lemma set_between test m s z : steps (init test m) s -> ~ test_over s -> steps s z -> test_over z -> exists y v fire, steps s y /\ steps (step fire y) z /\ ~ test_over y /\ test_returned y v.
Proof.
  intros R0 N R. induction R as [s|s z fire R IH]; intros T; [contradiction|]. destruct (tdone z) as [[|]|] eqn:TD.
  - destruct (IH R0 N TD) as [y [v [f [A [B C]]]]]. exists y, v, f. split; auto. split; [now apply steps_step|exact C].
  - assert (Rz : steps (init test m) z) by (eapply steps_trans; eauto). destruct (tdone_set shuffle dut delayers test m fire z Rz ltac:(congruence) T) as [v Hv]. exists z, v, fire. split; auto. split; [apply steps_refl|]. split; auto. unfold test_over. congruence.
  - assert (Rz : steps (init test m) z) by (eapply steps_trans; eauto). destruct (tdone_set shuffle dut delayers test m fire z Rz ltac:(congruence) T) as [v Hv]. exists z, v, fire. split; auto. split; [apply steps_refl|]. split; auto. unfold test_over. congruence.
Qed.
Lemma clock_steps s s' c : steps s s' -> clock s = Some c -> clock s' = Some c.
Proof. intros R H. induction R as [s|s s1 fire R IH]; auto. now apply clock_step, IH. Qed.
Lemma clock_len test m s c : steps (init test m) s -> clock s = Some c -> c < List.length (futs s).
Proof.
  intros R. remember (init test m) as s0 eqn:E0. revert c. induction R as [s|s s1 fire R IH]; intros c Hc; subst s; [discriminate|]. assert (W : Wf s1) by (eapply reach_linked; exact R). pose proof (Live_Proofs.step_len shuffle dut delayers fire s1 W) as L.
  destruct (clock s1) as [c1|] eqn:Ec; [rewrite (clock_step shuffle dut delayers fire s1 c1 Ec) in Hc; injection Hc as <-; specialize (IH eq_refl c1 eq_refl); lia|].
  destruct (Live_Proofs.clock_new shuffle dut delayers fire s1 c Ec Hc) as [-> [-> _]]. rewrite app_length. simpl. lia.
Qed.
(** run() returns a value only after one more clock cycle. *)
Lemma value_later test m s s' u : steps (init test m) s -> ~ test_over s -> clock s <> None -> steps s s' -> state_of s' 0 = Some (Finished (Ok u)) -> nstep s < nstep s'.
Proof.
  intros R0 N CS R SF. assert (R' : steps (init test m) s') by (eapply steps_trans; eauto). assert (T : test_over s').
  { unfold test_over. destruct (tdone s') as [[|]|] eqn:E; auto; exfalso; eapply (not_over_not_ok shuffle dut delayers test m s' u); eauto; congruence. }
  destruct (set_between test m s s' R0 N R T) as [y [v [fire [A [B [C D]]]]]]. destruct (clock s) as [c|] eqn:Ec; [|congruence]. pose proof (clock_steps _ _ _ A Ec) as Ec'.
  assert (Ry : steps (init test m) y) by exact (steps_trans _ _ _ _ _ _ R0 A).
  destruct (main_result shuffle dut delayers test m y v s' Ry D ltac:(congruence) (steps_cons shuffle dut delayers _ _ _ B)) as [X|[[X Y]|X]]; try congruence. pose proof (nstep_le shuffle dut delayers _ _ A). lia.
Qed.

Section Call.
Context (d : @drv mem) (compare : lval -> mem -> mem * res lval).
Context (test : prog) (m : mem) (HT : tame test) (HP : plain_hooks test) (HN : nocancel test) (shuffled : forall l, Permutation l (shuffle l)).

Lemma still_waits s z : steps (init test m) s -> ~ test_over s -> clock s <> None -> steps s z -> nstep z = nstep s ->
  NoPass z \/ exists y c, steps s y /\ steps y z /\ at_cancel y c /\ okF (futs y).
Proof.
  intros R0 N CS R E. assert (Rz : steps (init test m) z) by (eapply steps_trans; eauto). destruct (clock s) as [c|] eqn:Ec; [|congruence]. pose proof (clock_steps _ _ _ R Ec) as Ecz.
  assert (FC : forall q, steps s q -> steps q z -> NC q \/ exists y c, steps s y /\ steps y z /\ at_cancel y c /\ okF (futs y)).
  { intros q A B. destruct (first_cancel shuffle dut delayers test m shuffled s q R0 N A) as [[_ X]|[y [c1 [X1 [X2 [X3 X4]]]]]]; [left; auto|right]. exists y, c1. split; auto. split; [eapply steps_trans; eauto|]. auto. }
  destruct (tdone z) as [[|]|] eqn:TD; [|left; left; split; congruence|left; left; split; congruence].
  destruct (set_between test m s z R0 N R TD) as [y [v [fire [A [B [C D]]]]]]. assert (Ry : steps (init test m) y) by exact (steps_trans _ _ _ _ _ _ R0 A). pose proof (clock_steps _ _ _ A Ec) as Ecy.
  pose proof (nstep_le shuffle dut delayers _ _ A) as L1. assert (Byz : steps y z) by (eapply steps_cons; exact B).
  pose proof (reach_all shuffle dut delayers test m y Ry) as Ay.
  assert (HO : forall fire, exists s0, futs s0 = futs y /\ evs s0 = evs y /\ nstep s0 = nstep y /\ step fire y = exec_op s0 0 (OEvWait 0) (kbv v)).
  { intros fi. exists (set_tdone y (Some true)). repeat split; auto. apply ret_waits; auto. congruence. }
  assert (LV : forall q, steps y q -> steps q z -> Leaving (nstep y) 0 (kbv v) q -> exists y c, steps s y /\ steps y z /\ at_cancel y c /\ okF (futs y)).
  { intros q Q1 Q2 [f [r [Hc [[_ X]| ->]]]]; [exfalso; pose proof (nstep_le shuffle dut delayers _ _ Q2); lia|]. destruct (FC q (steps_trans _ _ _ _ _ _ A Q1) Q2) as [X|X]; auto. exfalso. pose proof (n_cur _ X _ _ Hc) as Y. cbn [ncb] in Y. destruct Y as [Y _]. now apply Y. }
  destruct (wait_once shuffle dut delayers 0 (kbv v) _ y z Ay D HO Byz) as [->|[IW|[LE|[s1 [f1 [Q1 [Q2 Q3]]]]]]].
  - exfalso. contradiction.
  - destruct (FC z R (steps_refl _ _ _ _)) as [NZ|X]; [left|now right]. right; left. destruct IW as [f [fu [cbs [mu [I1 [I2 [I3 [I4 I5]]]]]]]]. split; [eexists _, _; split; [exact I1|exists cbs, mu; exact I2]|].
    assert (Pf : f_st fu = Pending) by (destruct I5 as [[X _]|[[_ [X _]]|X]]; auto; [lia|]; exfalso; destruct (n_ok _ NZ f fu I3) as [[Y _] _]; contradiction).
    intros h Hh Ho. pose proof (reach_all shuffle dut delayers test m z Rz) as Az. pose proof (proj1 (v_wf _ (proj1 Az))) as I. assert (Hr : In h (ready z)) by (eapply firstn_incl; exact Hh). pose proof (waitof_task _ _ _ _ _ _ _ I2) as WT.
    destruct h; simpl in Ho; try discriminate; injection Ho as ->.
    + pose proof (i_step _ I 0 Hr) as X. cbn [coreof snd] in X. congruence.
    + pose proof (i_throw _ I 0 _ Hr) as X. cbn [coreof snd] in X. congruence.
    + destruct (i_wake _ I 0 _ Hr) as [X [fu' [X1 X2]]]. cbn [coreof snd] in X, X1. assert (f0 = f) by congruence. subst f0. assert (fu' = fu) by congruence. subst fu'. unfold pending in X2. rewrite Pf in X2. discriminate.
  - right. exact (LV z Byz (steps_refl _ _ _ _) LE).
  - right. apply (LV s1); auto. eapply steps_cons; exact Q2.
Qed.

(** The background task of a call at the end of the work of the cycle. *)
Lemma bg_done l v s fire y c : steps (init test m) s -> current_op s = Some (OCreate (background d compare l v)) -> steps (step fire s) y -> cycle_done y c -> okF (futs y) -> let i := List.length (futs s) in
  (exists s0 s1 es w, steps s s0 /\ steps s0 s1 /\ steps s1 y /\ runs s1 i (conclude_call d compare v) /\ NoDup es /\ Forall2 (hook_ran s0 s1 i (priority (d_prio d (mm s0)))) l es /\
     snd (compare v (mm s1)) = Ok w /\ state_of y i = Some (Finished (Ok VNone))) \/
  (exists e, state_of y i = Some (Finished (Exn e))).
Proof.
  intros R0 Ho A0 D0 OK i. assert (Ry : steps (init test m) y) by (eapply steps_trans; [|exact A0]; apply steps_step; exact R0).
  assert (NCA : state_of y i <> Some Canc). { unfold state_of, fget. destruct (nth_error (futs y) i) as [fu|] eqn:Ef; [|discriminate]. cbn. intros X. injection X as X. destruct (OK i fu Ef) as [[Y _] _]. contradiction. }
  destruct (done_quiet shuffle dut delayers test m HT shuffled y c Ry D0) as [[cl Hcl] _].
  assert (RA : forall q e, steps (init test m) q -> steps q y -> cur q = Some (i, BProg (Raise e)) -> exists e, state_of y i = Some (Finished (Exn e))).
  { intros q e Q1 Q2 Q3. pose proof (v_wf _ (proj1 (reach_all shuffle dut delayers test m q Q1))) as W. destruct (steps_first _ _ _ _ _ Q2) as [->|[f Q4]]; [congruence|].
    pose proof (raise_done shuffle dut delayers e f q i W ltac:(left; exact Q3)) as F. destruct (failed_later shuffle dut delayers e (step f q) y i ltac:(now apply step_wf) F Q4) as [X|[X _]]; [eauto|congruence]. }
  destruct (bg_over shuffle dut delayers d compare test m HT HP shuffled l v s fire y c R0 Ho A0 D0) as [[s0 [s1 [es [X1 [X2 [X3 [X4 [X5 X6]]]]]]]]|[[s1 [e [X1 [X2 X]]]]|X]].
  - assert (R1 : steps (init test m) s1) by (eapply steps_trans; [exact R0|eapply steps_trans; eauto]). fold i in X4, X6.
    destruct (steps_first _ _ _ _ _ X3) as [->|[f2 Y1]]; [congruence|]. assert (HS : step f2 s1 = go (set_mm s1 (fst (compare v (mm s1)))) i (BProg (match snd (compare v (mm s1)) with Ok _ => Op (OMem (fun m => (d_set d None None m, Ok VNone))) (fun _ => Ret VNone) | Exn e => Raise e end))).
    { unfold Loop_Model.step. rewrite X4. cbn [exec_body conclude_call exec_op]. destruct (compare v (mm s1)) as [m1 r1]. reflexivity. }
    assert (R2 : steps (init test m) (step f2 s1)) by (apply steps_step; exact R1). destruct (snd (compare v (mm s1))) as [w|e] eqn:EC; [|right; apply (RA (step f2 s1) e); auto; rewrite HS; reflexivity].
    assert (R3 : exists q, steps (init test m) q /\ steps q y /\ cur q = Some (i, BProg (Ret VNone))).
    { destruct (steps_first _ _ _ _ _ Y1) as [E|[f3 Y2]]; [exfalso; rewrite E, HS in Hcl; cbn in Hcl; discriminate|]. exists (step f3 (step f2 s1)). split; [now apply steps_step|]. split; auto. rewrite HS. reflexivity. }
    destruct R3 as [q [Q1 [Q2 Q3]]]. destruct (steps_first _ _ _ _ _ Q2) as [->|[f3 Q4]]; [congruence|]. pose proof (v_wf _ (proj1 (reach_all shuffle dut delayers test m q Q1))) as W.
    destruct (cur_task q i _ W Q3) as [cbs [k [w0 [mu Et]]]]. assert (HQ : step f3 q = finish q i (Ok VNone)) by (unfold Loop_Model.step; now rewrite Q3). pose proof (finish_at q i (Ok VNone) _ _ _ _ Et) as FA. cbn in FA.
    assert (SY : state_of y i = Some (if mu then Canc else Finished (Ok VNone))) by (apply (state_of_done shuffle dut delayers (step f3 q)); [now apply step_wf|exact Q4|rewrite HQ; exact FA|destruct mu; discriminate]).
    destruct mu; [contradiction|]. left. exists s0, s1, es, w. split; auto. split; auto. split; auto. split; [left; exact X4|]. split; auto.
  - right. apply (RA s1 e); auto. exact (steps_trans _ _ _ _ _ _ R0 X1).
  - exfalso. exact (noncancelling _ OK X).
Qed.

(** It is finished in every later cycle. *)
Lemma bg_concluded l v s fire s' : steps (init test m) s -> current_op s = Some (OCreate (background d compare l v)) -> ~ test_over s -> steps (step fire s) s' -> nstep s < nstep s' -> let i := List.length (futs s) in
  (exists s0 s1 es w, steps s s0 /\ steps s0 s1 /\ steps s1 s' /\ nstep s1 = nstep s /\ runs s1 i (conclude_call d compare v) /\ NoDup es /\ Forall2 (hook_ran s0 s1 i (priority (d_prio d (mm s0)))) l es /\
     snd (compare v (mm s1)) = Ok w /\ state_of s' i = Some (Finished (Ok VNone))) \/
  (exists e, state_of s' i = Some (Finished (Exn e))).
Proof.
  intros R0 Ho N R' L i. destruct (made_same shuffle dut delayers fire s _ Ho) as [NS TS]. assert (R1 : steps (init test m) (step fire s)) by (apply steps_step; exact R0). assert (N1 : ~ test_over (step fire s)) by (unfold test_over; rewrite TS; exact N).
  destruct (cycle_between shuffle dut delayers test m shuffled (step fire s) s' R1 R' ltac:(lia) N1) as [y [c [A0 [B0 [C0 [D0 NX]]]]]]. rewrite NS in C0. assert (Ry : steps (init test m) y) by exact (steps_trans _ _ _ _ _ _ R1 A0). pose proof (v_wf _ (proj1 (reach_all shuffle dut delayers test m y Ry))) as W.
  destruct (bg_done l v s fire y c R0 Ho A0 D0 (NX HN)) as [[s0 [s1 [es [w [X1 [X2 [X3 [X4 [X5 [X6 [X7 X8]]]]]]]]]]]|[e X]].
  - left. exists s0, s1, es, w. split; auto. split; auto. split; [eapply steps_trans; eauto|]. split; [eapply same_cycle; [eapply steps_trans; eauto| |]; eauto|]. split; auto. split; auto. split; auto. split; auto. eapply state_of_done; eauto. discriminate.
  - right. exists e. eapply state_of_done; eauto. discriminate.
Qed.

(** The step in which a task fails. *)
Lemma claimed_incl fire gc x : incl (x_claimed x) (x_claimed (xstep fire gc x)).
Proof. unfold Handler_Model.xstep. destruct (x_stop x && between (x_core x)); [apply incl_refl|]. cbn. apply incl_appl, incl_refl. Qed.
Lemma claimed_mono x x' : xsteps x x' -> incl (x_claimed x) (x_claimed x').
Proof. intros R. induction R as [x|x x1 fire gc R IH]; [apply incl_refl|]. eapply incl_tran; [exact IH|apply claimed_incl]. Qed.
Lemma deleting_xsteps i x x' : xdeleting i x x' -> xsteps x x'.
Proof. intros R. induction R as [x|x x1 fire gc R IH]; [apply xs_refl|]. now apply xs_step. Qed.
Lemma islive_step test0 fire s i : steps (init test0 m) s -> islive (futs s) i = true -> state_of (step fire s) i = Some Pending -> islive (futs (step fire s)) i = true.
Proof.
  intros R L SP. destruct (live_task _ _ L) as [cbs [k [w [mu E]]]]. pose proof (v_wf _ (proj1 (reach_all shuffle dut delayers test0 m s R))) as W.
  destruct (steps_fext shuffle dut delayers s (step fire s) W (steps_step _ _ _ _ _ fire (steps_refl _ _ _ s)) i _ E) as [fu' [E' [K' _]]]. unfold state_of, fget in SP. rewrite E' in SP. cbn in SP. injection SP as SP. unfold islive. rewrite E'. destruct fu' as [st cb kd]. cbn in SP. subst st. cbn in K'. destruct kd; try contradiction K'. reflexivity.
Qed.
End Call.
End Last.
