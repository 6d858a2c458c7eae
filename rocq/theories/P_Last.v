(** C88: no comparison is lost when the test ends. *)
From Coq Require Import List Bool Arith ZArith Lia Permutation.
From Verif Require Import Live_Proofs Py Prio_Model Loop_Model Loop_Spec Loop2_Spec LoopProg_Model Mon_Model Loop_Proofs Loop2_Proofs Loop3_Proofs Loop4_Proofs Loop5_Proofs Loop6_Proofs Loop9_Proofs Loop10_Proofs Loop13_Proofs Loop14_Proofs Loop15_Proofs Bind_Spec Loop16_Proofs Loop17_Proofs Loop18_Proofs LoopRun_Model LoopRun_Proofs Drv_Model Drv_Spec Drv_Proofs Loop3_Spec Loop20_Proofs Loop21_Proofs Loop22_Proofs Loop23_Proofs Comp_Proofs Live_Spec Hook_Spec Hook_Proofs Handler_Model Handler_Spec Handler_Proofs Loop8_Proofs MainEnv_Proofs Fail_Spec Fail_Proofs Loop7_Proofs Exec_Proofs Test_Proofs P_Loop P_Loop2 P_Loop3 P_Loop4 P_Drv P_Loop5 P_Hook P_Handler Last_Proofs.
Import ListNotations.
Open Scope nat_scope.

Section Thms.
Context {mem : Type} (shuffle : list id -> list id) (dut delayers : mem -> mem).
Notation steps := (steps shuffle dut delayers). Notation step := (step shuffle dut delayers). Notation prog := (@prog mem). Notation state := (@state mem). Notation xstate := (@xstate mem).
Notation xstep := (xstep shuffle dut delayers). Notation xsteps := (xsteps shuffle dut delayers). Notation xdeleting := (xdeleting shuffle dut delayers).
Notation hook_ran := (hook_ran shuffle dut delayers).
Implicit Types (s : state) (x : xstate).

Section Call.
Context (d : @drv mem) (compare : lval -> mem -> mem * res lval).
Context (test : prog) (m : mem) (HT : tame test) (HP : plain_hooks test) (HN : nocancel test) (shuffled : forall l, Permutation l (shuffle l)).

(** A driver call hands its results over while the test is running ([s]); one clock cycle later the background task is over: the comparison was made in the cycle of the call and did not raise, or the task has failed. *)
Theorem C88_concluded l v s fire s' : steps (init test m) s -> current_op s = Some (OCreate (background d compare l v)) -> ~ test_over s -> steps (step fire s) s' -> nstep s < nstep s' -> let i := List.length (futs s) in
  (exists s0 s1 es w, steps s s0 /\ steps s0 s1 /\ steps s1 s' /\ nstep s1 = nstep s /\ runs s1 i (conclude_call d compare v) /\ NoDup es /\ Forall2 (hook_ran s0 s1 i (priority (d_prio d (mm s0)))) l es /\
     snd (compare v (mm s1)) = Ok w /\ state_of s' i = Some (Finished (Ok VNone))) \/
  (exists e, state_of s' i = Some (Finished (Exn e))).
Proof. apply (bg_concluded shuffle dut delayers d compare test m HT HP HN shuffled). Qed.

Lemma failing_step x x' i e : xsteps (xinit test m) x -> islive (futs (x_core x)) i = true -> xdeleting i x x' -> state_of (x_core x') i = Some (Finished (Exn e)) ->
  exists z fire gc, xsteps x z /\ In i gc /\ islive (futs (x_core z)) i = true /\ x_core (xstep fire gc z) = step fire (x_core z) /\ state_of (step fire (x_core z)) i = Some (Finished (Exn e)) /\ xsteps (xstep fire gc z) x'.
Proof.
  intros R0 L R. revert e. induction R as [x|x x1 fire gc R IH Hgc]; intros e SF.
  - exfalso. destruct (live_task _ _ L) as [cbs [k [w [mu E]]]]. unfold state_of, fget in SF. rewrite E in SF. discriminate.
  - pose proof (deleting_xsteps _ _ _ _ _ _ R) as RX. assert (R1 : xsteps (xinit test m) x1) by (clear - R0 RX; induction RX; auto; apply xs_step; auto). pose proof (xreach shuffle dut delayers test m x1 R1) as R2.
    pose proof (v_wf _ (proj1 (reach_all shuffle dut delayers test m _ R2))) as W.
    destruct (islive (futs (x_core x1)) i) eqn:L1.
    + assert (HE : x_core (xstep fire gc x1) = step fire (x_core x1)).
      { destruct (xstep_core shuffle dut delayers fire gc x1) as [E|E]; auto. exfalso. rewrite E in SF. destruct (live_task _ _ L1) as [cbs [k [w [mu E1]]]]. unfold state_of, fget in SF. rewrite E1 in SF. discriminate. }
      exists x1, fire, gc. split; auto. split; auto. split; auto. split; auto. split; [congruence|apply xs_refl].
    + assert (XL : exists st, state_of (x_core x1) i = Some st /\ st <> Pending).
      { destruct (live_task _ _ L) as [cbs [k [w [mu E]]]]. pose proof (v_wf _ (proj1 (reach_all shuffle dut delayers test m _ (xreach shuffle dut delayers test m x R0)))) as W0.
        destruct (steps_fext shuffle dut delayers _ _ W0 (xsteps_core shuffle dut delayers _ _ RX) i _ E) as [[st cb kd] [E' [K' _]]]. exists st. unfold state_of, fget. rewrite E'. split; auto. intros ->. unfold islive in L1. rewrite E' in L1. cbn in K'. destruct kd; try contradiction K'. discriminate. }
      destruct XL as [st [S1 S2]]. assert (S3 : state_of (x_core (xstep fire gc x1)) i = Some st).
      { destruct (xstep_core shuffle dut delayers fire gc x1) as [E|E]; rewrite E; auto. eapply state_of_done; eauto. apply steps_step, steps_refl. }
      assert (S4 : state_of (x_core x1) i = Some (Finished (Exn e))) by congruence. destruct (IH R0 L e S4) as [z [f [g [A1 [A2 [A3 [A4 [A5 A6]]]]]]]]. exists z, f, g. split; auto. split; auto. split; auto. split; auto. split; auto. now apply xs_step.
Qed.

(** Where the background task is forgotten (nobody awaits it, its object is deleted when it has ended): if run() returns, the comparison of every call handed over while the test was running was made, in the clock cycle of the call,
    after all its dut-first hooks, and did not raise. *)
Theorem C88_passed l v x fire gc x' u : xsteps (xinit test m) x -> ~ test_over (x_core x) -> clock (x_core x) <> None -> current_op (x_core x) = Some (OCreate (background d compare l v)) ->
  let s := x_core x in let i := List.length (futs s) in
  xdeleting i (xstep fire gc x) x' -> ~ In i (x_claimed x') -> run_returned x' u ->
  exists s0 s1 es w, steps s s0 /\ steps s0 s1 /\ steps s1 (x_core x') /\ nstep s1 = nstep s /\ runs s1 i (conclude_call d compare v) /\ NoDup es /\ Forall2 (hook_ran s0 s1 i (priority (d_prio d (mm s0)))) l es /\ snd (compare v (mm s1)) = Ok w.
Proof.
  intros R N CS Ho s i RD NCL RR. pose proof (xreach shuffle dut delayers test m x R) as R0. fold s in R0, N, CS, Ho.
  assert (BF : between s = false) by (apply cur_busy; intros X; unfold current_op in Ho; rewrite X in Ho; discriminate).
  assert (HX : x_core (xstep fire gc x) = step fire s) by (unfold Handler_Model.xstep; fold s; rewrite BF, andb_false_r; reflexivity).
  destruct (made_same shuffle dut delayers fire s _ Ho) as [NS TS]. set (x1 := xstep fire gc x) in *.
  assert (RX1 : xsteps (xinit test m) x1) by (now apply xs_step). assert (R1 : steps (init test m) (step fire s)) by (apply steps_step; exact R0).
  assert (N1 : ~ test_over (step fire s)) by (unfold test_over; rewrite TS; exact N). destruct (clock s) as [c|] eqn:Ec; [|congruence]. assert (Ec1 : clock (step fire s) = Some c) by (now apply clock_step).
  pose proof (deleting_xsteps _ _ _ _ _ _ RD) as RX. pose proof (xsteps_core shuffle dut delayers _ _ RX) as RC. rewrite HX in RC.
  assert (L : nstep s < nstep (x_core x')) by (rewrite <- NS; apply (value_later shuffle dut delayers test m (step fire s) _ u); auto; [congruence|now apply result_state]).
  destruct (C88_concluded l v s fire (x_core x') R0 Ho N RC L) as [[s0 [s1 [es [w [X1 [X2 [X3 [X4 [X5 [X6 [X7 [X8 X9]]]]]]]]]]]]|[e X]].
  { exists s0, s1, es, w. repeat (split; auto). }
  exfalso.
  assert (LI : islive (futs (x_core x1)) i = true) by (rewrite HX; destruct (made_susp shuffle dut delayers test m _ s fire R0 Ho) as [_ [cbs [mu E]]]; unfold islive, i; now rewrite E).
  pose proof (clock_len shuffle dut delayers test m s c R0 Ec) as LC.
  destruct (failing_step x1 x' i e RX1 LI RD X) as [z [f [g [Z1 [Z2 [Z3 [Z4 [Z5 Z6]]]]]]]]. pose proof (xsteps_core shuffle dut delayers _ _ Z1) as ZC. rewrite HX in ZC.
  assert (RZ : xsteps (xinit test m) z) by (clear - RX1 Z1; induction Z1; auto; apply xs_step; auto). pose proof (xreach shuffle dut delayers test m z RZ) as RZC.
  assert (PZ : state_of (x_core z) i = Some Pending) by (destruct (live_task _ _ Z3) as [cbs [k [w [mu E]]]]; unfold state_of, fget; now rewrite E).
  assert (NI : i <> 0). { intros E0. destruct (reach_linked _ _ _ _ _ _ R0) as [W0 _]. unfold current_op in Ho. destruct (cur s) as [[t b]|] eqn:Hc; [|discriminate]. destruct (cur_task s t b W0 Hc) as [cbs [k [w [mu E]]]]. unfold fget in E. unfold i in E0. destruct (futs s); [destruct t; discriminate|discriminate]. }
  assert (NCk : clock (x_core z) <> Some i). { rewrite (clock_steps shuffle dut delayers _ _ _ ZC Ec1). intros E0. injection E0 as E0. unfold i in E0. lia. }
  destruct (end_only shuffle dut delayers test m f (x_core z) i e RZC NCk NI PZ Z3 Z5) as [Hcz NE].
  assert (DONE : forall y c0, steps (step fire s) y -> steps y (x_core z) -> cycle_done y c0 -> okF (futs y) -> False).
  { intros y c0 Y1 Y2 Y3 Y4. assert (Ry : steps (init test m) y) by exact (steps_trans _ _ _ _ _ _ R1 Y1). pose proof (v_wf _ (proj1 (reach_all shuffle dut delayers test m y Ry))) as W.
    assert (D : exists st, state_of y i = Some st /\ st <> Pending).
    { destruct (bg_done shuffle dut delayers d compare test m HT HP shuffled l v s fire y c0 R0 Ho Y1 Y3 Y4) as [[s0 [s1 [es [w [_ [_ [_ [_ [_ [_ [_ Q]]]]]]]]]]]|[e0 Q]]; eexists; (split; [exact Q|discriminate]). }
    destruct D as [st [D1 D2]]. pose proof (state_of_done shuffle dut delayers y _ _ _ W Y2 D1 D2). congruence. }
  assert (NZ : nstep (x_core z) = nstep (step fire s)).
  { destruct (Nat.eq_dec (nstep (x_core z)) (nstep (step fire s))) as [|NZ]; auto. exfalso. pose proof (nstep_le shuffle dut delayers _ _ ZC).
    destruct (cycle_between shuffle dut delayers test m shuffled (step fire s) (x_core z) R1 ZC ltac:(lia) N1) as [y [c0 [A0 [B0 [C0 [D0 NX]]]]]]. exact (DONE y c0 A0 B0 D0 (NX HN)). }
  destruct (still_waits shuffle dut delayers test m HN shuffled (step fire s) (x_core z) R1 N1 ltac:(congruence) ZC NZ) as [NP|[y [c0 [A0 [B0 [C0 D0]]]]]]; [|exact (DONE y c0 A0 B0 (or_intror C0) D0)].
  assert (U : unclaimed z i).
  { assert (NC2 : ~ In i (x_claimed (xstep f g z))) by (intros Q; apply NCL; exact (claimed_mono _ _ _ _ _ Z6 i Q)). split; [intros Q; apply NC2; now apply claimed_incl|].
    destruct (live_task _ _ Z3) as [cbs [k [w [mu E]]]]. exists (mkt Pending cbs k w mu). split; [exact E|]. destruct cbs as [|cb cbs]; auto. exfalso. apply NC2. unfold Handler_Model.xstep. rewrite (cur_busy (x_core z)) by congruence. rewrite andb_false_r. cbn [x_claimed]. apply in_or_app. right. unfold claims. rewrite Hcz. apply in_or_app. left. unfold waited, fget. rewrite E. cbn. now left. }
  apply (nopass_raises shuffle dut delayers test m f g z i e x' u RZ NP (conj Hcz NE) U Z2 Z6 RR).
Qed.
End Call.
End Thms.
Print Assumptions C88_concluded.
Print Assumptions C88_passed.

(** A test whose last action is a driver call: it returns in the clock cycle in which the call hands its results over, before the dut-first hooks are called. *)
Definition outcome_of (r : res lval) : @prog world := match r with Ok v => Ret v | Exn e => Raise e end.
Definition t_last compare : @prog world := Op OStartClock (fun _ => Op OQNew (fun _ => call the_drv compare models method outcome_of)).
Definition last_at compare n := xrun ids keepw keepw [8] n (xinit (t_last compare) world0).
Lemma last_reach compare n : xsteps ids keepw keepw (xinit (t_last compare) world0) (last_at compare n). Proof. apply xrun_steps, xs_refl. Qed.
Lemma last_deleting compare n k : xdeleting ids keepw keepw 8 (last_at compare n) (last_at compare (n + k)).
Proof. unfold last_at. rewrite xrun_add. apply xrun_deleting; [now left|apply xd_refl]. Qed.
Lemma t_last_class : tame (t_last no_compare) /\ plain_hooks (t_last no_compare) /\ nocancel (t_last no_compare).
Proof.
  assert (SND : forall g : res lval -> Prop, (forall v, g (Ok v)) -> forall i : @item world, In i (flat_map items_of models) -> sound_item g i).
  { intros g G i H. repeat (destruct H as [<-|H]; [intros m; apply G || (intros X; discriminate X)|]). destruct H. }
  assert (AL : forall P : @op world (@prog world) -> Prop, (forall o, match o with OPrio p _ dn => dn = true /\ exists h, p = wrapper h | _ => True end -> P o) -> allp P (t_last no_compare)).
  { intros P HP. assert (OP : forall o k, match o with OPrio p _ dn => dn = true /\ exists h, p = wrapper h | _ => True end -> (forall p, part o p -> allp P p) -> (forall r, allp P (k r)) -> allp P (Op o k)) by (intros o k A B C; apply all_op; auto).
    unfold t_last. do 2 (apply OP; [exact Logic.I|intros p X; inversion X|intros _]). apply q_call with (g := fun _ => True); auto.
    - intros o k A B C. apply OP; auto. destruct o; auto.
    - intros v. apply all_ret.
    - intros e _. apply all_raise.
    - intros k HK. unfold method. apply allp_bindr; auto. apply allp_bindr; [|intros r; apply OP; [exact Logic.I|intros p X; inversion X|intros _; apply all_ret]].
      cbn [clock_cycles]. unfold Let. apply OP; [exact Logic.I|intros p X; inversion X|intros [v|e]; cbn [thenv]; [|apply all_raise]]. apply OP; [exact Logic.I|intros p X; inversion X|intros [w|e]; cbn [thenv]; [apply all_ret|apply all_raise]].
    - intros [v|e] _; [apply all_ret|apply all_raise]. }
  split; [apply AL; intros []; auto; intros [-> _]; exact Logic.I|]. split; [apply AL; intros []; auto; intros [_ [h0 ->]]; apply instant_wrapper|].
  unfold t_last. do 2 (apply nc_op; [exact Logic.I|intros p X; inversion X|intros _ _]). apply q_call with (g := fun r => r <> Exn CancelledError); try (intros; discriminate); auto.
  - intros o k A B C. apply nc_op; auto. destruct o; auto.
  - intros v. apply nc_ret.
  - intros e E. apply nc_raise. congruence.
  - apply SND. discriminate.
  - intros k HK. unfold method. apply nocancel_bindr; auto. apply nocancel_bindr; [apply nocancel_cycles|]. intros r _. apply nc_op; [discriminate|intros p X; inversion X|intros _ _; apply nc_ret].
  - intros [v|e] E; [apply nc_ret|apply nc_raise; congruence].
Qed.
Example C88_nonvacuous : let x := last_at no_compare 74 in let x' := last_at no_compare 147 in
  current_op (x_core x) = Some (OCreate (background the_drv no_compare [hk false 40 3; hk false 20 2] (VInt 9))) /\ List.length (futs (x_core x)) = 8 /\ ~ test_over (x_core x) /\ clock (x_core x) <> None /\ test_over (x_core (last_at no_compare 76)) /\
  last_at no_compare 75 = xstep ids keepw keepw [] [8] x /\ xdeleting ids keepw keepw 8 (last_at no_compare 75) x' /\ ~ In 8 (x_claimed x') /\ run_returned x' (VInt 9) /\ w_log (mm (x_core x')) = [4; 1; 7; 2; 3; 8].
Proof.
  do 2 (split; [vm_compute; reflexivity|]). split; [vm_compute; discriminate|]. split; [vm_compute; discriminate|]. split; [vm_compute; reflexivity|].
  split; [unfold last_at; change 75 with (74 + 1); rewrite xrun_add; reflexivity|]. split; [exact (last_deleting no_compare 75 72)|]. split; [vm_compute; intuition discriminate|]. split; vm_compute; reflexivity.
Qed.
(** The theorem applied to it: the comparison (8 in the log) came after both hooks, in the cycle of the call. *)
Example C88_applied : exists s1 (es : list id), nstep s1 = 2 /\ runs s1 8 (conclude_call the_drv no_compare (VInt 9)) /\ List.length es = 2.
Proof.
  destruct C88_nonvacuous as [A [B [C [D [_ [F [G [H [J _]]]]]]]]]. destruct t_last_class as [T [P N]].
  destruct (C88_passed ids keepw keepw the_drv no_compare (t_last no_compare) world0 T P N perm_ids _ _ (last_at no_compare 74) [] [8] (last_at no_compare 147) (VInt 9) (last_reach _ _) C D A) as [s0 [s1 [es [w [_ [_ [_ [X4 [X5 [_ [X7 _]]]]]]]]]]].
  - rewrite B, <- F. exact G.
  - rewrite B. exact H.
  - exact J.
  - exists s1, es. rewrite B in X5. split; [rewrite X4; vm_compute; reflexivity|]. split; auto. clear - X7. inversion X7 as [|? ? ? ? _ Y]; subst. inversion Y as [|? ? ? ? _ Z]; subst. now inversion Z.
Qed.
(** With a comparison that fails, the same test, which has returned by then, does not pass. *)
Example C88_contrast : test_over (x_core (last_at differs 76)) /\ cur (x_core (last_at differs 121)) = Some (8, BProg (conclude_call the_drv differs (VInt 9))) /\ run_raised (last_at differs 128) RuntimeError.
Proof. split; [vm_compute; reflexivity|]. split; vm_compute; reflexivity. Qed.
