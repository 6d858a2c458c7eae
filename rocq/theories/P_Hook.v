(** C74: hooks take no clock cycles. *)
From Coq Require Import List Bool Arith ZArith Lia Permutation.
From Verif Require Import Py Prio_Model Loop_Model Loop_Spec Loop2_Spec LoopProg_Model Mon_Model Loop_Proofs Loop2_Proofs Loop3_Proofs Loop4_Proofs Loop5_Proofs Loop6_Proofs Loop9_Proofs Loop10_Proofs Loop13_Proofs Loop14_Proofs Loop15_Proofs Bind_Spec Loop16_Proofs Loop17_Proofs Loop18_Proofs LoopRun_Model LoopRun_Proofs P_Loop P_Loop2 P_Loop3 P_Loop4 Drv_Model Drv_Spec Drv_Proofs P_Drv Loop3_Spec Loop20_Proofs Loop21_Proofs Loop22_Proofs Loop23_Proofs Comp_Proofs Live_Spec Hook_Spec Hook_Proofs.
Import ListNotations.
Open Scope nat_scope.

Section Thms.
Context {mem : Type} (shuffle : list id -> list id) (dut delayers : mem -> mem).
Notation steps := (steps shuffle dut delayers). Notation step := (step shuffle dut delayers). Notation prog := (@prog mem). Notation state := (@state mem). Notation body := (@body mem).
Notation hook := (@hook mem). Notation hook_ran := (hook_ran shuffle dut delayers).
Implicit Types (s : state).

(** A hook that was registered has been run when dut.Step is about to be called, and when the tasks are about to be cancelled at the end of the test. *)
Theorem C74_before_step (test : prog) m h d s0 fire s c : plain_hooks test -> steps (init test m) s0 -> registers s0 h d -> steps (step fire s0) s -> cycle_done s c ->
  exists y, steps s0 y /\ steps y s /\ turn y h (if d then Some (List.length (evs s0)) else None).
Proof. intros HP R0 Hr R Hc. apply (hook_punctual shuffle dut delayers test m s0 h d fire s c HP R0 Hr R Hc). Qed.

(** * Clock cycles *)
Lemma nstep_le s s' : steps s s' -> nstep s <= nstep s'.
Proof. intros R. induction R as [s|s s1 fire R IH]; auto. rewrite nstep_step. destruct (cur s1) as [[t [| |[]| | | |]]|]; lia. Qed.
Lemma next_step s s' : steps s s' -> nstep s < nstep s' -> exists y c, steps s y /\ steps y s' /\ nstep y = nstep s /\ at_step y c.
Proof.
  intros R. induction R as [s|s s1 fire R IH]; intros L; [lia|]. destruct (Nat.eq_dec (nstep s1) (nstep s)) as [E|E].
  - rewrite nstep_step in L. exists s1. destruct (cur s1) as [[t [| |[]| | | |]]|] eqn:Hc; try lia. exists t. split; auto. split; [apply steps_step, steps_refl|]. split; auto. eexists; exact Hc.
  - pose proof (nstep_le _ _ R). destruct IH as [y [c [A [B [C D]]]]]; [lia|]. exists y, c. split; auto. split; auto. now apply steps_step.
Qed.

Section Call.
Context (d : @drv mem) (compare : lval -> mem -> mem * res lval).
Context (test : prog) (m : mem) (HT : tame test) (HP : plain_hooks test) (shuffled : forall l, Permutation l (shuffle l)).

Lemma done_quiet s c : steps (init test m) s -> cycle_done s c -> (exists cl, cur s = Some (c, BClk cl)) /\
  forall t, islive (futs s) t = true -> t <> c -> exists f fu, waitof (futs s) t = Some (Some f) /\ nth_error (futs s) f = Some fu /\ (f_st fu = Pending \/ f_st fu = Canc).
Proof.
  intros R [Hc|Hc]; (split; [eexists; exact Hc|]); [apply (cycle_canc shuffle dut delayers test m s c HT R Hc)|apply (cancel_quiet shuffle dut delayers shuffled test m s c HT R Hc)].
Qed.
(** A task waiting for the event of a hook is not waiting when dut.Step is called, unless somebody is being cancelled. *)
Lemma wait_over s c e i : steps (init test m) s -> cycle_done s c -> Waiting e i s -> Rset e s -> In e (ran s) -> state_of s i = Some Pending -> cancelling s.
Proof.
  intros R Hd Wt [_ Rs] Hr U. destruct (done_quiet s c R Hd) as [[cl Hc] A].
  destruct Wt as [H|[H|[[f [fu [H [E K]]]]|[[f [r [H X]]]|[[H X]|[[H X]|[[x H]|[st [H [X1 X2]]]]]]]]]]; try (rewrite Hc in H; try destruct f; discriminate).
  - destruct H as [H1 [cbs [mu H2]]]. assert (i <> c) by (intros ->; eapply H1; exact Hc). assert (L : islive (futs s) i = true) by (unfold islive; now rewrite H2). destruct (A i L H) as [f [fu [W1 _]]]. rewrite (waitof_task _ _ _ _ _ _ _ H2) in W1. discriminate.
  - destruct H as [H1 [cbs [mu H2]]]. assert (i <> c) by (intros ->; eapply H1; exact Hc). assert (L : islive (futs s) i = true) by (unfold islive; now rewrite H2). destruct (A i L H) as [f' [fu' [W1 [E1 S1]]]]. rewrite (waitof_task _ _ _ _ _ _ _ H2) in W1. injection W1 as ->. rewrite E in E1. injection E1 as <-.
    destruct S1 as [S1|S1].
    + exfalso. destruct (v_reg _ (reach_evi shuffle dut delayers test m s R) f' fu e E K S1) as [ev [Ee [_ V]]]. destruct (Rs Hr) as [ev' [E2 [_ V']]]. congruence.
    + exists i, f'. split; [eexists; split; [unfold tget, fget; rewrite H2; reflexivity|reflexivity]|]. unfold state_of, fget. rewrite E. cbn. now rewrite S1.
  - rewrite U in H. injection H as <-. contradiction.
Qed.
Lemma reg_of s0 s t z h e : steps (init test m) s0 -> Drv_Spec.registered shuffle dut delayers s0 s t z h e -> exists x fire k W, wrap W /\ steps (init test m) x /\ e = List.length (evs x) /\ cur x = Some (t, W (Op (OPrio (wrapper h) (z h) true) k)) /\ steps (step fire x) s.
Proof. intros R0 [x [fire [A [[[k Hr] ->] B]]]]. apply runs_wrap in Hr as [W [HW Hx]]. exists x, fire, k, W. split; auto. split; [eapply steps_trans; eauto|]. auto. Qed.
(** [events_track] at a clock cycle. *)
Lemma events_over W s s2 s' t z hs es k c : wrap W -> steps (init test m) s -> steps s s2 -> Forall2 (Drv_Spec.registered shuffle dut delayers s s2 t z) hs es -> cur s2 = Some (t, W (gather (map event_wait es) k)) -> steps s2 s' -> cycle_done s' c ->
  (exists s1 vs, steps s2 s1 /\ steps s1 s' /\ cur s1 = Some (t, W (k (Ok (VList vs)))) /\ Forall2 (hook_ran s s1 t z) hs es) \/
  (exists s1 e, steps s2 s1 /\ steps s1 s' /\ cur s1 = Some (t, W (k (Exn e)))) \/ cancelling s'.
Proof.
  intros HW R0 R2 HE Hc R Hd. assert (R02 : steps (init test m) s2) by (eapply steps_trans; eauto). assert (R0' : steps (init test m) s') by (eapply steps_trans; eauto). destruct (done_quiet s' c R0' Hd) as [[cl Hcy] AL].
  destruct (events_track shuffle dut delayers test m W s s2 s' t z hs es k HW R0 R2 HE Hc R) as [X|[X|X]]; [now left|right; now left|].
  destruct (gather_track shuffle dut delayers test m W k _ s2 s' t HW R02 Hc R) as [[s1 [vs [A [B [C [D E]]]]]]|[[s1 [i [e [vs [A [B [C _]]]]]]]|[[s1 [A [B [C _]]]]|[[i [A B]]|[i [vs [A [B [D C]]]]]]]]].
  - left. destruct X as [[i [ids [Hi X]]]|[i [ws [Hi X]]]].
    + exfalso. apply runs_wrap in X as [W1 [HW1 X]]. rewrite Hcy in X. destruct HW1 as [->| ->]; discriminate.
    + exists s1, vs. split; auto. split; auto. split; auto. rewrite map_length in *. assert (C' : exists q, cur s1 = Some (t, W q)) by eauto. destruct C' as [q C']. clear C X. set (is := seq (List.length (futs s2)) (List.length es)) in *. clearbody is.
      revert is vs D E. clear - HE HW R0 C'. induction HE as [|h e hs es H HE IH]; intros is vs D E; constructor.
      * cbn [map] in D. inversion D; subst. inversion E; subst. eapply (waited shuffle dut delayers test m W); eauto.
      * cbn [map] in D. inversion D; subst. inversion E; subst. eapply IH; eauto.
  - right; left. exists s1, e. auto.
  - right; left. exists s1, CancelledError. auto.
  - exfalso. rewrite Hcy in B. destruct HW as [->| ->]; discriminate.
  - right; right. destruct C as [C|[C U]]; [exfalso; rewrite Hcy in C; destruct HW as [->| ->]; discriminate|].
    rewrite map_length in *. set (j := List.length (futs s2) + i) in *. destruct C as [tk [Ct Cw]].
    assert (NE : exists h e, Drv_Spec.registered shuffle dut delayers s s2 t z h e /\ made_between shuffle dut delayers s2 s' (event_wait e) j).
    { subst j. clear - A D HE. revert i A D. generalize (List.length (futs s2)) as n. induction HE as [|h e hs es H HE IH]; intros n i A D; [simpl in A; lia|]. cbn [map List.length seq] in D. inversion D; subst.
      destruct i as [|i]; [exists h, e; split; auto; now rewrite Nat.add_0_r|]. simpl in A. destruct (IH (S n) i ltac:(lia) ltac:(assumption)) as [h' [e' [X Y]]]. exists h', e'. split; auto. now replace (n + S i) with (S n + i) by lia. }
    destruct NE as [h [e [He [y [Y1 [Y2 [Yo Yi]]]]]]]. destruct (reg_of s s2 t z h e R0 He) as [x [fx [kx [Wx [HWx [Rx [-> [Hx Rx2]]]]]]]].
    assert (Rxs : steps (step fx x) s') by (eapply steps_trans; eauto). assert (REG : registers x (wrapper h) true) by (exists t, (z h), kx; destruct HWx as [->| ->]; auto).
    destruct (hook_punctual shuffle dut delayers test m x (wrapper h) true fx s' c HP Rx REG Rxs Hd) as [_ IR]. specialize (IR _ eq_refl).
    pose proof (reg_set shuffle dut delayers test m x t _ _ _ Wx fx s' HWx Rx Hx Rxs) as RS. assert (Ry : steps (init test m) y) by (eapply steps_trans; [exact R02|exact Y1]).
    assert (Py : private y (List.length (evs x))) by exact (private_steps shuffle dut delayers (step fx x) y _ (reg_private shuffle dut delayers Wx test m x t _ _ _ fx HWx Rx Hx) (steps_trans _ _ _ _ _ _ Rx2 Y1)).
    assert (Jl : j < List.length (futs s') -> exists fy, steps (step fy y) s').
    { intros L. destruct (steps_first _ _ _ _ _ Y2) as [->|X1]; auto. lia. }
    unfold unfinished in U. apply live_iff in U.
    assert (Htc : t <> c). { intros ->. unfold tget in Ct. destruct (reach_linked _ _ _ _ _ _ R0') as [[I _] _]. destruct (cur_live _ I c _ Hcy) as [cb [k1 [mu E]]]. cbn [coreof snd] in E. unfold fget in Ct. rewrite E in Ct. injection Ct as <-. discriminate. }
    destruct (AL t U Htc) as [f [fu [W1 [E1 S1]]]]. assert (f = j). { unfold tget, fget, waitof in *. destruct (nth_error (futs s') t) as [[st cb []]|]; try discriminate. injection Ct as ->. congruence. } subst f.
    destruct S1 as [S1|S1]; [|exists t, j; split; [exists tk; auto|unfold state_of, fget; rewrite E1; cbn; now rewrite S1]].
    assert (Jl' : j < List.length (futs s')) by (apply nth_error_Some; congruence). destruct (Jl Jl') as [fy Ys].
    apply (wait_over s' c (List.length (evs x)) j); auto.
    + rewrite Yi. exact (wait_waiting shuffle dut delayers test m y _ fy s' Ry Yo Py Ys).
    + unfold state_of, fget. rewrite E1. cbn. now rewrite S1.
Qed.
Lemma noncancelling s : okF (futs s) -> ~ cancelling s.
Proof. intros N [t [f [_ E]]]. unfold state_of, fget in E. destruct (nth_error (futs s) f) as [fu|] eqn:Ef; [|discriminate]. cbn in E. injection E as E. destruct (N f fu Ef) as [[X _] _]. contradiction. Qed.
(** While the test runs, and in the rest of the cycle in which it returns, nothing is cancelled by the clock task. *)
Lemma first_cancel s z : steps (init test m) s -> ~ test_over s -> steps s z ->
  ((Fine z \/ exists c, cur z = Some (c, BClk (CStep false)) /\ tdone z <> Some true) /\ (nocancel test -> NC z)) \/
  exists y c, steps s y /\ steps y z /\ at_cancel y c /\ (nocancel test -> okF (futs y)).
Proof.
  intros R0 N R. induction R as [s|s z fire R IH].
  - left. split.
    + destruct (reach_phase shuffle dut delayers shuffled test m s R0) as [FI|c1 Hc1 TD CS1|c1 s1 g [R1 [R2 [_ [_ [TD _]]]]] SU GA|c1 s1 [R1 [R2 [_ [_ [TD _]]]]] DE Ph|c1 Hc1 TD CS1]; auto; try (exfalso; apply N; auto; eapply steps_tdone; eauto; fail). right. eauto.
    + intros NC. destruct (reach_nc shuffle dut delayers test m s NC R0) as [_ [_ [_ [_ [X|X]]]]]; [contradiction|auto].
  - assert (Rz : steps (init test m) z) by (eapply steps_trans; eauto). destruct (IH R0 N) as [[ST NCz]|[y [c [A [B C]]]]]; [|right; exists y, c; split; auto; split; [now apply steps_step|exact C]].
    pose proof (reach_all shuffle dut delayers test m z Rz) as A. pose proof A as [EV C]. pose proof (v_wf _ EV) as W.
    assert (SN : (forall c, cur z = Some (c, BClk CTail) -> tdone z <> Some true) -> nocancel test -> NC (step fire z)).
    { intros X Y. destruct (reach_nc shuffle dut delayers test m z Y Rz) as [_ [Lk [T [_ _]]]]. apply step_nc; auto. }
    destruct ST as [FI|[c [Hc TD]]].
    + assert (D : (exists t, cur z = Some (t, BClk CTail)) \/ forall t, cur z <> Some (t, BClk CTail)) by (destruct (cur z) as [[t [| |[]| | | |]]|]; eauto; right; discriminate).
      destruct D as [[t Hc]|D]; [|left; split; [left; apply fine_step; auto|apply SN; intros c X; now elim (D c)]].
      assert (HS : step fire z = go z t (BClk (match tdone z with Some true => CCancel | _ => CStep false end))) by (unfold Loop_Model.step; now rewrite Hc).
      destruct (tdone z) as [[|]|] eqn:TD.
      * right. exists (step fire z), t. split; [now apply steps_step|]. split; [apply steps_refl|]. split; [unfold at_cancel; rewrite HS; reflexivity|]. intros NC0. rewrite HS. exact (n_ok _ (NCz NC0)).
      * left. split; [right; exists t; rewrite HS; split; [reflexivity|cbn; congruence]|apply SN; congruence].
      * left. split; [right; exists t; rewrite HS; split; [reflexivity|cbn; congruence]|apply SN; congruence].
    + left. split; [|apply SN; congruence]. left. assert (CS : clock z = Some c) by (eapply clock_of; eauto). apply (fine_clk _ c (BClk CRound)); auto; [now apply step_all|now apply clock_step| |exact Logic.I]. unfold Loop_Model.step. rewrite Hc. reflexivity.
Qed.
(** Between a state of the running test and a later clock cycle there is the end of the work of its cycle. *)
Lemma cycle_between s s' : steps (init test m) s -> steps s s' -> nstep s < nstep s' -> ~ test_over s -> exists y c, steps s y /\ steps y s' /\ nstep y = nstep s /\ cycle_done y c /\ (nocancel test -> okF (futs y)).
Proof.
  intros R0 R L N. destruct (next_step s s' R L) as [y [c [A [B [C [l D]]]]]]. assert (Ry : steps (init test m) y) by (eapply steps_trans; eauto).
  destruct (first_cancel s y R0 N A) as [[[FI|[c1 [E TD]]] NC0]|[z [c1 [X1 [X2 [X3 X4]]]]]].
  - exfalso. exact (proj2 FI _ _ D).
  - exists y, c1. split; auto. split; auto. split; auto. split; [left; exact E|]. intros X. exact (n_ok _ (NC0 X)).
  - exists z, c1. split; auto. split; [eapply steps_trans; eauto|]. split; [pose proof (nstep_le _ _ X1); pose proof (nstep_le _ _ X2); lia|]. split; [right; exact X3|exact X4].
Qed.
Lemma same_cycle s s1 y : steps s s1 -> steps s1 y -> nstep y = nstep s -> nstep s1 = nstep s.
Proof. intros A B E. apply nstep_le in A, B. lia. Qed.

Lemma first_over mi (func : prog) K s s' t c : steps (init test m) s -> runs s t (call d compare mi func K) -> steps s s' -> cycle_done s' c ->
  (exists s1 es, steps s s1 /\ steps s1 s' /\ runs s1 t (bindr func (after_body d compare (later_hooks (d_order d (mm s)) mi) K)) /\ NoDup es /\
     Forall2 (hook_ran s s1 t (priority (d_prio d (mm s)))) (first_hooks (d_order d (mm s)) mi) es) \/
  (exists s1 e, steps s s1 /\ steps s1 s' /\ runs s1 t (K (Exn e))) \/ cancelling s'.
Proof.
  intros R0 Hr R Hcy. apply runs_wrap in Hr as [W [HW Hc]]. destruct (items_hooks mi) as [I1 [I2 I3]].
  destruct (setup_track shuffle dut delayers d (then_body d compare func K) (fun e => K (Exn e)) W (flat_map items_of mi) s s' t [] [] [] HW Hc R) as [[s2 [es [A [B [C [[D1 [D2 _]] E]]]]]]|[[s1 [e [A [B C]]]]|[q [A B]]]].
  - cbn [app] in C. unfold firsts in D1. rewrite I1 in D1. rewrite I2, I3 in C. unfold then_body in C.
    destruct (events_over W s s2 s' t _ _ _ _ c HW R0 A D1 C B Hcy) as [[s1 [vs [X1 [X2 [X3 X4]]]]]|[[s1 [e [X1 [X2 X3]]]]|X]]; auto.
    + left. exists s1, es. split; [eapply steps_trans; eauto|]. split; auto. split; [apply runs_wrap; exists W; split; [exact HW|exact X3]|]. split; auto.
    + right; left. exists s1, e. split; [eapply steps_trans; eauto|]. split; auto. apply runs_wrap. exists W. auto.
  - right; left. exists s1, e. split; auto. split; auto. apply runs_wrap. eauto.
  - exfalso. destruct (done_quiet s' c ltac:(eapply steps_trans; eauto) Hcy) as [[cl Hcl] _]. rewrite Hcl in A. destruct HW as [->| ->]; discriminate.
Qed.
(** A driver call, looked at when at least one more clock cycle has passed: in the very cycle of the call all model-first hooks have been called and the
    method has been started; or the call has raised an exception in that cycle; or somebody is waiting, in that cycle, for something the test has cancelled. *)
Theorem C74_model_first mi (func : prog) K s s' t : steps (init test m) s -> runs s t (call d compare mi func K) -> steps s s' -> nstep s < nstep s' -> ~ test_over s ->
  (exists s1 es, steps s s1 /\ steps s1 s' /\ nstep s1 = nstep s /\ runs s1 t (bindr func (after_body d compare (later_hooks (d_order d (mm s)) mi) K)) /\ NoDup es /\
     Forall2 (hook_ran s s1 t (priority (d_prio d (mm s)))) (first_hooks (d_order d (mm s)) mi) es) \/
  (exists s1 e, steps s s1 /\ steps s1 s' /\ nstep s1 = nstep s /\ runs s1 t (K (Exn e))) \/
  (~ nocancel test /\ exists y, steps s y /\ steps y s' /\ nstep y = nstep s /\ cancelling y).
Proof.
  intros R0 Hr R L N. destruct (cycle_between s s' R0 R L N) as [y [c [A [B [C [D NX]]]]]]. destruct (first_over mi func K s y t c R0 Hr A D) as [[s1 [es [X1 [X2 X]]]]|[[s1 [e [X1 [X2 X]]]]|X]].
  - left. exists s1, es. split; auto. split; [eapply steps_trans; eauto|]. split; [eapply same_cycle; eauto|exact X].
  - right; left. exists s1, e. split; auto. split; [eapply steps_trans; eauto|]. split; [eapply same_cycle; eauto|exact X].
  - right; right. split; [intros X1; exact (noncancelling _ (NX X1) X)|eauto].
Qed.
Lemma made_susp p s fire : steps (init test m) s -> current_op s = Some (OCreate p) -> Susp (List.length (futs s)) (start (BProg p)) None (step fire s).
Proof.
  intros R0 Ho. set (i := List.length (futs s)). destruct (reach_linked _ _ _ _ _ _ R0) as [WF _].
  assert (X : exists t b, cur s = Some (t, b) /\ exists kk, step fire s = exec_op s t (OCreate p) kk).
  { unfold current_op in Ho. destruct (cur s) as [[t b]|] eqn:Hc; [|discriminate]. exists t, b. split; auto. unfold Loop_Model.step. rewrite Hc.
    destruct b as [[v0|x|o kk]|[v0|x|o kk] ev todo sb|c|x g r kk|q g r kk|test0|[v0|x|o kk]]; try discriminate; injection Ho as ->; cbn [exec_body]; eauto. }
  destruct X as [t [b [Hc [kk HS]]]]. destruct (cur_task s t b WF Hc) as [cbs [k [w [mu Et]]]]. assert (t < List.length (futs s)) by (apply nth_error_Some; unfold fget in Et; congruence).
  rewrite HS. split; [intros b0 X; cbn in X; injection X as X _; unfold i in X; lia|]. exists [], false. cbn. unfold i. rewrite nth_error_app2, Nat.sub_diag by lia. reflexivity.
Qed.
Lemma made_begun p s fire s' : steps (init test m) s -> current_op s = Some (OCreate p) -> steps (step fire s) s' -> let i := List.length (futs s) in
  (Susp i (start (BProg p)) None s') \/ (exists s0, steps s s0 /\ steps s0 s' /\ cur s0 = Some (i, BProg p)) \/ (exists s0 e, steps s s0 /\ steps s0 s' /\ cur s0 = Some (i, BProg (Raise e))).
Proof.
  intros R0 Ho R i. destruct (reach_linked _ _ _ _ _ _ R0) as [WF _]. pose proof (made_susp p s fire R0 Ho) as SU. fold i in SU.
  assert (WF1 : Wf (step fire s)) by now apply step_wf. destruct (susp_track shuffle dut delayers i _ _ _ s' WF1 SU R) as [X|[s1 [fi [r [A [_ [B [C _]]]]]]]]; auto.
  right. assert (RS : steps s (step fi s1)) by (eapply steps_cons; apply steps_step; exact A). destruct r as [v0|e]; cbn [start] in C; [left|right]; eauto.
Qed.
Lemma made_same fire s p : current_op s = Some (OCreate p) -> nstep (step fire s) = nstep s /\ tdone (step fire s) = tdone s.
Proof.
  intros Ho. split; [rewrite nstep_step|rewrite (fr_tdone _ _ (step_fr shuffle dut delayers fire s))]; unfold current_op in Ho; unfold seff; destruct (cur s) as [[t [[v0|x|o0 k0]|[v0|x|o0 k0] ev todo sb|[]|x g r k0|q g r k0|test0|[v0|x|o0 k0]]]|]; try discriminate; try reflexivity; injection Ho as ->; reflexivity.
Qed.
(** The dut-first hooks of a call, at the end of the work of a cycle. *)
Lemma bg_over l v s fire y c : steps (init test m) s -> current_op s = Some (OCreate (background d compare l v)) -> steps (step fire s) y -> cycle_done y c -> let i := List.length (futs s) in
  (exists s0 s1 es, steps s s0 /\ steps s0 s1 /\ steps s1 y /\ cur s1 = Some (i, BProg (conclude_call d compare v)) /\ NoDup es /\ Forall2 (hook_ran s0 s1 i (priority (d_prio d (mm s0)))) l es) \/
  (exists s1 e, steps s s1 /\ steps s1 y /\ cur s1 = Some (i, BProg (Raise e))) \/ cancelling y.
Proof.
  intros R0 Ho A0 D0 i. assert (R1 : steps (init test m) (step fire s)) by (apply steps_step; exact R0). assert (Ry : steps (init test m) y) by (eapply steps_trans; [exact R1|exact A0]).
  destruct (made_begun _ s fire y R0 Ho A0) as [X|[[s0 [A [B C]]]|[s0 [e [A [B C]]]]]].
  - exfalso. destruct X as [H1 [cbs [mu H2]]]. destruct (done_quiet y c Ry D0) as [[cl Hcl] AL]. assert (i <> c) by (intros E; unfold i in E; eapply H1; rewrite E; exact Hcl). assert (U : islive (futs y) i = true) by (unfold islive, i; now rewrite H2).
    destruct (AL i U H) as [f [fu [W1 _]]]. unfold i in W1. rewrite (waitof_task _ _ _ _ _ _ _ H2) in W1. discriminate.
  - assert (HW : @wrap mem BProg) by now left. assert (R00 : steps (init test m) s0) by exact (steps_trans _ _ _ _ _ _ R0 A).
    unfold background in C. destruct (reg_all_track shuffle dut delayers d _ Raise BProg l s0 y i [] HW C B) as [[s2 [es [X1 [X2 [X3 [[X4 [X5 _]] X6]]]]]]|[[s2 [l1 [h [l2 [es [_ [_ [_ [X1 [X2 [X3 _]]]]]]]]]]]|[q [X1 X2]]]].
    + cbn [app] in X3. destruct (events_over BProg s0 s2 y i _ _ _ _ c HW R00 X1 X4 X3 X2 D0) as [[s3 [vs [Y1 [Y2 [Y3 Y4]]]]]|[[s3 [e [Y1 [Y2 Y3]]]]|Y]]; auto.
      * left. exists s0, s3, es. split; auto. split; [eapply steps_trans; eauto|]. split; auto.
      * right; left. exists s3, e. split; [eapply steps_trans; [exact A|eapply steps_trans; eauto]|]. split; auto.
    + right; left. exists s2, AssertionError. split; [eapply steps_trans; eauto|]. auto.
    + exfalso. destruct (done_quiet y c Ry D0) as [[cl Hcl] _]. rewrite Hcl in X1. discriminate.
  - right; left. exists s0, e. split; auto.
Qed.
(** The same for the dut-first hooks: in the cycle in which the method has returned they are all called, and the comparison of the results is reached. *)
Theorem C74_dut_first l v s fire s' : steps (init test m) s -> current_op s = Some (OCreate (background d compare l v)) -> steps (step fire s) s' -> nstep s < nstep s' -> ~ test_over s ->
  let i := List.length (futs s) in
  (exists s0 s1 es, steps s s0 /\ steps s0 s1 /\ steps s1 s' /\ nstep s1 = nstep s /\ runs s1 i (conclude_call d compare v) /\ NoDup es /\ Forall2 (hook_ran s0 s1 i (priority (d_prio d (mm s0)))) l es) \/
  (exists s1 e, steps s s1 /\ steps s1 s' /\ nstep s1 = nstep s /\ runs s1 i (Raise e)) \/
  (~ nocancel test /\ exists y, steps s y /\ steps y s' /\ nstep y = nstep s /\ cancelling y).
Proof.
  intros R0 Ho R' L N i. destruct (made_same fire s _ Ho) as [NS TS]. assert (R1 : steps (init test m) (step fire s)) by (apply steps_step; exact R0). assert (N1 : ~ test_over (step fire s)) by (unfold test_over; rewrite TS; exact N).
  destruct (cycle_between (step fire s) s' R1 R' ltac:(lia) N1) as [y [c [A0 [B0 [C0 [D0 NX]]]]]]. rewrite NS in C0. assert (Rsy : steps s y) by (eapply steps_cons; exact A0).
  destruct (bg_over l v s fire y c R0 Ho A0 D0) as [[s0 [s1 [es [X1 [X2 [X3 [X4 X]]]]]]]|[[s1 [e [X1 [X2 X]]]]|X]].
  - left. exists s0, s1, es. split; auto. split; auto. split; [eapply steps_trans; eauto|]. split; [eapply same_cycle; [eapply steps_trans; eauto| |]; eauto|]. split; [left; exact X4|exact X].
  - right; left. exists s1, e. split; auto. split; [eapply steps_trans; eauto|]. split; [eapply same_cycle; eauto|left; exact X].
  - right; right. split; [intros X1; exact (noncancelling _ (NX X1) X)|eauto].
Qed.
End Call.
End Thms.
Print Assumptions C74_before_step.
Print Assumptions C74_model_first.
Print Assumptions C74_dut_first.
(** * Tests made of driver calls meet the hypotheses *)
Section Class.
Context {mem : Type} (Q : @prog mem -> Prop) (g : res lval -> Prop).
Definition call_op (o : @op mem (@prog mem)) : Prop := match o with OMem f => forall m, g (snd (f m)) | OPrio p _ dn => dn = true /\ exists h, p = wrapper h | OCreate _ | OAwait _ | OEvWait _ | OFlag _ | OQPut _ _ | OQSize _ => True | _ => False end.
Context (QOp : forall o k, call_op o -> (forall p, part o p -> Q p) -> (forall r, g r -> Q (k r)) -> Q (Op o k)) (QRet : forall v, Q (Ret v)) (QRaise : forall e, g (Exn e) -> Q (Raise e)) (gOk : forall v, g (Ok v)) (gTE : g (Exn TypeError)) (gAE : g (Exn AssertionError)).
Context (d : @drv mem) (compare : lval -> mem -> mem * res lval) (HC : forall v m, g (snd (compare v m))).
Definition sound (h : @hook mem) : Prop := forall m, g (snd (h_call h m)).
Lemma q_let o k : call_op o -> (forall p, part o p -> Q p) -> (forall v, Q (k v)) -> Q (Let o k).
Proof. intros A B C. apply QOp; auto. intros [v|e] G; cbn; auto. Qed.
Lemma q_wrapper h : sound h -> Q (wrapper h).
Proof. intros H. apply QOp; [exact H|intros p X; inversion X|]. intros [v|e] G; auto. Qed.
Lemma q_event_wait e : Q (event_wait e).
Proof. repeat (apply q_let; [exact Logic.I|intros p X; inversion X|intros]). apply QRet. Qed.
Lemma q_gather l k : (forall r, g r -> Q (k r)) -> Q (gather (map event_wait l) k).
Proof.
  intros HK. unfold gather. assert (AW : forall is vs, Q (await_all is vs k)).
  { induction is as [|i is IH]; intros vs; cbn [await_all]; auto. apply QOp; [exact Logic.I|intros p X; inversion X|]. intros [v|e] G; auto. }
  generalize (@nil id) as ids. induction l as [|e l IH]; intros ids; cbn [map create_all]; auto. apply QOp; [exact Logic.I|intros p X; inversion X; apply q_event_wait|]. intros [[]|x] G; auto.
Qed.
Lemma q_reg h k kx : sound h -> (forall e, Q (k e)) -> (forall e, g (Exn e) -> Q (kx e)) -> Q (reg d h k kx).
Proof.
  intros S A B. unfold reg. destruct (h_coro h); [auto|]. apply QOp; [intros m; apply gOk|intros p X; inversion X|]. intros [[]|x] G; auto. apply QOp; [split; eauto|intros p X; inversion X; subst; now apply q_wrapper|]. intros [[]|x] G'; auto.
Qed.
Lemma q_reg_all l : forall es k kx, (forall h, In h l -> sound h) -> (forall es, Q (k es)) -> (forall e, g (Exn e) -> Q (kx e)) -> Q (reg_all d l es k kx).
Proof. induction l as [|h l IH]; intros es k kx S A B; cbn [reg_all]; auto. apply q_reg; auto; [apply S; now left|]. intros e. apply IH; auto. intros h' X. apply S. now right. Qed.
Lemma q_background l v : (forall h, In h l -> sound h) -> Q (background d compare l v).
Proof.
  intros S. apply q_reg_all; auto. intros es. apply q_gather. intros [x|e] G; auto. apply QOp; [intros m; apply HC|intros p X; inversion X|]. intros [y|e] G'; auto. apply QOp; [intros m; apply gOk|intros p X; inversion X|auto].
Qed.
Definition sound_item (i : @item mem) : Prop := match i with IPut u => forall e, u_msg u = Exn e -> g (Exn e) | IDrv h | IAgt h => sound h end.
Lemma q_setup k kx l : forall es ld la, (forall i, In i l -> sound_item i) -> (forall h, In h (ld ++ la) -> sound h) -> (forall es ld la, (forall h, In h (ld ++ la) -> sound h) -> Q (k es ld la)) -> (forall e, g (Exn e) -> Q (kx e)) -> Q (setup d l es ld la k kx).
Proof.
  induction l as [|[u|h|h] l IH]; intros es ld la S H A B; cbn [setup]; auto.
  - assert (S0 := S _ (or_introl eq_refl)). cbn in S0. assert (N : Q (setup d l es ld la k kx)) by (apply IH; auto; intros i X; apply S; now right). unfold port_put. destruct (u_msg u) as [v|e]; auto.
    apply QOp; [exact Logic.I|intros p X; inversion X|]. intros [[]|x] G; auto. destruct (_ && _); auto. apply QOp; [exact Logic.I|intros p X; inversion X|]. intros [y|x] G'; auto. apply QOp; [exact Logic.I|intros p X; inversion X|auto].
  - assert (S0 := S _ (or_introl eq_refl)). cbn in S0. assert (S1 : forall i, In i l -> sound_item i) by (intros i X; apply S; now right). apply QOp; [intros m; apply gOk|intros p X; inversion X|]. intros [[|[]| | |]|x] G; auto.
    + apply q_reg; auto.
    + apply IH; auto. intros h' X. rewrite <- app_assoc in X. apply in_app_or in X as [X|[<-|X]]; auto; apply H, in_or_app; auto.
  - assert (S0 := S _ (or_introl eq_refl)). cbn in S0. assert (S1 : forall i, In i l -> sound_item i) by (intros i X; apply S; now right). apply QOp; [intros m; apply gOk|intros p X; inversion X|]. intros [[|[]| | |]|x] G; auto.
    + apply q_reg; auto.
    + apply IH; auto. intros h' X. rewrite app_assoc in X. apply in_app_or in X as [X|[<-|[]]]; auto.
Qed.
Lemma q_call mi (func : @prog mem) K : (forall i, In i (flat_map items_of mi) -> sound_item i) -> (forall k, (forall r, g r -> Q (k r)) -> Q (bindr func k)) -> (forall r, g r -> Q (K r)) -> Q (call d compare mi func K).
Proof.
  intros S F HK. apply q_setup; auto; [intros h []|]. intros es ld la H. apply q_gather. intros [v|e] G; auto. apply F. intros [w|e] G'; cbn [after_body]; auto. apply QOp; [exact Logic.I|intros p X; inversion X; subst; now apply q_background|]. intros [y|e] G''; auto.
Qed.
End Class.

Lemma instant_wrapper {mem} (h : @hook mem) : instant (wrapper h).
Proof. apply in_op; [exact Logic.I|]. intros [v|e]; constructor. Qed.
Lemma t_call_class : tame t_call /\ plain_hooks t_call /\ nocancel t_call.
Proof.
  assert (SND : forall g : res lval -> Prop, (forall v, g (Ok v)) -> forall i : @item world, In i (flat_map items_of models) -> sound_item g i).
  { intros g G i H. repeat (destruct H as [<-|H]; [intros m; apply G || (intros X; discriminate X)|]). destruct H. }
  assert (AL : forall P : @op world (@prog world) -> Prop, (forall o, match o with OPrio p _ dn => dn = true /\ exists h, p = wrapper h | _ => True end -> P o) -> allp P t_call).
  { intros P HP. assert (OP : forall o k, match o with OPrio p _ dn => dn = true /\ exists h, p = wrapper h | _ => True end -> (forall p, part o p -> allp P p) -> (forall r, allp P (k r)) -> allp P (Op o k)) by (intros o k A B C; apply all_op; auto).
    unfold t_call. do 2 (apply OP; [exact Logic.I|intros p X; inversion X|intros _]). apply q_call with (g := fun _ => True); auto.
    - intros o k A B C. apply OP; auto. destruct o; auto.
    - intros v. apply all_ret.
    - intros e _. apply all_raise.
    - intros k HK. unfold method. apply allp_bindr; auto. apply allp_bindr; [|intros r; apply OP; [exact Logic.I|intros p X; inversion X|intros _; apply all_ret]].
      cbn [clock_cycles]. unfold Let. apply OP; [exact Logic.I|intros p X; inversion X|intros [v|e]; cbn [thenv]; [|apply all_raise]]. apply OP; [exact Logic.I|intros p X; inversion X|intros [w|e]; cbn [thenv]; [apply all_ret|apply all_raise]].
    - intros r _. unfold finally. repeat (apply OP; [exact Logic.I|intros p X; inversion X|intros _]). apply all_ret. }
  split; [apply AL; intros []; auto; intros [-> _]; exact Logic.I|]. split; [apply AL; intros []; auto; intros [_ [h0 ->]]; apply instant_wrapper|].
  unfold t_call. do 2 (apply nc_op; [exact Logic.I|intros p X; inversion X|intros _ _]). apply q_call with (g := fun r => r <> Exn CancelledError); try (intros; discriminate); auto.
  - intros o k A B C. apply nc_op; auto. destruct o; auto.
  - intros v. apply nc_ret.
  - intros e E. apply nc_raise. congruence.
  - apply SND. discriminate.
  - intros k HK. unfold method. apply nocancel_bindr; auto. apply nocancel_bindr; [apply nocancel_cycles|]. intros r _. apply nc_op; [discriminate|intros p X; inversion X|intros _ _; apply nc_ret].
  - intros r _. unfold finally. repeat (apply nc_op; [exact Logic.I|intros p X; inversion X|intros _ _]). apply nc_ret.
Qed.

Lemma at_later n k : steps ids keepw keepw (at_ n) (at_ (n + k)).
Proof. assert (E : at_ (n + k) = run ids keepw keepw k (at_ n)). { unfold at_. generalize (init t_call world0). induction n as [|n IH]; intros s; [reflexivity|]. cbn [Nat.add run]. apply IH. } rewrite E. apply run_steps. Qed.
Lemma perm_ids : forall l : list id, Permutation l (ids l).
Proof. intros l. apply Permutation_refl. Qed.
(** The call of the fifth step is looked at one cycle later: its method has been started in its own cycle, with the hooks 4 and 1 called. *)
Example C74_nonvacuous : runs (at_ 5) 0 (call the_drv no_compare models method finally) /\ nstep (at_ 5) = 0 /\ nstep (at_ 66) = 1 /\ ~ test_over (at_ 5) /\
  first_hooks (d_order the_drv (mm (at_ 5))) models = [hk true 30 1; hk true 10 4] /\ runs (at_ 53) 0 (bindr method (after_body the_drv no_compare [hk false 40 3; hk false 20 2] finally)) /\ nstep (at_ 53) = 0 /\ w_log (mm (at_ 53)) = [4; 1].
Proof. split; [right; vm_compute; reflexivity|]. do 2 (split; [vm_compute; reflexivity|]). split; [vm_compute; discriminate|]. split; [vm_compute; reflexivity|]. split; [right; vm_compute; reflexivity|]. split; vm_compute; reflexivity. Qed.
(** The hooks 2 and 3 of the 74th step, and the comparison, in the cycle in which the method has returned. *)
Example C74_nonvacuous_dut_first : current_op (at_ 74) = Some (OCreate (background the_drv no_compare [hk false 40 3; hk false 20 2] (VInt 9))) /\ nstep (at_ 74) = 2 /\ nstep (at_ 135) = 3 /\ ~ test_over (at_ 74) /\
  runs (at_ 121) 8 (conclude_call the_drv no_compare (VInt 9)) /\ nstep (at_ 121) = 2 /\ w_log (mm (at_ 121)) = [4; 1; 7; 2; 3].
Proof. do 3 (split; [vm_compute; reflexivity|]). split; [vm_compute; discriminate|]. split; [left; vm_compute; reflexivity|]. split; vm_compute; reflexivity. Qed.
(** Both theorems applied to this execution. *)
Example C74_applied : (exists s1 es, nstep s1 = 0 /\ runs s1 0 (bindr method (after_body the_drv no_compare [hk false 40 3; hk false 20 2] finally)) /\ Forall2 (hook_ran ids keepw keepw (at_ 5) s1 0 (priority None)) [hk true 30 1; hk true 10 4] es) \/
  (exists s1 e, nstep s1 = 0 /\ runs s1 0 (finally (Exn e))).
Proof.
  destruct C74_nonvacuous as [A [B [C [D [E _]]]]]. destruct t_call_class as [T [P N]]. assert (R0 : steps ids keepw keepw (init t_call world0) (at_ 5)) by apply run_steps. pose proof (at_later 5 61) as R. change (5 + 61) with 66 in R.
  assert (L : nstep (at_ 5) < nstep (at_ 66)) by (rewrite B, C; auto).
  assert (F : later_hooks (d_order the_drv (mm (at_ 5))) models = [hk false 40 3; hk false 20 2]) by (vm_compute; reflexivity). assert (G : d_prio the_drv (mm (at_ 5)) = None) by (vm_compute; reflexivity).
  destruct (C74_model_first ids keepw keepw the_drv no_compare t_call world0 T P perm_ids models method finally (at_ 5) (at_ 66) 0 R0 A R L D) as [[s1 [es [X1 [X2 [X3 [X4 [X5 X6]]]]]]]|[[s1 [e [X1 [X2 [X3 X4]]]]]|[X _]]].
  - left. rewrite F in X4. rewrite E, G in X6. exists s1, es. rewrite X3, B. auto.
  - right. exists s1, e. rewrite X3, B. auto.
  - exfalso. exact (X N).
Qed.
