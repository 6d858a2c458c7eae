(** The loop after the end of the main coroutine, however it ended. *)
From Coq Require Import List Bool Arith ZArith Lia.
From Verif Require Import Py Prio_Model Loop_Model Loop_Spec Loop_Proofs Loop2_Proofs Loop3_Proofs Loop4_Proofs Loop5_Proofs Loop6_Proofs Loop7_Proofs Loop8_Proofs Loop9_Proofs Loop10_Proofs Loop2_Spec Loop3_Spec Loop13_Proofs Loop16_Proofs Loop17_Proofs Loop20_Proofs Loop21_Proofs Loop22_Proofs Loop23_Proofs Fail_Spec.
Import ListNotations.
Open Scope nat_scope.

Section Fail.
Context {mem : Type}.
Notation prog := (@prog mem). Notation state := (@state mem). Notation body := (@body mem).
Implicit Types (s : state).
Context (shuffle : list id -> list id) (dut delayers : mem -> mem).
Notation step := (step shuffle dut delayers). Notation steps := (steps shuffle dut delayers).

(** * At most two more steps *)
Inductive after2 (n1 : nat) s : Prop :=
| a2_none : nstep s = n1 -> after2 n1 s
| a2_one c : nstep s = S n1 -> clock s = Some c -> R1 c s -> (forall b, cur s = Some (c, b) -> b = BClk CRound) -> after2 n1 s
| a2_turn c : nstep s = S n1 -> clock s = Some c -> R0 c s -> after2 n1 s
| a2_last c : nstep s = S (S n1) -> clock s = Some c -> R0 c s -> (forall b, cur s = Some (c, b) -> b = BClk CRound) -> after2 n1 s.
Lemma stepping s : (exists c l, cur s = Some (c, BClk (CStep l))) \/ forall fire, nstep (step fire s) = nstep s.
Proof. destruct (cur s) as [[t [| |[]| | | |]]|] eqn:Hc; try (left; eauto; fail); right; intros fire; rewrite nstep_step, Hc; reflexivity. Qed.
Lemma clk_cur s c t l : Clk1 s -> clock s = Some c -> cur s = Some (t, BClk l) -> t = c.
Proof. intros C CS Hc. assert (clock s = Some t) by (eapply clock_of; eauto). congruence. Qed.
(** In [R0] the clock task is not resumed any more. *)
Lemma r0_cur fire c s b : Wf s -> R0 c s -> cur (step fire s) = Some (c, b) -> exists b0, cur s = Some (c, b0) /\ nextb s c b0 b.
Proof.
  intros W [_ NC] Q. destruct (step_cur shuffle dut delayers fire s c b W Q) as [X|[Hc [h [r0 [n [st [cbs0 [k0 [w0 [m0 [Hr [Hb [Ho _]]]]]]]]]]]]]; auto.
  exfalso. apply (NC h); auto. unfold now_. rewrite Hb, Hr. now left.
Qed.
Lemma after2_step test fire n1 s : Base test s -> done0 s -> after2 n1 s -> after2 n1 (step fire s).
Proof.
  intros BA D AF. pose proof (base_step shuffle dut delayers test fire s BA) as BA'. destruct BA as [A B ST O]. destruct BA' as [A' B' ST' O']. pose proof A as [EV C]. pose proof (v_wf _ EV) as W. pose proof (v_wf _ (proj1 A')) as W'. destruct AF as [N|c N CS HR HC|c N CS HR|c N CS HR HC].
  - destruct (stepping s) as [[t [l Hc]]|X]; [|apply a2_none; now rewrite X].
    assert (CS : clock s = Some t) by (eapply clock_of; eauto). pose proof (clock_step shuffle dut delayers fire s t CS) as CS'. assert (Hc' : cur (step fire s) = Some (t, BClk CRound)) by (unfold Loop_Model.step; rewrite Hc; reflexivity).
    apply (a2_one _ _ t); auto; [rewrite nstep_step, Hc; congruence| |intros b0 Y; congruence].
    pose proof (noc_cur _ _ _ W' Hc') as NC. destruct ST' as [fu [E [T P]]]. destruct (done0_step shuffle dut delayers fire s W D) as [fu' [E' P']]. cbn [coreof snd fst] in *. rewrite E in E'. injection E' as <-. rewrite P' in P. unfold R1.
    destruct P as [P|P]; auto. right. rewrite <- (firstn_skipn (batch (step fire s)) (ready (step fire s))) in P. apply in_app_or in P as [P|P]; auto. right. split; auto. intros h Hh. apply NC. eapply firstn_incl; eauto.
  - assert (NS : nstep (step fire s) = nstep s) by (destruct (stepping s) as [[t [l Hc]]|X]; auto; assert (t = c) by (eapply clk_cur; eauto); subst t; apply HC in Hc; discriminate).
    pose proof (clock_step shuffle dut delayers fire s c CS) as CS'. pose proof (r1_step shuffle dut delayers fire c s W B HR) as HR'.
    assert (Q : (forall b, cur (step fire s) <> Some (c, b)) \/ exists b, cur (step fire s) = Some (c, b)).
    { destruct (cur (step fire s)) as [[t b]|]; [|left; discriminate]. destruct (Nat.eqb_spec t c) as [->|Z]; [right; eauto|left; congruence]. }
    destruct Q as [Q|[b Q]]; [apply (a2_one _ _ c); auto; [congruence|intros b X; now elim (Q b)]|].
    destruct (step_cur shuffle dut delayers fire s c b W Q) as [[b0 [Hc Hn]]|[Hc [h [r0 [n [st [cbs0 [k0 [w0 [m0 [Hr [Hb [Ho _]]]]]]]]]]]]].
    + pose proof (HC _ Hc) as X. subst b0. contradiction.
    + apply (a2_turn _ _ c); auto; [congruence|]. split; [|intros x Hx; apply (noc_cur _ _ _ W' Q); eapply firstn_incl; eauto].
      destruct (queue_step shuffle dut delayers fire s W B) as [[t [b1 [L [X _]]]]|[[_ [_ [X _]]]|[[L [_ [_ [X _]]]]|[h0 [L [_ [X [_ E3]]]]]]]]; [congruence| | |].
      * unfold now_ in X. rewrite Hb, Hr in X. discriminate.
      * unfold now_ in X. rewrite Hb, Hr in X. discriminate.
      * assert (h0 = h) by (unfold now_ in X at 1; rewrite Hb, Hr in X; injection X as <- _; reflexivity). subst h0. rewrite E3. assert (Hh : match h with HStop => true | _ => stopping s end = stopping s) by (destruct h; try reflexivity; discriminate). rewrite Hh.
        destruct HR as [H|[H|[H1 H2]]]; auto; [rewrite X in H; destruct H as [->|H]; [discriminate|auto]|]. exfalso. apply (H2 h); [rewrite X; now left|exact Ho].
  - pose proof (clock_step shuffle dut delayers fire s c CS) as CS'. pose proof (r0_step shuffle dut delayers fire c s W B HR) as HR'. destruct (stepping s) as [[t [l Hc]]|X]; [|apply (a2_turn _ _ c); auto; now rewrite X].
    assert (t = c) by (eapply clk_cur; eauto). subst t. assert (Hc' : cur (step fire s) = Some (c, BClk CRound)) by (unfold Loop_Model.step; rewrite Hc; reflexivity). apply (a2_last _ _ c); auto; [rewrite nstep_step, Hc; congruence|intros b0 Y; congruence].
  - pose proof (clock_step shuffle dut delayers fire s c CS) as CS'. pose proof (r0_step shuffle dut delayers fire c s W B HR) as HR'.
    assert (NS : nstep (step fire s) = nstep s) by (destruct (stepping s) as [[t [l Hc]]|X]; auto; assert (t = c) by (eapply clk_cur; eauto); subst t; apply HC in Hc; discriminate).
    apply (a2_last _ _ c); auto; [congruence|]. intros b Q. destruct (r0_cur fire c s b W HR Q) as [b0 [Hc Hn]]. pose proof (HC _ Hc) as X. subst b0. contradiction.
Qed.
Lemma main_done test m s s' : steps (init test m) s -> done0 s -> steps s s' -> nstep s' <= S (S (nstep s)).
Proof.
  intros R D R2. assert (X : Base test s' /\ done0 s' /\ after2 (nstep s) s').
  { apply (steps_ind_inv shuffle dut delayers (fun x => Base test x /\ done0 x /\ after2 (nstep s) x) s s'); auto.
    - intros fire x [H1 [H2 H3]]. split; [now apply base_step|]. split; [apply done0_step; auto; apply (v_wf _ (proj1 (ba_all _ _ H1)))|eapply after2_step; eauto].
    - split; [eapply reach_base; eauto|]. split; auto. now apply a2_none. }
  destruct X as [_ [_ [N|c N _ _ _|c N _ _|c N _ _ _]]]; lia.
Qed.

(** * The loop stops *)
Section Ends.
Context (test : prog) (m : mem) (sg : nat -> state).
Context (R0 : steps (init test m) (sg 0)) (EX : forall n, exists fire, sg (S n) = step fire (sg n)) (YI : yields sg).
Lemma reach_n n : Base test (sg n).
Proof. induction n as [|n IH]; [eapply reach_base; eauto|]. destruct (EX n) as [fire ->]. now apply base_step. Qed.
Lemma wf_n n : Wf (sg n). Proof. exact (v_wf _ (proj1 (ba_all _ _ (reach_n n)))). Qed.
(** Until the running task is suspended, the current iteration of the loop stays the same. *)
Lemma settle_down d : forall n, cur (sg (n + d)) = None -> exists j, n <= j /\ cur (sg j) = None /\ now_ (sg j) = now_ (sg n) /\ stopping (sg j) = stopping (sg n) /\ (In HStop (later (sg n)) -> In HStop (later (sg j))).
Proof.
  induction d as [|d IH]; intros n Hc; destruct (cur (sg n)) as [[t b]|] eqn:E; try (exists n; auto; fail).
  - rewrite Nat.add_0_r in Hc. congruence.
  - destruct (EX n) as [fire Es]. destruct (queue_step shuffle dut delayers fire (sg n) (wf_n n) (ba_bt _ _ (reach_n n))) as [[t' [b' [L [_ [E1 [E2 E3]]]]]]|[[X _]|[[L [X _]]|[h [L [X _]]]]]]; try congruence. rewrite <- Es in *.
    replace (n + S d) with (S n + d) in Hc by lia. destruct (IH (S n) Hc) as [j [J1 [J2 [J3 [J4 J5]]]]]. exists j. split; [lia|]. split; auto. split; [congruence|]. split; [congruence|]. intros H. apply J5. rewrite E2. apply in_or_app. auto.
Qed.
Lemma drained k : forall n, List.length (now_ (sg n)) = k -> exists j, n <= j /\ cur (sg j) = None /\ now_ (sg j) = [] /\ (stopping (sg n) = true \/ In HStop (now_ (sg n)) -> stopping (sg j) = true) /\ (In HStop (later (sg n)) -> In HStop (later (sg j))).
Proof.
  induction k as [|k IH]; intros n Hk; destruct (YI n) as [x [Lx Cx]]; replace x with (n + (x - n)) in Cx by lia; destruct (settle_down _ n Cx) as [j [J1 [J2 [J3 [J4 J5]]]]].
  - destruct (now_ (sg n)) eqn:E; [|discriminate]. exists j. split; auto. split; auto. split; auto. split; auto. intros [H|[]]. congruence.
  - destruct (EX j) as [fire Es]. destruct (queue_step shuffle dut delayers fire (sg j) (wf_n j) (ba_bt _ _ (reach_n j))) as [[t' [b' [L [X _]]]]|[[_ [_ [X _]]]|[[L [_ [_ [X _]]]]|[h [L [_ [E1 [E2 E3]]]]]]]]; try congruence; try (rewrite J3 in X; rewrite X in Hk; discriminate).
    rewrite <- Es in *. rewrite J3 in E1. rewrite E1 in Hk. injection Hk as Hk. destruct (IH (S j) Hk) as [i [I1 [I2 [I3 [I4 I5]]]]]. exists i. split; [lia|]. split; auto. split; auto. split.
    + intros H. apply I4. rewrite E1 in H. rewrite E3. destruct H as [H|[->|H]]; auto. left. destruct h; congruence.
    + intros H. apply I5. rewrite E2. apply in_or_app. auto.
Qed.
Lemma loop_stops : done0 (sg 0) -> exists n, stopped (sg n).
Proof.
  intros D. pose proof (reach_n 0) as BA. destruct (ba_stp _ _ BA) as [fu [E [T P]]]. destruct D as [fu' [E' P']]. cbn [coreof fst snd] in *. rewrite E in E'. injection E' as <-. rewrite P' in P.
  assert (STOP : forall n, cur (sg n) = None -> now_ (sg n) = [] -> stopping (sg n) = true -> stopped (sg n)).
  { intros n A B C. split; auto. split; auto. pose proof (ba_bt _ _ (reach_n n)) as X. unfold Bt in X. unfold now_ in B. destruct (batch (sg n)) as [|x]; auto. destruct (ready (sg n)); [simpl in X; lia|discriminate]. }
  destruct (drained _ 0 eq_refl) as [j [J1 [J2 [J3 [J4 J5]]]]]. rewrite <- (firstn_skipn (batch (sg 0)) (ready (sg 0))) in P. destruct P as [P|P]; [exists j; apply STOP; auto|]. apply in_app_or in P as [P|P]; [exists j; apply STOP; auto|]. specialize (J5 P).
  destruct (EX j) as [fire Es]. destruct (queue_step shuffle dut delayers fire (sg j) (wf_n j) (ba_bt _ _ (reach_n j))) as [[t' [b' [L [X _]]]]|[[_ [X _]]|[[L [_ [_ [_ [E1 E3]]]]]|[h [L [_ [E1 _]]]]]]]; [congruence|exists j; now apply STOP| |congruence].
  rewrite <- Es in *. destruct (drained _ (S j) eq_refl) as [i [I1 [I2 [I3 [I4 _]]]]]. exists i. apply STOP; auto. apply I4. right. rewrite E1. apply in_or_app. auto.
Qed.
End Ends.

(** * The outcome of the main task *)
Lemma failed_done e fire s : Wf s -> test_failed s e -> failed (step fire s) 0 e.
Proof.
  intros W Hc. destruct (cur_task s 0 _ W Hc) as [cbs [k [w [mu Et]]]]. unfold Loop_Model.step. rewrite Hc. cbn [exec_body]. unfold failed, finish, conclude. rewrite Et.
  unfold state_of, fget, mkt. cbn [futs set_cur push set_ready fput set_futs f_kind f_cbs f_st pending]. unfold fget in Et. rewrite (put_nth_get _ _ _ _ 0 Et). cbn. destruct e; auto.
Qed.
Lemma failed_stays e s s' : Wf s -> failed s 0 e -> steps s s' -> failed s' 0 e.
Proof.
  intros W F R. assert (X : Wf s' /\ failed s' 0 e); [|apply X]. apply (steps_ind_inv shuffle dut delayers (fun x => Wf x /\ failed x 0 e) s s'); auto. intros fire x [W1 F1]. split; [now apply step_wf|].
  unfold failed, state_of, fget in *. destruct (nth_error (futs x) 0) as [fu|] eqn:E; [|destruct F1 as [F1|[F1 _]]; discriminate]. destruct (step_fext shuffle dut delayers fire x W1 0 fu E) as [fu' [E' [_ Y]]].
  rewrite E'. cbn in *. assert (P : pending fu = false) by (unfold pending; destruct (f_st fu); auto; destruct F1 as [F1|[F1 _]]; discriminate). rewrite (Y P). exact F1.
Qed.
Lemma failed_done0 e s : failed s 0 e -> done0 s.
Proof. unfold failed, state_of, fget, done0. destruct (nth_error (futs s) 0) as [fu|]; cbn; [|intros [H|[H _]]; discriminate]. intros H. exists fu. split; auto. unfold pending. destruct (f_st fu); auto. destruct H as [H|[H _]]; discriminate. Qed.
End Fail.
