(** Progress: infinite executions in which only the clock task runs from some point on. *)
From Coq Require Import List Bool Arith ZArith Lia Permutation.
From Verif Require Import Py Prio_Model Loop_Model Loop_Spec Loop_Proofs Loop2_Proofs Loop3_Proofs Loop4_Proofs Loop5_Proofs Loop6_Proofs Loop7_Proofs Loop8_Proofs Loop9_Proofs Loop10_Proofs Loop2_Spec Loop13_Proofs Loop16_Proofs Loop17_Proofs Loop20_Proofs Loop21_Proofs Loop22_Proofs Loop23_Proofs Live_Spec Live_Proofs.
Import ListNotations.
Open Scope nat_scope.

Section Live.
Context {mem : Type}.
Notation prog := (@prog mem). Notation state := (@state mem). Notation body := (@body mem). Notation task := (@task mem).
Notation fut := (@fut mem). Notation kind := (@kind mem).
Implicit Types (s : state) (F : list fut).
Context (shuffle : list id -> list id) (dut delayers : mem -> mem).
Notation step := (step shuffle dut delayers). Notation steps := (steps shuffle dut delayers).

(** * Counting *)
Lemma cntf_pos t F : 1 <= cntf t F -> exists f fu, nth_error F f = Some fu /\ In (CbWake t) (f_cbs fu).
Proof.
  unfold cntf. induction F as [|x F IH]; cbn [map list_sum fold_right]; intros H; [cbn in H; lia|].
  destruct (cntb t (f_cbs x)) eqn:E.
  - destruct IH as [f [fu [A B]]]; [unfold list_sum in *; cbn in H; lia|]. exists (S f), fu. auto.
  - exists 0, x. split; auto. unfold cntb in E. destruct (filter (wakes t) (f_cbs x)) as [|y l] eqn:Ef; [discriminate|].
    assert (X : In y (filter (wakes t) (f_cbs x))) by (rewrite Ef; now left). apply filter_In in X as [X1 X2]. destruct y; simpl in X2; try discriminate. apply Nat.eqb_eq in X2. now subst.
Qed.
Lemma cnth_pos t (r : list handle) : 1 <= cnth t r -> exists h, In h r /\ owner h = Some t.
Proof.
  unfold cnth. intros H. destruct (filter (owns t) r) as [|h l] eqn:E; [cbn in H; lia|]. exists h. assert (X : In h (filter (owns t) r)) by (rewrite E; now left).
  apply filter_In in X as [X1 X2]. split; auto. unfold owns in X2. destruct (owner h); [|discriminate]. apply Nat.eqb_eq in X2. now subst.
Qed.
(** A suspended task that waits for no future is in the ready queue. *)
Lemma susp_handle s t k : Wf s -> Susp t k None s -> exists h, In h (ready s) /\ owner h = Some t.
Proof.
  intros [I K] [Hc [cbs [m E]]]. apply cnth_pos. pose proof (i_cnt _ I t) as X. cbn [coreof fst snd] in X. unfold islive in X. rewrite E in X. cbn in X.
  assert (X1 : cntc t (cur s) = 0) by (unfold cntc; destruct (cur s) as [[t' b]|]; auto; destruct (Nat.eqb_spec t' t); auto; subst; now elim (Hc b)).
  assert (X2 : cntf t (futs s) = 0).
  { destruct (cntf t (futs s)) eqn:Y; auto. destruct (cntf_pos t (futs s)) as [f [fu [A B]]]; [lia|]. pose proof (i_cb _ I t f fu A B) as Z. cbn [coreof snd] in Z. rewrite (waitof_task _ _ _ _ _ _ _ E) in Z. discriminate. }
  lia.
Qed.
(** A live task that is neither running nor in the ready queue waits for a pending future. *)
Lemma waits s t : Wf s -> unfinished s t -> (forall b, cur s <> Some (t, b)) -> (forall h, In h (ready s) -> owner h <> Some t) ->
  exists f fu, waitof (futs s) t = Some (Some f) /\ nth_error (futs s) f = Some fu /\ pending fu = true /\ In (CbWake t) (f_cbs fu).
Proof.
  intros [I K] L Hc Hr. apply live_iff in L. pose proof (i_cnt _ I t) as X. cbn [coreof fst snd] in X. rewrite L in X.
  assert (X1 : cntc t (cur s) = 0) by (unfold cntc; destruct (cur s) as [[t' b]|]; auto; destruct (Nat.eqb_spec t' t); auto; subst; now elim (Hc b)).
  assert (X2 : cnth t (ready s) = 0) by (destruct (cnth t (ready s)) eqn:Y; auto; destruct (cnth_pos t (ready s)) as [h [A B]]; [lia|]; now elim (Hr h A)).
  destruct (cntf_pos t (futs s)) as [f [fu [A B]]]; [lia|]. exists f, fu. pose proof (i_cb _ I t f fu A B) as Z. split; [exact Z|]. split; auto. split; auto.
  destruct (pending fu) eqn:P; auto. pose proof (i_cbs _ I f fu A P) as C. rewrite C in B. contradiction.
Qed.
Lemma fires_cur fire : forall s, cur (fold_left fire1 fire s) = cur s.
Proof. induction fire as [|f l IH]; intros s; cbn [fold_left]; auto. rewrite IH. unfold fire1. destruct (fget s f) as [[st cbs []]|]; reflexivity. Qed.
(** The handle at the front is popped. *)
Lemma popped fire s h r n t : Wf s -> cur s = None -> batch s = S n -> ready s = h :: r -> owner h = Some t -> exists b, cur (step fire s) = Some (t, b).
Proof.
  intros [I K] Hc Hb Hr Ho. destruct (handle_live _ I h t ltac:(cbn; rewrite Hr; now left) Ho) as [cbs [k [w [m E]]]]. cbn [coreof snd] in E.
  assert (Z : forall r0, exists b, cur (resume (set_batch (set_ready s r) n) t r0) = Some (t, b)) by (intros r0; unfold resume, tget, fget; cbn [futs set_batch set_ready]; rewrite E; cbn [mkt k_must k_cont]; eexists; reflexivity).
  unfold Loop_Model.step. rewrite Hc, Hb, Hr. destruct h; simpl in Ho; try discriminate; injection Ho as ->; cbn [run_handle]; apply Z.
Qed.

(** Each step takes at most one token of a gather future away. *)
Definition pops s (h : handle) : Prop := cur s = None /\ (exists n, batch s = S n) /\ exists r, ready s = h :: r.
Lemma tok_step fire s g : Wf s -> g < List.length (futs s) -> tok g (coreof (step fire s)) <= tok g (coreof s) /\ (pops s (HCount g) -> tok g (coreof (step fire s)) < tok g (coreof s)).
Proof.
  intros W Hg. destruct (cur s) as [[t b]|] eqn:Hc; [assert (N : g <> List.length (futs s)) by lia; destruct (exec_keep shuffle dut delayers fire s t b g W Hc (or_introl N)) as [X _]; split; [lia|intros [Y _]; congruence]|].
  unfold Loop_Model.step. rewrite Hc. destruct (batch s) as [|n] eqn:Hb.
  - split; [|intros [_ [[n X] _]]; congruence]. destruct (stopping s); auto. match goal with |- ?x <= _ => change x with (tok g (coreof (fold_left fire1 fire s))) end. now rewrite fires_tok.
  - destruct (ready s) as [|h r] eqn:Hr; [split; [auto|intros [_ [_ [r X]]]; congruence]|]. set (s0 := set_batch (set_ready s r) n). pose proof (pop_tok g s h r n Hr) as PT. fold s0 in PT.
    assert (Z : tok g (coreof (run_handle s0 h)) = tok g (coreof s0)).
    { clear. clearbody s0. destruct h as [x|x e|x f|g0| |f]; cbn [run_handle]; try apply (proj1 (resume_keep g s0 _ _)); [|reflexivity|apply settle_tok].
      destruct (fget s0 g0) as [[st cbs []]|] eqn:Eg; auto. destruct need as [|n']; auto. set (s1 := fput s0 g0 (mk_fut st cbs (KGather n'))). assert (Z1 : tok g (coreof s1) = tok g (coreof s0)).
      { unfold fget in Eg. pose proof (tokF_put g (futs s0) g0 _ (mk_fut st cbs (KGather n')) Eg) as X. cbn [f_cbs] in X. unfold tok, s1. cbn [fst snd coreof fput set_futs futs ready]. lia. }
      destruct n'; [rewrite settle_tok|]; exact Z1. }
    split; [lia|]. intros [_ [_ [r' X]]]. rewrite Hr in X. injection X as -> _. cbn [hof] in PT. rewrite Nat.eqb_refl in PT. lia.
Qed.
Lemma tokF_none g F : (forall x fu, nth_error F x = Some fu -> ~ In (CbCount g) (f_cbs fu)) -> tokF g F = 0.
Proof.
  unfold tokF. induction F as [|x F IH]; intros H; auto. cbn [map list_sum fold_right]. assert (X : tokb g (f_cbs x) = 0).
  { unfold tokb. destruct (filter (cbof g) (f_cbs x)) as [|y l] eqn:E; auto. exfalso. assert (Y : In y (filter (cbof g) (f_cbs x))) by (rewrite E; now left). apply filter_In in Y as [Y1 Y2]. destruct y; simpl in Y2; try discriminate. apply Nat.eqb_eq in Y2. subst. apply (H 0 x eq_refl Y1). }
  rewrite X. apply IH. intros i fu E. apply (H (S i) fu E).
Qed.
Lemma tokh_pos g (r : list handle) : 1 <= tokh g r -> In (HCount g) r.
Proof.
  unfold tokh. intros H. destruct (filter (hof g) r) as [|h l] eqn:E; [cbn in H; lia|]. assert (Y : In h (filter (hof g) r)) by (rewrite E; now left). apply filter_In in Y as [Y1 Y2]. destruct h; simpl in Y2; try discriminate. apply Nat.eqb_eq in Y2. now subst.
Qed.

(** * Infinite executions *)
Context (test : prog) (m : mem) (sg : nat -> state) (c : id).
Context (R0 : steps (init test m) (sg 0)) (EX : forall n, exists fire, sg (S n) = step fire (sg n)).
Context (CS : clock (sg 0) = Some c) (RUN : forall n, stopping (sg n) = false).
Lemma reachn n : steps (init test m) (sg n).
Proof. induction n as [|n IH]; auto. destruct (EX n) as [fire ->]. now apply steps_step. Qed.
Lemma clkn n : clock (sg n) = Some c.
Proof. induction n as [|n IH]; auto. destruct (EX n) as [fire ->]. now apply clock_step. Qed.
Lemma alln n : All (sg n). Proof. eapply reach_all, reachn. Qed.
Lemma wfn n : Wf (sg n). Proof. apply (v_wf _ (proj1 (alln n))). Qed.
(** The clock task does not end, and the hooks never wait. *)
Context (ALIVE : forall n, unfinished (sg n) c) (HP : allp hooks_op test).
(** From [N0] on only the clock task runs. *)
Context (N0 : nat) (Q : forall n t b, N0 <= n -> cur (sg n) = Some (t, b) -> t = c).
Lemma only n t b : N0 <= n -> cur (sg n) = Some (t, b) -> t = c.
Proof. apply Q. Qed.
Lemma raised n e : cur (sg n) <> Some (c, BProg (Raise e)).
Proof.
  intros Hc. apply (raised_dead shuffle dut delayers [] _ _ _ (wfn n) Hc). destruct (EX n) as [fire E]. pose proof (ALIVE (S n)) as X. rewrite E in X. unfold Loop_Model.step in *. now rewrite Hc in *.
Qed.
Lemma hook_swift n h ev todo sb : cur (sg n) = Some (c, BHook h ev todo sb) -> swift h.
Proof. intros Hc. pose proof (g_cur _ _ _ (pr_good _ _ (reach_pro shuffle dut delayers test m _ HP (reachn n))) _ _ Hc) as [[_ X] _]. exact X. Qed.
Lemma ready_cur n t b : cur (sg n) = Some (t, b) -> exists L, ready (sg (S n)) = ready (sg n) ++ L /\ bs (sg (S n)) = bs (sg n).
Proof.
  intros Hc. destruct (EX n) as [fire ->]. destruct (step_ready shuffle dut delayers fire (sg n) (wfn n)) as [[t' [b' [L [_ [E E2]]]]]|[[X _]|[[L [X _]]|[[k [X _]]|[k [h [r [L [X _]]]]]]]]]; try congruence. eauto.
Qed.
Definition rests n : Prop := exists j L, n <= j /\ cur (sg j) = None /\ ready (sg j) = ready (sg n) ++ L /\ bs (sg j) = bs (sg n).
Lemma rests_next n b : N0 <= n -> cur (sg n) = Some (c, b) -> (forall b', cur (sg (S n)) = Some (c, b') -> nextb (sg n) c b b' -> rests (S n)) -> rests n.
Proof.
  intros Hn Hc H. destruct (ready_cur n _ _ Hc) as [L [EL EB]]. destruct (cur (sg (S n))) as [[t' b']|] eqn:Hc'; [|exists (S n), L; auto].
  assert (t' = c) by (apply (only (S n) t' b'); [lia|auto]). subst t'. destruct (EX n) as [fire E]. pose proof Hc' as Hc2. rewrite E in Hc2. destruct (step_cur shuffle dut delayers fire (sg n) c _ (wfn n) Hc2) as [[b0 [Hb X]]|[Hb _]]; [|congruence].
  assert (b0 = b) by congruence. subst b0. destruct (H b' eq_refl X) as [j [L' [A [B [C D]]]]]. exists j, (L ++ L'). rewrite C, EL, app_assoc. split; [lia|]. split; auto. split; auto. congruence.
Qed.
Ltac nxt H X := eapply rests_next; [lia|exact H|]; intros b' H' X; cbn [nextb] in X; try contradiction.
Lemma rests_round n : N0 <= n -> cur (sg n) = Some (c, BClk CRound) -> rests n.
Proof. intros Hn Hc. nxt Hc X. Qed.
Lemma rests_step n l : N0 <= n -> cur (sg n) = Some (c, BClk (CStep l)) -> rests n.
Proof. intros Hn Hc. nxt Hc X. subst. apply rests_round; [lia|auto]. Qed.
Lemma rests_tail n : N0 <= n -> cur (sg n) = Some (c, BClk CTail) -> rests n.
Proof.
  intros Hn Hc. nxt Hc X. destruct (tdone (sg n)) as [[]|]; subst; [eapply rests_next; [|exact H'|]; [lia|intros ? ? []]| |]; (eapply rests_step; [|exact H']; lia).
Qed.
Lemma rests_pass l : forall n sb, N0 <= n -> cur (sg n) = Some (c, BClk (CPass l sb)) -> rests n.
Proof.
  induction l as [|[h ev] l IH]; intros n sb Hn Hc; nxt Hc X.
  - destruct sb; subst; [apply rests_round|apply rests_tail]; auto; lia.
  - subst. assert (S0 : N0 <= S n) by lia. clear Hc Hn. revert S0 H'. generalize (S n) as i. intros i Hi Hc. pose proof (hook_swift _ _ _ _ _ Hc) as SW. revert i Hi Hc. induction SW as [v|e|o k P _ IH2]; intros i Hi Hc; nxt Hc Y.
    + subst. eapply IH; [lia|exact H'].
    + subst. now elim (raised _ _ H').
    + destruct Y as [r [_ ->]]. eapply IH2; [|exact H']. lia.
Qed.
Lemma idle n : N0 <= n -> rests n.
Proof.
  intros Hn. destruct (cur (sg n)) as [[t b]|] eqn:Hc; [|exists n, []; rewrite app_nil_r; auto]. assert (t = c) by (eapply only; eauto). subst t.
  assert (K : clkb b). { destruct (pr_pr _ _ (reach_pro shuffle dut delayers test m _ HP (reachn n)) c (clkn n)) as [[b0 [X Y]]|[[k [SU _]]|[[g SU]|X]]]; [congruence|now elim (proj1 SU b)|now elim (proj1 SU b)|now elim (X (ALIVE n))]. }
  destruct b as [[v|e|o kk]|h ev todo sb|x|e f r kk|q f [v|e] kk|tst|[v|e|o kk]]; cbn [clkb] in K; try contradiction.
  - now elim (raised _ _ Hc).
  - pose proof (hook_swift _ _ _ _ _ Hc) as SW. clear K. revert n Hn Hc. induction SW as [v|e|o k P _ IH2]; intros i Hi Hc; nxt Hc Y.
    + subst. eapply rests_pass; [|exact H']. lia.
    + subst. now elim (raised _ _ H').
    + destruct Y as [r [_ ->]]. eapply IH2; [|exact H']. lia.
  - destruct x as [| | |l sb| | | |last]; [| | |eapply rests_pass; eauto|now apply rests_tail| | |eapply rests_step; eauto]; try (nxt Hc X).
    + subst. apply rests_round; [lia|auto].
    + destruct X as [X|[_ [_ X]]]; subst; [apply rests_round|eapply rests_pass; [|eauto]]; auto; lia.
Qed.
Lemma pop n h r : N0 <= n -> ready (sg n) = h :: r -> exists j L k, n <= j /\ cur (sg j) = None /\ batch (sg j) = S k /\ ready (sg j) = h :: r ++ L.
Proof.
  intros Hn Hr. destruct (idle n Hn) as [j [L [A [B [C _]]]]]. rewrite Hr in C. cbn in C. destruct (batch (sg j)) as [|k] eqn:Hb; [|exists j, L, k; auto].
  exists (S j). destruct (EX j) as [fire E]. destruct (step_ready shuffle dut delayers fire (sg j) (wfn j)) as [[t' [b' [L' [X _]]]]|[[_ [_ [X _]]]|[[L' [X [_ [_ [X1 X2]]]]]|[[k [_ [X _]]]|[k [h' [r' [L' [_ [X _]]]]]]]]]]; try congruence.
  rewrite <- E in X1, X2. unfold bs in X2. injection X2 as X2 _. exists (L ++ L'). rewrite X1, X2, C. cbn. eexists. split; [lia|]. split; [|split; [reflexivity|now rewrite app_assoc]].
    rewrite E. unfold Loop_Model.step. rewrite X, Hb, RUN. cbv zeta. change (cur (fold_left fire1 fire (sg j)) = None). now rewrite fires_cur.
Qed.
Lemma drain0 p : forall n h, N0 <= n -> nth_error (ready (sg n)) p = Some h -> exists j r k, n <= j /\ cur (sg j) = None /\ batch (sg j) = S k /\ ready (sg j) = h :: r.
Proof.
  induction p as [|p IH]; intros n h Hn Hh; destruct (ready (sg n)) as [|h0 r] eqn:Hr; try discriminate Hh; cbn [nth_error] in Hh.
  - injection Hh as ->. destruct (pop n h r Hn Hr) as [j [L [k [A [B [C D]]]]]]. eauto 10.
  - destruct (pop n h0 r Hn Hr) as [j [L [k [A [B [C D]]]]]]. destruct (EX j) as [fire E].
    destruct (step_ready shuffle dut delayers fire (sg j) (wfn j)) as [[t' [b' [L' [X _]]]]|[[_ [X _]]|[[L' [_ [X _]]]|[[k' [_ [_ [X _]]]]|[k' [h' [r' [L' [_ [_ [X1 [X2 _]]]]]]]]]]]]; try congruence.
    rewrite D in X1. injection X1 as <- <-. rewrite <- E in X2. destruct (IH (S j) h ltac:(lia)) as [j' [r' [k1 [A' B']]]].
    + rewrite X2, <- app_assoc. rewrite nth_error_app1; auto. apply nth_error_Some. congruence.
    + exists j', r', k1. split; [lia|exact B'].
Qed.
Lemma drain n h : N0 <= n -> In h (ready (sg n)) -> exists j r k, n <= j /\ cur (sg j) = None /\ batch (sg j) = S k /\ ready (sg j) = h :: r.
Proof. intros Hn Hi. destruct (In_nth_error _ _ Hi) as [p Hp]. eapply drain0; eauto. Qed.
Lemma drain_cur n h t : N0 <= n -> In h (ready (sg n)) -> owner h = Some t -> exists j b, n <= j /\ cur (sg j) = Some (t, b).
Proof.
  intros Hn Hi Ho. destruct (drain n h Hn Hi) as [j [r [k [A [B [C D]]]]]]. destruct (EX j) as [fire E]. destruct (popped fire (sg j) h r k t (wfn j) B C D Ho) as [b Hb]. exists (S j), b. rewrite E. split; [lia|auto].
Qed.
Lemma noh n h t : N0 <= n -> In h (ready (sg n)) -> owner h = Some t -> t = c.
Proof. intros Hn Hi Ho. destruct (drain_cur n h t Hn Hi Ho) as [j [b [A B]]]. apply (only j t b); [lia|auto]. Qed.
Lemma waiting n t : N0 <= n -> unfinished (sg n) t -> t <> c -> exists f fu, waitof (futs (sg n)) t = Some (Some f) /\ nth_error (futs (sg n)) f = Some fu /\ pending fu = true /\ In (CbWake t) (f_cbs fu).
Proof.
  intros Hn U Ht. apply waits; auto; [apply wfn| |].
  - intros b Hc. apply Ht. exact (only n t b Hn Hc).
  - intros h Hi Ho. apply Ht. eapply noh; eauto.
Qed.
Lemma hu n : N0 <= n -> has_unwait (sg n) c = false.
Proof.
  intros Hn. destruct (has_unwait (sg n) c) eqn:H; auto. unfold has_unwait in H. apply existsb_exists in H as [t [Ht H]]. apply andb_true_iff in H as [H1 H2]. apply negb_true_iff, Nat.eqb_neq in H1.
  destruct (waiting n t Hn Ht H1) as [f [fu [A [B [C _]]]]]. unfold waitof in A. unfold unwait, tget, fget in H2. destruct (nth_error (futs (sg n)) t) as [[st cbs [| | | | |tk]]|]; try discriminate.
  cbn in A. injection A as A. rewrite A, B in H2. unfold pending in C. destruct (f_st fu); discriminate.
Qed.
(** The clock task is resumed. *)
Lemma resume_clk d : forall n k w b, N0 <= n -> Susp c k w (sg n) -> cur (sg (n + d)) = Some (c, b) -> exists j r, n <= j /\ cur (sg j) = Some (c, k r) /\ flag (sg j) = flag (sg n) /\ tdone (sg j) = tdone (sg n) /\ prio (sg j) = prio (sg n).
Proof.
  induction d as [|d IH]; intros n k w b Hn SU Hc; [rewrite Nat.add_0_r in Hc; now elim (proj1 SU b)|].
  assert (Z : cur (sg n) = None) by (destruct (cur (sg n)) as [[t x]|] eqn:E; auto; pose proof (only n t x Hn E); subst t; now elim (proj1 SU x)).
  destruct (EX n) as [fire E]. pose proof (susp_step shuffle dut delayers fire c k w (sg n) (wfn n) SU) as X. rewrite <- E in X.
  assert (FL : flag (sg (S n)) = flag (sg n)) by (rewrite E, (fr_flag _ _ (step_fr shuffle dut delayers fire (sg n))); unfold seff; now rewrite Z).
  assert (TD : tdone (sg (S n)) = tdone (sg n)) by (rewrite E, (fr_tdone _ _ (step_fr shuffle dut delayers fire (sg n))); unfold seff; now rewrite Z).
  assert (PR : prio (sg (S n)) = prio (sg n)) by (rewrite E, (fr_prio _ _ (step_fr shuffle dut delayers fire (sg n))); unfold seff; now rewrite Z).
  destruct X as [X|[r [X _]]].
  - destruct (IH (S n) k w b ltac:(lia) X) as [j [r [A [B [C [D F]]]]]]; [rewrite <- Hc; f_equal; f_equal; lia|]. exists j, r. split; [lia|]. split; auto. repeat split; congruence.
  - exists (S n), r. auto.
Qed.
Lemma resume0 n k : N0 <= n -> Susp c k None (sg n) -> exists j r, n <= j /\ cur (sg j) = Some (c, k r) /\ flag (sg j) = flag (sg n) /\ tdone (sg j) = tdone (sg n) /\ prio (sg j) = prio (sg n).
Proof.
  intros Hn SU. destruct (susp_handle _ _ _ (wfn n) SU) as [h [Hi Ho]]. destruct (drain_cur n h c Hn Hi Ho) as [j [b [A B]]]. apply (resume_clk (j - n) n k None b Hn SU). rewrite <- B. f_equal. f_equal. lia.
Qed.
Lemma started n x r : cur (sg n) = Some (c, start (BClk x) r) -> cur (sg n) = Some (c, BClk x).
Proof. destruct r as [v|e]; cbn [start]; auto. intros H. now elim (raised _ _ H). Qed.
(** The clock task goes on to the end of its loop body. *)
Definition inloop (x : @clk mem) : Prop := match x with CCancel | CGathered => False | _ => True end.
Lemma step_clk fire s x : cur s = Some (c, BClk x) -> step fire s = exec_clk shuffle dut delayers s c x.
Proof. intros H. unfold Loop_Model.step. now rewrite H. Qed.
Lemma susp_clk n x s k : cur (sg n) = Some (c, BClk x) -> (forall fire, step fire (sg n) = suspend0 s c k) -> futs s = futs (sg n) -> Susp c k None (sg (S n)).
Proof.
  intros Hc H F. destruct (EX n) as [fire ->]. rewrite H. destruct (cur_live _ (proj1 (wfn n)) c _ Hc) as [cbs [k0 [mu E]]]. cbn [coreof snd] in E. eapply suspend0_susp. unfold fget. rewrite F. exact E.
Qed.
Definition to (P : nat -> Prop) n : Prop := exists j, n <= j /\ tdone (sg j) = tdone (sg n) /\ P j.
Definition tail n : Prop := cur (sg n) = Some (c, BClk CTail).
Definition next_round n : Prop := cur (sg n) = Some (c, BClk CRound) /\ prio (sg n) = [].
Lemma to_next P n b : N0 <= n -> cur (sg n) = Some (c, b) -> clkb b -> to P (S n) -> to P n.
Proof.
  intros Hn Hc Hb [j [A [B C]]]. exists j. split; [lia|]. split; auto. rewrite B. destruct (EX n) as [fire ->]. rewrite (fr_tdone _ _ (step_fr shuffle dut delayers fire (sg n))). unfold seff. rewrite Hc.
  assert (O : forall o, tdone (oeff (sg n) c o) = tdone (sg n)) by (intros o; destruct o as [f|m1|fl| |p|f|f| |e|e|e| |q v|q|q| |h z [|]|l| |]; try reflexivity; cbn; destruct (clock (sg n)); reflexivity).
  destruct b as [[v|e|o kk]|[v|e|o kk] ev todo sb|x|e f r kk|q f [v|e] kk|tst|[v|e|o kk]]; cbn [clkb] in Hb; try contradiction; auto; [destruct ev; reflexivity|]. destruct x as [| | |[|[h ev] todo] sb| | | |last]; reflexivity.
Qed.
Lemma to_later P n j : n <= j -> tdone (sg j) = tdone (sg n) -> to P j -> to P n.
Proof. intros H T [i [A [B C]]]. exists i. split; [lia|]. split; auto. congruence. Qed.
Lemma hook_to P todo : (forall n sb, N0 <= n -> cur (sg n) = Some (c, BClk (CPass todo sb)) -> to P n) ->
  forall h, swift h -> forall n ev sb, N0 <= n -> cur (sg n) = Some (c, BHook h ev todo sb) -> to P n.
Proof.
  intros H h SW. induction SW as [v|e|o k PO _ IH]; intros n ev sb Hn Hc; (eapply to_next; [exact Hn|exact Hc|exact Logic.I|]).
  - destruct (EX n) as [fire E]. apply (H _ (match ev with Some _ => true | None => sb end)); [lia|]. rewrite E. unfold Loop_Model.step. rewrite Hc. cbn [exec_body]. destruct ev; reflexivity.
  - destruct (EX n) as [fire E]. elim (raised (S n) e). rewrite E. unfold Loop_Model.step. rewrite Hc. reflexivity.
  - destruct (cur_live _ (proj1 (wfn n)) c _ Hc) as [cbs [k0 [mu E]]]. cbn [coreof snd] in E.
    assert (X : sg (S n) = exec_op (sg n) c o (fun r => BHook (k r) ev todo sb)) by (destruct (EX n) as [fire ->]; unfold Loop_Model.step; rewrite Hc; reflexivity).
    destruct (prompt_out (sg n) c o (fun r => BHook (k r) ev todo sb) _ _ _ _ E PO) as [[r Y]|Y]; rewrite <- X in Y; [eapply (IH r); [lia|exact Y]|].
    destruct (resume0 (S n) _ ltac:(lia) Y) as [j [r [A [B [C [D _]]]]]]. apply (to_later P (S n) j); auto. eapply (IH r); [lia|exact B].
Qed.
Lemma pass_out l : forall n sb, N0 <= n -> cur (sg n) = Some (c, BClk (CPass l sb)) -> to (fun j => tail j \/ next_round j) n.
Proof.
  induction l as [|[h ev] l IH]; intros n sb Hn Hc; destruct (EX n) as [fire E]; pose proof (step_clk fire _ _ Hc) as X; rewrite <- E in X; (eapply to_next; [exact Hn|exact Hc|exact Logic.I|]).
  - exists (S n). split; [lia|]. split; auto. destruct sb; [right|left]; unfold tail, next_round; rewrite X; auto.
  - assert (Y : cur (sg (S n)) = Some (c, BHook h ev l sb)) by (rewrite X; reflexivity). eapply hook_to; [exact IH|eapply hook_swift; exact Y| |exact Y]. lia.
Qed.
Lemma pass_nil n : N0 <= n -> cur (sg n) = Some (c, BClk (CPass [] false)) -> to tail n.
Proof. intros Hn Hc. eapply to_next; [exact Hn|exact Hc|exact Logic.I|]. exists (S n). split; [lia|]. split; auto. destruct (EX n) as [fire E]. unfold tail. rewrite E, (step_clk fire _ _ Hc). reflexivity. Qed.
Lemma check_next n : N0 <= n -> cur (sg n) = Some (c, BClk CCheck) -> flag (sg n) = false -> cur (sg (S n)) = Some (c, BClk (CPass (map (fun p => (pt_coro p, pt_done p)) (pt_sorted (prio (sg n)))) false)).
Proof. intros Hn Hc Fl. destruct (EX n) as [fire E]. rewrite E, (step_clk fire _ _ Hc). cbn [exec_clk]. rewrite (hu n Hn), Fl. reflexivity. Qed.
Lemma round_check n : N0 <= n -> cur (sg n) = Some (c, BClk CRound) -> to (fun j => cur (sg j) = Some (c, BClk CCheck) /\ flag (sg j) = false /\ prio (sg j) = prio (sg n)) n.
Proof.
  intros Hn Hc. destruct (resume0 (S n) (start (BClk CCheck)) ltac:(lia)) as [j [r [A [B [C [D F]]]]]].
  - eapply (susp_clk n _ (set_flag (sg n) false)); [exact Hc| |reflexivity]. intros fire. now rewrite (step_clk fire _ _ Hc).
  - eapply to_next; [exact Hn|exact Hc|exact Logic.I|]. exists j. split; auto. split; auto. split; [now apply started in B|]. destruct (EX n) as [fire E].
    rewrite C, F, E, (fr_flag _ _ (step_fr shuffle dut delayers fire (sg n))), (fr_prio _ _ (step_fr shuffle dut delayers fire (sg n))). unfold seff. rewrite Hc. auto.
Qed.
Lemma to_bind (P R : nat -> Prop) n : N0 <= n -> to P n -> (forall j, N0 <= j -> P j -> to R j) -> to R n.
Proof. intros Hn [j [A [B C]]] H. eapply to_later; [exact A|exact B|]. apply H; [lia|auto]. Qed.
Lemma check_out n : N0 <= n -> cur (sg n) = Some (c, BClk CCheck) -> flag (sg n) = false -> to (fun j => tail j \/ next_round j) n.
Proof. intros Hn Hc Fl. eapply to_next; [exact Hn|exact Hc|exact Logic.I|]. eapply pass_out; [|apply check_next; auto]. lia. Qed.
Lemma last_round n : N0 <= n -> next_round n -> to tail n.
Proof.
  intros Hn [Hc P]. eapply to_bind; [exact Hn|apply (round_check n Hn Hc)|]. intros j Hj [B [C D]]. rewrite P in D. eapply to_next; [exact Hj|exact B|exact Logic.I|]. apply pass_nil; [lia|]. rewrite (check_next j Hj B C), D. reflexivity.
Qed.
Lemma finally_tail n : N0 <= n -> to (fun j => tail j \/ next_round j) n -> to tail n.
Proof. intros Hn H. eapply to_bind; [exact Hn|exact H|]. intros j Hj [T|R]; [exists j; auto|now apply last_round]. Qed.
Lemma round_tail n : N0 <= n -> cur (sg n) = Some (c, BClk CRound) -> to tail n.
Proof.
  intros Hn Hc. apply finally_tail; auto. eapply to_bind; [exact Hn|apply (round_check n Hn Hc)|]. intros j Hj [B [C D]]. now apply check_out.
Qed.
Context (BEG : forall n, tdone (sg n) <> None).
Lemma loop_tail n x : N0 <= n -> cur (sg n) = Some (c, BClk x) -> inloop x -> to tail n.
Proof.
  intros Hn Hc Hx. destruct (EX n) as [fire E]. pose proof (step_clk fire _ _ Hc) as X. rewrite <- E in X.
  assert (RT : cur (sg (S n)) = Some (c, BClk CRound) -> to tail n) by (intros A; eapply to_next; [exact Hn|exact Hc|exact Logic.I|]; apply round_tail; [lia|auto]).
  destruct x as [| | |l sb| | | |last]; try contradiction; cbn [exec_clk] in X.
  - pose proof (BEG n) as T. destruct (tdone (sg n)) eqn:TD; [|congruence]. apply RT; rewrite X; reflexivity.
  - eapply round_tail; eauto.
  - destruct (has_unwait (sg n) c || flag (sg n)) eqn:U; [apply RT; rewrite X; reflexivity|]. apply orb_false_iff in U as [_ U]. apply finally_tail; auto. now apply check_out.
  - apply finally_tail; auto. eapply pass_out; eauto.
  - exists n. auto.
  - apply RT; rewrite X; reflexivity.
Qed.
Lemma hook_tail n h ev todo sb : N0 <= n -> cur (sg n) = Some (c, BHook h ev todo sb) -> to tail n.
Proof. intros Hn Hc. apply finally_tail; auto. eapply hook_to; [intros; eapply pass_out; eauto|eapply hook_swift; exact Hc|exact Hn|exact Hc]. Qed.
(** * Before the test has ended *)
Context (shuffled : forall l, Permutation l (shuffle l)).
Lemma late1 n x : cur (sg n) = Some (c, BClk x) -> ~ inloop x -> tdone (sg n) = Some true.
Proof.
  intros Hc Hx. assert (U : forall c1, clock (sg n) = Some c1 -> c1 = c) by (intros c1 X; rewrite clkn in X; congruence).
  destruct (reach_phase shuffle dut delayers shuffled test m _ (reachn n)) as [[_ X]|c1 X Y _|c1 s1 g [_ [_ [_ [_ [_ CA]]]]] SU _|c1 s1 [R1 [R2 [_ [_ [T _]]]]] _ _|c1 X _ _]; auto.
  - specialize (X _ _ Hc). destruct x; cbn in X, Hx; tauto.
  - apply U in CA. subst c1. now elim (proj1 SU (BClk x)).
  - eapply steps_tdone; eauto.
  - rewrite Hc in X. injection X as _ ->. now elim Hx.
Qed.
Lemma late2 n g : Susp c (start (BClk CGathered)) (Some g) (sg n) -> exists s1, Loop21_Proofs.canceled shuffle dut delayers (init test m) (sg n) c s1 /\ Gat g (others shuffle s1 c) (sg n).
Proof.
  intros SU. assert (U : forall c1, clock (sg n) = Some c1 -> c1 = c) by (intros c1 X; rewrite clkn in X; congruence). pose proof (proj2 SU) as [cbs [mu E]].
  destruct (reach_phase shuffle dut delayers shuffled test m _ (reachn n)) as [[X _]|c1 X _ Y|c1 s1 g1 CA SU1 GA|c1 s1 CA _ Ph|c1 X _ Y].
  - exfalso. destruct (X c _ _ _ _ E (proj1 SU)) as [kd [fu [_ [_ Z]]]]. exact (Z (Ok VNone)).
  - apply U in Y. subst. now elim (proj1 SU _ X).
  - pose proof CA as [_ [_ [_ [_ [_ Y]]]]]. apply U in Y. subst c1. destruct SU1 as [_ [cbs1 [mu1 E1]]]. rewrite E in E1. injection E1 as _ <- _. eauto.
  - pose proof CA as [_ [_ [_ [_ [_ Y]]]]]. apply U in Y. subst c1. destruct Ph as [X|[[_ [cbs1 [mu1 E1]]]|X]]; try now elim (proj1 SU _ X). rewrite E in E1. discriminate.
  - apply U in Y. subst. now elim (proj1 SU _ X).
Qed.
Lemma body_tail n b : N0 <= n -> cur (sg n) = Some (c, b) -> clkb b -> to tail n \/ exists x, b = BClk x /\ ~ inloop x.
Proof.
  intros Hn Hc Hb. destruct b as [[v|e|o kk]|h ev todo sb|x|e f r kk|q f [v|e] kk|tst|[v|e|o kk]]; cbn [clkb] in Hb; try contradiction.
  - now elim (raised _ _ Hc).
  - left. eapply hook_tail; eauto.
  - destruct x as [| | |l sb| | | |last]; try (left; eapply loop_tail; eauto; exact Logic.I); right; (eexists; split; [reflexivity|intros []]).
Qed.
Lemma reach_tail n : N0 <= n -> to tail n \/ tdone (sg n) = Some true.
Proof.
  intros Hn. destruct (pr_pr _ _ (reach_pro shuffle dut delayers test m _ HP (reachn n)) c (clkn n)) as [[b [Hc Hb]]|[[k [SU Hk]]|[[g SU]|X]]].
  - destruct (body_tail n b Hn Hc Hb) as [X|[x [-> Hx]]]; auto. right. eapply late1; eauto.
  - destruct (resume0 n k Hn SU) as [j [r [A [B [_ [D _]]]]]]. destruct (body_tail j (k r) ltac:(lia) B (Hk r)) as [X|[x [E Hx]]]; [left; eapply to_later; eauto|]. right. rewrite E in B. rewrite <- D. eapply late1; eauto.
  - right. destruct (late2 n g SU) as [s1 [[R1 [R2 [_ [_ [T _]]]]] _]]. eapply steps_tdone; eauto.
  - now elim (X (ALIVE n)).
Qed.
Theorem ticks n : N0 <= n -> tdone (sg n) <> Some true -> exists j, n <= j /\ at_cycle (sg j) c /\ nstep (sg (S j)) = S (nstep (sg j)).
Proof.
  intros Hn T. destruct (reach_tail n Hn) as [[j [A [B C]]]|X]; [|congruence]. exists (S j). split; [lia|]. destruct (EX j) as [fire E]. assert (Hc : at_cycle (sg (S j)) c).
  { unfold at_cycle. rewrite E, (step_clk fire _ _ C). cbn [exec_clk go set_cur cur]. destruct (tdone (sg j)) as [[]|] eqn:D; congruence. }
  split; auto. destruct (EX (S j)) as [fire2 ->]. rewrite nstep_step. unfold at_cycle in Hc. now rewrite Hc.
Qed.

(** A task that waits for the clock does not stay there while only the clock task runs. *)
Lemma keeps_waiting n t f : N0 <= n -> t <> c -> unfinished (sg n) t -> waitof (futs (sg n)) t = Some (Some f) -> forall d, unfinished (sg (n + d)) t /\ waitof (futs (sg (n + d))) t = Some (Some f).
Proof.
  intros Hn Ht U W d. induction d as [|d [IH1 IH2]]; [rewrite Nat.add_0_r; auto|]. rewrite Nat.add_succ_r. destruct (EX (n + d)) as [fire E]. unfold unfinished in IH1. apply live_iff in IH1. unfold islive in IH1. unfold waitof in IH2.
  destruct (nth_error (futs (sg (n + d))) t) as [[st cbs kd]|] eqn:Et; [|discriminate]. destruct st; try discriminate. destruct kd as [| | | | |[k w mu]]; try discriminate. cbn in IH2. injection IH2 as ->.
  destruct (step_task shuffle dut delayers fire _ t cbs k (Some f) mu (wfn (n + d))) as [[_ [cbs' [m' X]]]|[_ [h [r [i [_ [_ [_ [X _]]]]]]]]]; auto.
  - intros b Hc. apply Ht. apply (only (n + d) t b); [lia|auto].
  - rewrite <- E in X. split; [unfold unfinished; apply live_iff; unfold islive; now rewrite X|exact (waitof_task _ _ _ _ _ _ _ X)].
  - exfalso. rewrite <- E in X. apply Ht. eapply (only (S (n + d)) t); [lia|exact X].
Qed.
Theorem no_cycle_waiter n t : N0 <= n -> (forall j, tdone (sg j) <> Some true) -> t <> c -> unfinished (sg n) t -> ~ inside_wait (sg n) t 0.
Proof.
  intros Hn T Ht U [[f [fu [[k [Tk Kw]] [Ef Kf]]]]|[f [r [k Hc]]]]; [|apply Ht; eapply only; eauto].
  destruct (ticks n Hn (T n)) as [j [A [B _]]]. set (d := j - n). replace j with (n + d) in B by (unfold d; lia).
  assert (W : waitof (futs (sg n)) t = Some (Some f)). { unfold tget, fget in Tk. unfold waitof. destruct (nth_error (futs (sg n)) t) as [[st cbs []]|]; try discriminate. cbn in Tk. injection Tk as ->. now rewrite Kw. }
  destruct (keeps_waiting n t f Hn Ht U W d) as [U1 W1]. destruct (keeps_waiting n t f Hn Ht U W (S d)) as [U2 W2]. rewrite Nat.add_succ_r in *.
  destruct (waiting (n + d) t ltac:(lia) U1 Ht) as [f1 [fu1 [X1 [X2 [X3 _]]]]]. rewrite W1 in X1. injection X1 as <-. destruct (waiting (S (n + d)) t ltac:(lia) U2 Ht) as [f2 [fu2 [Y1 [Y2 [Y3 _]]]]]. rewrite W2 in Y1. injection Y1 as <-.
  assert (K1 : f_kind fu1 = KEv 0).
  { assert (R : steps (sg n) (sg (n + d))) by (clear - EX; induction d as [|d IH]; [rewrite Nat.add_0_r; apply steps_refl|rewrite Nat.add_succ_r; destruct (EX (n + d)) as [fire ->]; now apply steps_step]).
    destruct (steps_fext shuffle dut delayers _ _ (wfn n) R f fu Ef) as [fu' [E' [K _]]]. rewrite X2 in E'. injection E' as <-. rewrite Kf in K. destruct (f_kind fu1); cbn in K; try contradiction. now subst. }
  assert (P1 : f_st fu1 = Pending) by (unfold pending in X3; destruct (f_st fu1); congruence).
  destruct (v_reg _ (proj1 (alln (n + d))) f fu1 0 X2 K1 P1) as [ev [Ee [Hf V]]]. destruct (EX (n + d)) as [fire E].
  destruct (setsev_done shuffle dut delayers fire (sg (n + d)) 0 ev f fu1) as [fu3 [E3 P3]]; auto; [unfold setsev; unfold at_cycle in B; now rewrite B|now rewrite K1|]. rewrite <- E, Y2 in E3. injection E3 as <-. congruence.
Qed.

(** * After the test has ended *)
Context (DONE : forall n, N0 <= n -> tdone (sg n) = Some true) (GONE : forall n t, N0 <= n -> unfinished (sg n) t -> t = c \/ t = 0).
Lemma gath k : forall n g l, N0 <= n -> Susp c (start (BClk CGathered)) (Some g) (sg n) -> Gat g l (sg n) -> (forall j, n <= j -> dead l (sg j)) -> tok g (coreof (sg n)) = k ->
  exists j r, n <= j /\ cur (sg j) = Some (c, start (BClk CGathered) r).
Proof.
  induction k as [k IH] using lt_wf_ind. intros n g l Hn SU GA DE Ek. assert (GL : g < List.length (futs (sg n))) by (destruct (ga_need _ _ _ GA) as [fu [E _]]; apply nth_error_Some; congruence).
  destruct (existsb (owns c) (ready (sg n))) eqn:EB.
  { apply existsb_exists in EB as [h [Hi Ho]]. unfold owns in Ho. destruct (owner h) as [x|] eqn:Ow; [|discriminate]. apply Nat.eqb_eq in Ho. subst x. destruct (drain_cur n h c Hn Hi Ow) as [j [b [A B]]].
    destruct (resume_clk (j - n) n _ _ b Hn SU) as [i [r [C [D _]]]]; [rewrite <- B; f_equal; f_equal; lia|]. eauto. }
  assert (NH : forall h, In h (ready (sg n)) -> owner h <> Some c).
  { intros h Hi Ow. assert (X : existsb (owns c) (ready (sg n)) = true) by (apply existsb_exists; exists h; split; auto; unfold owns; rewrite Ow; apply Nat.eqb_refl). congruence. }
  destruct (waits (sg n) c (wfn n) (ALIVE n) (proj1 SU) NH) as [f [fu [Wf1 [Ef [Pf _]]]]]. pose proof (proj2 SU) as [cbs [mu Ec]]. rewrite (waitof_task _ _ _ _ _ _ _ Ec) in Wf1. injection Wf1 as <-.
  assert (TP : tok g (coreof (sg n)) <> 0) by (intros Z; pose proof (ga_pend _ _ _ GA fu Ef Z); congruence).
  assert (TF : tokF g (futs (sg n)) = 0).
  { apply tokF_none. intros x fx Ex Hx. pose proof (ga_only _ _ _ GA x fx Ex Hx) as L. destruct (DE n ltac:(lia) x L) as [fy [Ey Py]]. rewrite Ex in Ey. injection Ey as <-. pose proof (i_cbs _ (proj1 (wfn n)) x fx Ex Py) as Z. rewrite Z in Hx. contradiction. }
  assert (HI : In (HCount g) (ready (sg n))) by (apply tokh_pos; unfold tok in TP; cbn [coreof fst snd] in TP; lia).
  destruct (drain n _ Hn HI) as [j [r [k0 [A [B [C D]]]]]].
  assert (TR : forall d, (exists i r, n <= i /\ cur (sg i) = Some (c, start (BClk CGathered) r)) \/ (Susp c (start (BClk CGathered)) (Some g) (sg (n + d)) /\ Gat g l (sg (n + d)) /\ g < List.length (futs (sg (n + d))) /\ tok g (coreof (sg (n + d))) <= k)).
  { induction d as [|d [X|[S1 [G1 [L1 T1]]]]]; [right; rewrite Nat.add_0_r; split; [auto|split; [auto|split; [auto|lia]]]|auto|]. rewrite Nat.add_succ_r. destruct (EX (n + d)) as [fire E].
    destruct (susp_step shuffle dut delayers fire c _ _ _ (wfn (n + d)) S1) as [S2|[r2 [X _]]]; [|left; exists (S (n + d)), r2; rewrite E; split; [lia|exact X]]. right. rewrite E. split; auto. split; [apply gat_step; auto; apply wfn|]. split; [pose proof (step_len shuffle dut delayers fire _ (wfn (n + d))); lia|].
    destruct (tok_step fire (sg (n + d)) g (wfn _) L1). lia. }
  destruct (TR (j - n)) as [X|[S1 [G1 [L1 T1]]]]; auto. replace (n + (j - n)) with j in * by lia. destruct (EX j) as [fire E].
  assert (PO : pops (sg j) (HCount g)) by (split; [auto|split; eauto]). destruct (tok_step fire (sg j) g (wfn _) L1) as [_ LT]. specialize (LT PO). rewrite <- E in LT.
  destruct (susp_step shuffle dut delayers fire c _ _ _ (wfn j) S1) as [S2|[r2 [X _]]]; rewrite <- E in *; [|exists (S j), r2; split; [lia|exact X]].
  assert (LK : tok g (coreof (sg (S j))) < k) by lia. assert (G2 : Gat g l (sg (S j))) by (rewrite E; apply gat_step; auto; apply wfn). destruct (IH _ LK (S j) g l ltac:(lia) S2 G2 ltac:(intros i Hi; apply DE; lia) eq_refl) as [i [r3 [X Y]]]. exists i, r3. split; [lia|auto].
Qed.
Lemma gone_dead n s1 t : N0 <= n -> steps (init test m) s1 -> steps s1 (sg n) -> In t (others shuffle s1 c) -> exists fu, nth_error (futs (sg n)) t = Some fu /\ pending fu = false.
Proof.
  intros Hn R1 R2 Ht. apply (others_iff shuffle shuffled) in Ht as [U [T1 T2]]. assert (W1 : Wf s1) by (apply (v_wf _ (proj1 (reach_all shuffle dut delayers test m s1 R1)))).
  unfold unfinished in U. apply live_iff in U. unfold islive in U. destruct (nth_error (futs s1) t) as [fu|] eqn:E; [|discriminate]. destruct (steps_fext shuffle dut delayers s1 (sg n) W1 R2 t fu E) as [fu' [E' [K _]]]. exists fu'. split; auto.
  destruct (pending fu') eqn:P; auto. exfalso. assert (X : unfinished (sg n) t). { unfold unfinished. apply live_iff. unfold islive. rewrite E'. destruct fu as [st cbs kd], fu' as [st' cbs' kd']. destruct st; try discriminate U. destruct kd; try discriminate U. cbn in K. destruct kd'; cbn in K; try contradiction. unfold pending in P. cbn in P. destruct st'; auto; discriminate. }
  destruct (GONE n t Hn X); contradiction.
Qed.
Lemma to_last n : N0 <= n -> Susp c (start (BClk (CStep true))) None (sg n) -> exists j, n <= j /\ at_step (sg j) c.
Proof. intros Hn SU. destruct (resume0 n _ Hn SU) as [j [r [A [B _]]]]. apply started in B. exists j. split; auto. eexists. exact B. Qed.
Lemma cancel_last n : N0 <= n -> cur (sg n) = Some (c, BClk CCancel) -> exists j, n <= j /\ at_step (sg j) c.
Proof.
  intros Hn Hc. destruct (to_last (S n) ltac:(lia)) as [j [A B]]; [|exists j; split; [lia|auto]]. eapply (susp_clk n _ (sg n)); [exact Hc| |reflexivity]. intros fire. rewrite (step_clk fire _ _ Hc). cbn [exec_clk]. fold (others shuffle (sg n) c).
  destruct (others shuffle (sg n) c) as [|t l] eqn:El; [reflexivity|]. exfalso. assert (Ht : In t (others shuffle (sg n) c)) by (rewrite El; now left). apply (others_iff shuffle shuffled) in Ht as [U [T1 T2]]. destruct (GONE n t Hn U); contradiction.
Qed.
Lemma gathered_last n : N0 <= n -> cur (sg n) = Some (c, BClk CGathered) -> exists j, n <= j /\ at_step (sg j) c.
Proof.
  intros Hn Hc. destruct (to_last (S n) ltac:(lia)) as [j [A B]]; [|exists j; split; [lia|auto]]. eapply (susp_clk n _ (sg n)); [exact Hc| |reflexivity]. intros fire. now rewrite (step_clk fire _ _ Hc).
Qed.
Lemma tail_last n : N0 <= n -> to tail n -> exists j, n <= j /\ at_step (sg j) c.
Proof.
  intros Hn [j [A [B C]]]. destruct (cancel_last (S j) ltac:(lia)) as [i [X Y]]; [|exists i; split; [lia|auto]]. destruct (EX j) as [fire E]. rewrite E, (step_clk fire _ _ C). cbn [exec_clk go set_cur cur]. now rewrite (DONE j ltac:(lia)).
Qed.
Lemma body_last n b : N0 <= n -> cur (sg n) = Some (c, b) -> clkb b -> exists j, n <= j /\ at_step (sg j) c.
Proof.
  intros Hn Hc Hb. destruct (body_tail n b Hn Hc Hb) as [X|[x [-> Hx]]]; [now apply tail_last|]. destruct x; cbn in Hx; try tauto; [now apply cancel_last|now apply gathered_last].
Qed.
Lemma reach_last n : N0 <= n -> exists j, n <= j /\ at_step (sg j) c.
Proof.
  intros Hn. destruct (pr_pr _ _ (reach_pro shuffle dut delayers test m _ HP (reachn n)) c (clkn n)) as [[b [Hc Hb]]|[[k [SU Hk]]|[[g SU]|X]]].
  - eapply body_last; eauto.
  - destruct (resume0 n k Hn SU) as [j [r [A [B _]]]]. destruct (body_last j (k r) ltac:(lia) B (Hk r)) as [i [X Y]]. exists i. split; [lia|auto].
  - destruct (late2 n g SU) as [s1 [[R1 [R2 _]] GA]]. assert (DE : forall j, n <= j -> dead (others shuffle s1 c) (sg j)).
    { intros j Hj t Ht. apply (gone_dead j s1 t ltac:(lia) R1); auto. eapply steps_trans; [exact R2|]. clear - EX Hj. induction Hj as [|j Hj IH]; [apply steps_refl|]. destruct (EX j) as [fire ->]. now apply steps_step. }
    destruct (gath _ n g _ Hn SU GA DE eq_refl) as [j [r [A B]]]. apply started in B. destruct (gathered_last j ltac:(lia) B) as [i [X Y]]. exists i. split; [lia|auto].
  - now elim (X (ALIVE n)).
Qed.
End Live.
