(** Hooks that neither wait nor register hooks are called before the next dut.Step. *)
From Coq Require Import List Bool Arith ZArith Lia Permutation.
From Verif Require Import Py Prio_Model Prio_Proofs Loop_Model Loop_Spec Loop_Proofs Loop2_Proofs Loop3_Proofs Loop4_Proofs Loop5_Proofs Loop6_Proofs Loop7_Proofs Loop8_Proofs Loop9_Proofs Loop10_Proofs Loop2_Spec Loop3_Spec LoopProg_Model Loop13_Proofs Loop14_Proofs Loop15_Proofs Loop16_Proofs Loop17_Proofs Loop18_Proofs Loop20_Proofs Loop21_Proofs Loop22_Proofs Live_Spec Live_Proofs Hook_Spec.
Import ListNotations.
Open Scope nat_scope.

Section Hook.
Context {mem : Type}.
Notation prog := (@prog mem). Notation state := (@state mem). Notation body := (@body mem).
Implicit Types (s : state).
Context (shuffle : list id -> list id) (dut delayers : mem -> mem).
Notation step := (step shuffle dut delayers). Notation steps := (steps shuffle dut delayers).

Definition HkI (_ : bool) (p : prog) : Prop := instant p.
Lemma instant_inv o k : @instant mem (Op o k) -> instant_op o /\ forall r, instant (k r).
Proof. intros H. inversion H; auto. Qed.
Lemma plain_HC (h : prog) z d : plain_op (OPrio h z d) -> HkI d h. Proof. auto. Qed.
Lemma plain_Hcont d o k r : HkI d (Op o k) -> HkI d (k r). Proof. intros H. apply (instant_inv o k H). Qed.
Lemma instant_cur s t o k : instant_op o -> exists r, cur (exec_op s t o k) = Some (t, k r).
Proof.
  intros H. destruct o as [f|m|fl| |p|f|f| |e|e|e| |q v|q|q| |h z [|]|l| |]; try contradiction; cbn [exec_op]; try (eexists; reflexivity).
  - destruct (f (mm s)); eexists; reflexivity.
  - destruct (fget s f) as [fu|]; [destruct (negb _)|]; eexists; reflexivity.
  - destruct (nth_error (evs s) e) as [ev|]; [destruct (e_priv ev)|]; eexists; reflexivity.
  - destruct (nth_error (evs s) e) as [ev|]; [destruct (e_priv ev)|]; eexists; reflexivity.
  - destruct (nth_error (qs s) q); eexists; reflexivity.
  - destruct (nth_error (qs s) q); eexists; reflexivity.
  - destruct (nodup _ _); eexists; reflexivity.
  - destruct (clock s); eexists; reflexivity.
Qed.

(** * While the clock task runs hooks, no other task runs *)
Fixpoint npass (b : body) : Prop :=
  match b with
  | BHook _ _ _ _ | BClk (CPass _ _) | BClk CTail | BClk CCancel | BClk (CStep false) => False
  | BEv _ _ _ k | BGet _ _ _ k => forall r, npass (k r)
  | _ => True
  end.
Definition npassk (k : res lval -> body) : Prop := forall r, npass (k r).
Definition nests (b : body) : Prop := match b with BEv _ _ _ _ | BGet _ _ _ _ => npass b | _ => True end.
Lemma npass_nests b : npass b -> nests b. Proof. destruct b; simpl; auto. Qed.
Lemma np_stores (b : body) : nests b -> (forall o k ev todo sb, b = BHook (Op o k) ev todo sb -> instant_op o) -> stores (fun _ => npassk) b.
Proof.
  intros H HI. assert (S0 : forall b, npass b -> npassk (start b)) by (intros b0 X [|]; simpl; auto).
  assert (O : forall o k, npassk k -> opstores (fun _ => npassk) o k).
  { intros o k X. destruct o; simpl; auto; try (apply S0; exact I); try (intros f r; exact X). }
  destruct b as [[v|e|o kk]|[v|e|o kk] ev todo sb|c|e f r kk|q f [v|e] kk|test|[v|e|o kk]]; cbn [stores]; auto; try (apply O; intros r; exact I).
  - specialize (HI o kk ev todo sb eq_refl). destruct o; simpl in *; try contradiction; auto; apply S0; exact I.
  - destruct c; auto; try (apply S0; exact I). all: try (split; [|split]; intros; apply S0; exact I).
  - intros g r. exact H.
Qed.
Record Pas s : Prop := mk_pas { pa_good : Good plain_op HkI s; pa_conts : conts npassk (futs s); pa_cur : forall t b, cur s = Some (t, b) -> nests b }.
Lemma pas_step fire s : Wf s -> Pas s -> Pas (step fire s).
Proof.
  intros W [G P1 P2]. constructor.
  - now apply (step_good shuffle dut delayers plain_op HkI plain_HC plain_Hcont).
  - eapply (mstar_conts npassk _ (coreof s) (coreof (step fire s))); [|exact P1]. pose proof W as [I K]. apply (step_core shuffle dut delayers (fun _ => npassk)); auto. intros t b Hc. apply np_stores; [eauto|].
    intros o k ev todo sb ->. pose proof (g_cur _ _ _ G _ _ Hc) as [[_ X] _]. cbn [fst snd] in X. now apply instant_inv in X.
  - intros t' b' Hc'. destruct (step_cur shuffle dut delayers fire s t' b' W Hc') as [[b [Hc Hn]]|[Hc [h [r [n [st [cbs [k [w [m [Hr [Hb [Ho [E ->]]]]]]]]]]]]]].
    + specialize (P2 _ _ Hc). destruct b as [[v|e|o kk]|[v|e|o kk] ev todo sb|c|e f r kk|q f [v|e] kk|test|[v|e|o kk]]; cbn [nextb nests npass] in Hn, P2; try contradiction; try (subst b'; exact Logic.I);
        try (destruct Hn as [r [_ ->]]; exact Logic.I); try (subst b'; apply npass_nests, P2); try (destruct Hn as [r [_ ->]]; apply npass_nests, P2).
      destruct c as [| | |[|[h ev] todo] sb| | | |last]; try contradiction; try (subst b'; exact Logic.I). destruct Hn as [->|[_ [_ ->]]]; exact Logic.I.
    + apply npass_nests. eapply P1; eauto.
Qed.
Lemma reach_pas test m s : plain_hooks test -> steps (init test m) s -> Wf s /\ Pas s.
Proof.
  intros H R. apply (steps_ind_inv shuffle dut delayers (fun s => Wf s /\ Pas s) _ _) in R; auto; [intros fire s0 [A B]; split; [now apply step_wf|now apply pas_step]|].
  split; [apply init_wf|]. constructor; [now apply (init_good plain_op HkI)| |intros t b X; discriminate].
  intros [|[|f]] st cbs k w mu E; simpl in E; try discriminate. injection E as _ _ <- _ _. intros [|]; exact Logic.I.
Qed.

(** * A registered hook *)
Section Reg.
Context (s0 : state) (p : prog) (z : Z) (o : option id).
Definition called s : Prop := exists y, steps s0 y /\ steps y s /\ turn y p o.
Definition queued s : Prop :=
  In (mk_pt p z o) (prio s) /\
  match cur s with
  | Some (_, BHook _ _ todo _) | Some (_, BClk (CPass todo _)) => In (p, o) todo
  | Some (_, BClk CTail) | Some (_, BClk CCancel) | Some (_, BClk (CStep false)) => False
  | _ => True
  end.
Definition dead s : Prop := exists c, clock s = Some c /\ c < List.length (futs s) /\ ((exists e, cur s = Some (c, BProg (Raise e))) \/ ~ unfinished s c).
Definition Reg s : Prop :=
  queued s \/ (called s /\ exists q, turn s q o) \/ (called s /\ forall e, o = Some e -> In e (ran s)) \/ dead s.
Lemma called_step fire s : called s -> called (step fire s).
Proof. intros [y [A [B C]]]. exists y. split; auto. split; auto. now apply steps_step. Qed.
Lemma clock_lt s c b : Wf s -> cur s = Some (c, b) -> c < List.length (futs s).
Proof. intros [I _] Hc. destruct (cur_live _ I c b Hc) as [cbs [k [mu E]]]. apply nth_error_Some. cbn [coreof snd] in E. congruence. Qed.
Lemma futs_le fire s : Wf s -> List.length (futs s) <= List.length (futs (step fire s)).
Proof. intros W. now apply step_len. Qed.
Lemma dead_step fire s : Wf s -> dead s -> dead (step fire s).
Proof.
  intros W [c [A [B C]]]. pose proof (futs_le fire s W). exists c. split; [now apply clock_step|]. split; [lia|]. right. destruct C as [[e C]|C]; [|now apply unfinished_step].
  pose proof W as [I K]. destruct (cur_live _ I c _ C) as [cbs [k [mu E]]]. cbn [coreof snd] in E. unfold Loop_Model.step. rewrite C. cbn [exec_body]. unfold unfinished. rewrite live_iff. unfold finish. cbn [futs set_cur]. unfold conclude, fget. rewrite E.
  cbn [pending f_st mkt futs set_futs push set_ready fput f_kind f_cbs]. unfold islive. rewrite (put_nth_get _ _ _ _ c E), Nat.eqb_refl. destruct e; discriminate.
Qed.
Lemma prio_keep fire s x : In x (prio s) -> (forall c sb, cur s <> Some (c, BClk (CPass [] sb))) -> In x (prio (step fire s)).
Proof.
  intros H N. rewrite (fr_prio _ _ (step_fr shuffle dut delayers fire s)). unfold seff. destruct (cur s) as [[t b]|]; auto.
  assert (O : forall o', In x (prio (oeff s t o'))).
  { intros o'. rewrite oeff_prio. destruct o'; auto. apply in_or_app. now left. }
  destruct b as [[v|e|o' kk]|[v|e|o' kk] ev todo sb|c|e f r kk|q f [v|e] kk|test|[v|e|o' kk]]; auto.
  - destruct ev; auto.
  - destruct c as [| | |[|[h ev] todo] sb| | | |last]; auto. exfalso. eapply N. reflexivity.
Qed.
Lemma in_sorted {A} (l : list (ptask A)) x : In x l -> In x (pt_sorted l).
Proof. intros H. eapply Permutation_in; [symmetry; apply pt_sorted_perm|exact H]. Qed.
Lemma reg_step fire s : Wf s -> Clk1 s -> Pas s -> steps s0 s -> Reg s -> Reg (step fire s).
Proof.
  intros W C1 [G P1 P2] R H. destruct H as [[Q1 Q2]|[[Q1 [q [c [todo [sb Q2]]]]]|[[Q1 Q2]|H]]].
  - destruct (cur s) as [[t b]|] eqn:Hc.
    2: { left. split; [apply prio_keep; auto; rewrite Hc; discriminate|]. destruct (cur (step fire s)) as [[t' b']|] eqn:Hc'; auto.
      destruct (step_cur shuffle dut delayers fire s t' b' W Hc') as [[b [X _]]|[_ [h [r [n [st [cbs [k [w [m [Hr [Hb [Ho [E ->]]]]]]]]]]]]]]; [congruence|].
      pose proof (P1 _ _ _ _ _ _ E (if m then Exn CancelledError else hres (futs s) h)) as X. destruct (k _) as [| |[| | | | | | |[]]| | | |]; simpl in X; auto; contradiction. }
    assert (N : (forall c sb, b <> BClk (CPass [] sb)) -> In (mk_pt p z o) (prio (step fire s))) by (intros N; apply prio_keep; auto; intros c sb X; rewrite Hc in X; injection X as -> X; eapply N; eauto).
    assert (NN : In (mk_pt p z o) (prio (step fire s)) -> (forall t' b', cur (step fire s) = Some (t', b') -> nextb s t b b' -> npass b') -> Reg (step fire s)).
    { intros A B. left. split; auto. destruct (cur (step fire s)) as [[t' b']|] eqn:Hc'; auto. destruct (step_cur shuffle dut delayers fire s t' b' W Hc') as [[b1 [X Hn]]|[X _]]; [|congruence]. rewrite Hc in X. injection X as <- <-.
      specialize (B _ _ eq_refl Hn). destruct b' as [| |[| | | | | | |[]]| | | |]; simpl in B; auto; contradiction. }
    pose proof (P2 _ _ eq_refl) as NB. destruct b as [p0|[v|e|o' kk] ev todo sb|c|e f r kk|q f r kk|test|p0].
    + apply NN; [apply N; discriminate|]; intros t' b' _ Hn. destruct p0; cbn [nextb] in Hn; try contradiction. destruct Hn as [r [_ ->]]. exact I.
    + left. split; [apply N; discriminate|]. unfold Loop_Model.step. rewrite Hc. cbn [exec_body]. destruct ev; exact Q2.
    + right; right; right. exists t. assert (CT : clock s = Some t) by (eapply clock_of; eauto; intros X; exact X). split; [now apply clock_step|]. pose proof (clock_lt s t _ W Hc). pose proof (futs_le fire s W).
      split; [lia|]. left. exists e. unfold Loop_Model.step. rewrite Hc. reflexivity.
    + left. split; [apply N; discriminate|]. pose proof (g_cur _ _ _ G _ _ Hc) as [[_ X] _]. cbn [fst snd] in X. apply instant_inv in X as [X _]. unfold Loop_Model.step. rewrite Hc. cbn [exec_body].
      destruct (instant_cur s t o' (fun r => BHook (kk r) ev todo sb) X) as [r E]. rewrite E. exact Q2.
    + assert (NX : (forall c0 sb, c <> CPass c0 sb) -> c <> CCheck -> Reg (step fire s)).
      { intros X1 X2. apply NN; [apply N; intros ? ? X; injection X as X; eapply X1; eauto|]. intros t' b' _ Hn. destruct c as [| | |[|[h ev] todo] sb| | | |[]]; try contradiction; cbn [nextb] in Hn; try contradiction; try (subst b'; exact I); exfalso; eapply X1; eauto. }
      destruct c as [| | |[|[h ev] todo] sb| | | |[]]; try contradiction; try (apply NX; discriminate).
      * left. split; [apply N; discriminate|]. unfold Loop_Model.step. rewrite Hc. cbn [exec_body exec_clk]. destruct (has_unwait s t || flag s); [exact I|]. cbn [cur go set_cur]. apply in_map_iff. exists (mk_pt p z o). split; auto. now apply in_sorted.
      * assert (HS : cur (step fire s) = Some (t, BHook h ev todo sb)) by (unfold Loop_Model.step; rewrite Hc; reflexivity). destruct Q2 as [Q2|Q2].
        -- injection Q2 as -> ->. right; left. assert (T : turn (step fire s) p o) by (exists t, todo, sb; exact HS). split; [|eauto]. exists (step fire s). split; [now apply steps_step|]. split; [apply steps_refl|exact T].
        -- left. split; [apply N; discriminate|]. rewrite HS. exact Q2.
    + apply NN; [apply N; discriminate|]; intros t' b' _ Hn. cbn [nextb] in Hn. subst b'. apply NB.
    + apply NN; [apply N; discriminate|]; intros t' b' _ Hn. destruct r as [v|e]; cbn [nextb] in Hn; [destruct Hn as [r [_ ->]]|subst b']; apply NB.
    + apply NN; [apply N; discriminate|]; intros t' b' _ Hn. cbn [nextb] in Hn. subst b'. exact I.
    + apply NN; [apply N; discriminate|]; intros t' b' _ Hn. destruct p0; cbn [nextb] in Hn; try contradiction; destruct Hn as [r [_ ->]]; exact I.
  - pose proof (called_step fire s Q1) as CA. destruct q as [v|e|o' kk].
    + right; right; left. split; auto. intros e ->. rewrite (ran_step shuffle dut delayers), Q2. apply in_or_app. right. now left.
    + right; right; right. exists c. assert (CT : clock s = Some c) by (eapply clock_of; eauto; intros X; exact X). split; [now apply clock_step|]. pose proof (clock_lt s c _ W Q2). pose proof (futs_le fire s W).
      split; [lia|]. left. exists e. unfold Loop_Model.step. rewrite Q2. reflexivity.
    + right; left. split; auto. pose proof (g_cur _ _ _ G _ _ Q2) as [[_ X] _]. cbn [fst snd] in X. apply instant_inv in X as [X _].
      destruct (instant_cur s c o' (fun r => BHook (kk r) o todo sb) X) as [r E]. exists (kk r), c, todo, sb. unfold Loop_Model.step. rewrite Q2. exact E.
  - right; right; left. split; [now apply called_step|]. intros e He. apply (ran_mono shuffle dut delayers). auto.
  - right; right; right. now apply dead_step.
Qed.
Lemma reg_cycle s c : Wf s -> Clk1 s -> cycle_done s c -> Reg s -> called s /\ forall e, o = Some e -> In e (ran s).
Proof.
  intros W C1 Hd H. assert (X : exists cl, cur s = Some (c, BClk cl) /\ (cl = CStep false \/ cl = CCancel)) by (destruct Hd; eauto). destruct X as [cl [Hc CL]]. destruct H as [[_ Q]|[[_ [q [c' [todo [sb Q]]]]]|[Q|[c' [A [B C]]]]]]; [rewrite Hc in Q; destruct CL as [->| ->]; contradiction|congruence|exact Q|].
  exfalso. assert (X : clock s = Some c) by (eapply clock_of; eauto; intros X; exact X). assert (c' = c) by congruence. subst c'. destruct C as [[e C]|C]; [congruence|]. apply C.
  pose proof W as [I K]. destruct (cur_live _ I c _ Hc) as [cbs [k [mu E]]]. cbn [coreof snd] in E. unfold unfinished. rewrite live_iff. unfold islive. rewrite E. reflexivity.
Qed.
End Reg.
Lemma reg_first fire s0 p z d : forall t k W, wrap W -> cur s0 = Some (t, W (Op (OPrio p z d) k)) -> Reg s0 p z (if d then Some (List.length (evs s0)) else None) (step fire s0).
Proof.
  intros t k W HW Hc. left. rewrite (step_op shuffle dut delayers W fire s0 t _ _ HW Hc). unfold queued. destruct d; cbn; (split; [unfold add_priority_task; apply in_or_app; right; now left|]; destruct HW as [->| ->]; exact I).
Qed.
Theorem hook_punctual test m s0 p d fire s c : plain_hooks test -> steps (init test m) s0 -> registers s0 p d -> steps (step fire s0) s -> cycle_done s c ->
  let o := if d then Some (List.length (evs s0)) else None in (exists y, steps s0 y /\ steps y s /\ turn y p o) /\ forall e, o = Some e -> In e (ran s).
Proof.
  intros HP R0 [t [z [k Hr]]] R Hc o. assert (HW : exists W, wrap W /\ cur s0 = Some (t, W (Op (OPrio p z d) k))) by (destruct Hr as [Hr|Hr]; [exists BProg|exists BTest]; (split; [unfold wrap; auto|exact Hr])). destruct HW as [W [HW Hc0]].
  assert (X : forall x, steps (step fire s0) x -> Reg s0 p z o x).
  { intros x Rx. remember (step fire s0) as y eqn:E in Rx. induction Rx as [y|y s2 fi Rx IH]; [subst y; eapply reg_first; eauto|]. specialize (IH E). subst y.
    assert (R2 : steps (init test m) s2) by (eapply steps_trans; [apply steps_step; exact R0|exact Rx]). destruct (reach_pas test m s2 HP R2) as [W2 P2]. destruct (reach_nd shuffle dut delayers test m s2 R2) as [[_ C1] _].
    apply reg_step; auto. eapply steps_trans; [apply steps_step, steps_refl|exact Rx]. }
  assert (R1 : steps (init test m) s) by (eapply steps_trans; [apply steps_step; exact R0|exact R]). destruct (reach_pas test m s HP R1) as [W1 _]. destruct (reach_nd shuffle dut delayers test m s R1) as [[_ C1] _].
  exact (reg_cycle s0 p z o s c W1 C1 Hc (X s R)).
Qed.

(** * The event of a hook that has run stays set *)
Lemma priv_keep fire s e ev : nth_error (evs s) e = Some ev -> e_priv ev = true -> e_val ev = true -> e <> 0 -> exists ev', nth_error (evs (step fire s)) e = Some ev' /\ e_priv ev' = true /\ e_val ev' = true.
Proof.
  intros E P V N. rewrite (step_evs shuffle dut delayers).
  assert (ST : forall E0 x y, nth_error E0 e = Some y -> e_priv y = true -> e_val y = true -> exists y', nth_error (evset E0 x) e = Some y' /\ e_priv y' = true /\ e_val y' = true).
  { intros E0 x y A B C. unfold evset. destruct (nth_error E0 x) as [w|] eqn:D; [|eauto]. destruct (e_val w) eqn:Vw; [eauto|]. rewrite (put_nth_get _ _ _ _ e D). destruct (Nat.eqb_spec e x) as [->|]; [|eauto]. eexists. split; [reflexivity|]. split; [|reflexivity]. cbn. congruence. }
  assert (AP : forall x, exists y', nth_error (evs s ++ [x]) e = Some y' /\ e_priv y' = true /\ e_val y' = true) by (intros x; exists ev; split; auto; rewrite nth_error_app1; auto; apply nth_error_Some; congruence).
  assert (O : forall o, exists y', nth_error (evop s o) e = Some y' /\ e_priv y' = true /\ e_val y' = true).
  { intros o. destruct o as [f|m|fl| |p|f|f| |x|x|x| |q v|q|q| |h z [|]|l| |]; cbn [evop]; eauto.
    - destruct (nth_error (evs s) x) as [w|] eqn:D; [|eauto]. destruct (e_priv w); eauto.
    - destruct (nth_error (evs s) x) as [w|] eqn:D; [|eauto]. destruct (e_priv w) eqn:Pw; [eauto|]. unfold evclear. rewrite D, (put_nth_get _ _ _ _ e D). destruct (Nat.eqb_spec e x) as [->|]; [congruence|eauto].
    - destruct (nth_error (evs s) x) as [w|] eqn:D; [|eauto]. destruct (e_val w) eqn:Vw; [eauto|]. rewrite (put_nth_get _ _ _ _ e D). destruct (Nat.eqb_spec e x) as [->|]; [congruence|eauto]. }
  unfold evafter. destruct (cur s) as [[t b]|]; [|eauto]. destruct b as [[v|x|o kk]|[v|x|o kk] ev0 todo sb|c|x f r kk|q f [v|x] kk|test|[v|x|o kk]]; eauto.
  - destruct ev0; eauto.
  - destruct c; eauto. destruct (ST (evs s) 0 ev E P V) as [y [Y1 [Y2 Y3]]]. unfold evclear. destruct (nth_error (evset (evs s) 0) 0) as [w|] eqn:D; [|eauto]. rewrite (put_nth_get _ _ _ _ e D). destruct (Nat.eqb_spec e 0); [contradiction|eauto].
  - destruct (nth_error (evs s) x) as [w|] eqn:D; [|eauto]. rewrite (put_nth_get _ _ _ _ e D). destruct (Nat.eqb_spec e x) as [->|]; [|eauto]. eexists. split; [reflexivity|]. cbn. split; congruence.
  - destruct (clock s); eauto.
Qed.
Definition Rset e s : Prop := private s e /\ (In e (ran s) -> exists ev, nth_error (evs s) e = Some ev /\ e_priv ev = true /\ e_val ev = true).
Lemma rset_step fire e s : Rset e s -> Rset e (step fire s).
Proof.
  intros [P H]. split; [now apply private_step|]. intros Hi. pose proof P as [N [ev [E1 E2]]]. rewrite (ran_step shuffle dut delayers) in Hi. apply in_app_or in Hi as [Hi|Hi].
  - destruct (H Hi) as [w [A [B C]]]. eapply priv_keep; eauto.
  - rewrite (step_evs shuffle dut delayers). unfold evafter. destruct (cur s) as [[t [p|[v|x|o k] [e0|] todo sb|c|x f r k|q f r k|test|p]]|]; try contradiction. destruct Hi as [->|[]].
    unfold evset. rewrite E1. destruct (e_val ev) eqn:V; [eauto|]. rewrite (put_nth_get _ _ _ _ e E1), Nat.eqb_refl. eexists. split; [reflexivity|]. auto.
Qed.
Lemma reg_set test m s0 t p z k W fire s : wrap W -> steps (init test m) s0 -> cur s0 = Some (t, W (Op (OPrio p z true) k)) -> steps (step fire s0) s -> Rset (List.length (evs s0)) s.
Proof.
  intros HW R0 Hc R. remember (step fire s0) as y eqn:E in R. induction R as [y|y s2 fi R IH]; [subst y|apply rset_step; auto].
  split; [eapply reg_private; eauto|]. intros Hi. exfalso. rewrite (ran_step shuffle dut delayers), Hc in Hi. destruct (ran_once shuffle dut delayers test m s0 R0) as [_ X].
  apply in_app_or in Hi as [Hi|Hi]; [specialize (X _ Hi); lia|]. destruct HW as [->| ->]; exact Hi.
Qed.
(** The task of a gather that waits for the event of a hook (the first half of [wait_child]). *)
Lemma wait_waiting test m s0 e fire s : steps (init test m) s0 -> current_op s0 = Some (OCreate (event_wait e)) -> private s0 e -> steps (step fire s0) s -> Waiting e (List.length (futs s0)) s.
Proof.
  intros R0 Ho Pr R. assert (W0 : Waiting e (List.length (futs s0)) (step fire s0)).
  { left. destruct (reach_linked _ _ _ _ _ _ R0) as [WF _]. assert (X : exists t b, cur s0 = Some (t, b) /\ exists kk, step fire s0 = exec_op s0 t (OCreate (event_wait e)) kk).
    { unfold current_op in Ho. destruct (cur s0) as [[t b]|] eqn:Hc; [|discriminate]. exists t, b. split; auto. unfold Loop_Model.step. rewrite Hc.
      destruct b as [[v0|x|o kk]|[v0|x|o kk] ev todo sb|c|x g r kk|q g r kk|test0|[v0|x|o kk]]; try discriminate; injection Ho as ->; cbn [exec_body]; eauto. }
    destruct X as [t [b [Hc [kk HS]]]]. destruct (cur_task s0 t b WF Hc) as [cbs [k [w [mu Et]]]]. assert (t < List.length (futs s0)) by (apply nth_error_Some; unfold fget in Et; congruence).
    rewrite HS. split; [intros b0 X; cbn in X; injection X as X _; lia|]. exists [], false. cbn. rewrite nth_error_app2, Nat.sub_diag by lia. reflexivity. }
  assert (P0 : private (step fire s0) e) by now apply private_step.
  remember (step fire s0) as y eqn:Q in R. induction R as [y|y s2 fi R IH]; [subst; exact W0|]. subst y. specialize (IH eq_refl).
  assert (R2 : steps (init test m) s2) by (eapply steps_trans; [apply steps_step; exact R0|exact R]). apply waiting_step; auto; [now destruct (reach_linked _ _ _ _ _ _ R2)|eapply reach_ran; eauto|eapply private_steps; eauto].
Qed.
End Hook.
