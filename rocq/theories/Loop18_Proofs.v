(** A registered hook: it is called before a wait for it returns, and at most once. *)
From Coq Require Import List Bool Arith ZArith Lia.
From Verif Require Import Py Prio_Model Loop_Model Loop_Spec Loop2_Spec LoopProg_Model Loop_Proofs Loop2_Proofs Loop3_Proofs Loop4_Proofs Loop7_Proofs Loop8_Proofs Loop9_Proofs Loop10_Proofs Loop13_Proofs Loop14_Proofs Loop15_Proofs Loop17_Proofs.
Import ListNotations.
Open Scope nat_scope.

Section Reg.
Context {mem : Type}.
Notation prog := (@prog mem). Notation state := (@state mem). Notation body := (@body mem). Notation task := (@task mem).
Notation fut := (@fut mem). Notation kind := (@kind mem).
Implicit Types (s : state).
Context (shuffle : list id -> list id) (dut delayers : mem -> mem).
Notation step := (step shuffle dut delayers). Notation steps := (steps shuffle dut delayers).

(** * Registration *)
Lemma ph_J e p s0 n R P s b : n <= e -> ph n R P b -> J shuffle dut delayers e p s0 s b.
Proof.
  intros L. induction b as [q|q ev todo sb|c|x f r k IH|q f r k IH|test|q]; cbn [ph J]; auto.
  - intros [_ H]. rewrite !Forall_app in H. destruct H as [_ [H1 H2]]. split.
    + intros ->. simpl in H1. inversion H1; subst. lia.
    + intros y Hy Hs. exfalso. rewrite Forall_forall in H2. assert (X : In e (tev todo)) by (apply in_flat_map; exists y; split; auto; rewrite Hs; now left). specialize (H2 _ X). lia.
  - destruct c as [| | |todo sb| | | |]; auto. intros [_ H]. rewrite !Forall_app in H. destruct H as [_ H2]. intros y Hy Hs. exfalso. rewrite Forall_forall in H2.
    assert (X : In e (tev todo)) by (apply in_flat_map; exists y; split; auto; rewrite Hs; now left). specialize (H2 _ X). lia.
Qed.
Lemma J_wrap W e p s0 s q : wrap W -> J shuffle dut delayers e p s0 s (W q). Proof. intros [->| ->]; exact I. Qed.
Lemma reg_pend W s0 t p z k fire : wrap W -> All s0 -> Nd s0 -> cur s0 = Some (t, W (Op (OPrio p z true) k)) -> Pend shuffle dut delayers (List.length (evs s0)) p s0 (step fire s0).
Proof.
  intros HW A N Hc. pose proof A as [E C]. pose proof (v_wf _ E) as WF. set (e := List.length (evs s0)).
  assert (HS := step_op shuffle dut delayers W fire s0 t _ _ HW Hc). destruct N as [N1 N2 _ N4 N5].
  assert (CI : CInv (J shuffle dut delayers e p s0) s0).
  { split.
    - eapply linked_imp; [|exact N4]. intros t0 cbs k0 w m _ _ X r. eapply ph_J; [|apply X]. unfold e. lia.
    - intros t0 b X. eapply ph_J; [|eapply N5; eauto]. unfold e. lia. }
  constructor.
  - apply (cinv_step shuffle dut delayers (J shuffle dut delayers e p s0)); auto.
    + intros. now apply J_noclk.
    + intros; reflexivity.
    + intros; reflexivity.
    + intros b. apply J_step.
    + intros t0 b Hc0 _. rewrite Hc in Hc0. injection Hc0 as <- <-. destruct HW as [->| ->]; exact I.
    + intros t0 b Hc0 Hs. exact I.
    + intros t0 b b' Hc0 _ Hn. rewrite Hc in Hc0. injection Hc0 as <- <-. destruct HW as [->| ->]; destruct Hn as [r [_ ->]]; exact I.
  - intros x Hx Hd. rewrite HS in Hx. cbn [exec_op prio go set_cur set_prio set_evs add_priority_task] in Hx. unfold add_priority_task in Hx. apply in_app_iff in Hx as [Hx|[<-|[]]]; auto.
    exfalso. rewrite Forall_forall in N2. assert (X : In e (evp (prio s0))) by (apply in_flat_map; exists x; split; auto; rewrite Hd; now left). specialize (N2 _ X). unfold e in N2. lia.
  - rewrite (ran_step shuffle dut delayers). rewrite Hc. intros Hin. exfalso. assert (X : In e (ran s0)) by (apply in_app_iff in Hin as [X|X]; auto; destruct HW as [->| ->]; contradiction).
    destruct N1 as [_ N1]. rewrite Forall_forall in N1. specialize (N1 _ X). unfold e in N1. lia.
  - rewrite HS. cbn [exec_op evs go set_cur set_prio set_evs]. rewrite app_length. simpl. unfold e. lia.
Qed.
(** A hook that has been run was called with the coroutine registered. *)
Lemma hook_begun W test m s0 t p z k fire s1 : wrap W -> steps (init test m) s0 -> cur s0 = Some (t, W (Op (OPrio p z true) k)) -> steps (step fire s0) s1 -> In (List.length (evs s0)) (ran s1) ->
  exists x, steps s0 x /\ steps x s1 /\ begins (List.length (evs s0)) p x.
Proof.
  intros HW R0 Hc R Hin. destruct (reach_nd shuffle dut delayers test m s0 R0) as [A N]. pose proof (reg_pend W s0 t p z k fire HW A N Hc) as P.
  set (e := List.length (evs s0)) in *. assert (X : forall s, steps (step fire s0) s -> Pend shuffle dut delayers e p s0 s).
  { clear R Hin. intros s Rs. remember (step fire s0) as s0' eqn:Q in Rs. induction Rs as [y|y s2 fi Rs IH]; [subst; exact P|]. subst y. specialize (IH eq_refl).
    assert (R2 : steps s0 s2) by (eapply steps_trans; [apply steps_step, steps_refl|exact Rs]). destruct (steps_all shuffle dut delayers s0 s2 A R2) as [E1 C1]. apply pend_step; auto. apply (v_wf _ E1). }
  apply (pe_ran _ _ _ _ _ _ _ (X s1 R)). exact Hin.
Qed.

(** * Its event *)
Definition private s e : Prop := e <> 0 /\ exists ev, nth_error (evs s) e = Some ev /\ e_priv ev = true.
Lemma private_step fire s e : private s e -> private (step fire s) e.
Proof.
  intros [Hn [ev [E P]]]. split; auto. assert (L : e < List.length (evs s)) by (apply nth_error_Some; congruence). pose proof (len_evs shuffle dut delayers fire s).
  destruct (nth_error (evs (step fire s)) e) as [ev'|] eqn:E'; [|apply nth_error_None in E'; lia]. exists ev'. split; auto.
  destruct (step_ev shuffle dut delayers fire s e ev' E') as [[ev0 [E0 [P0 _]]]|[X _]]; [congruence|lia].
Qed.
Lemma private_steps s s' e : private s e -> steps s s' -> private s' e.
Proof. intros P R. induction R; auto. apply private_step; auto. Qed.
Lemma reg_private W test m s0 t p z k fire : wrap W -> steps (init test m) s0 -> cur s0 = Some (t, W (Op (OPrio p z true) k)) -> private (step fire s0) (List.length (evs s0)).
Proof.
  intros HW R0 Hc. destruct (v_zero _ (reach_evi shuffle dut delayers test m s0 R0)) as [ws Z]. split; [intros X; destruct (evs s0); discriminate|].
  rewrite (step_op shuffle dut delayers W fire s0 t _ _ HW Hc). cbn [exec_op evs go set_cur set_prio set_evs]. rewrite nth_error_app2, Nat.sub_diag by lia. exists (mk_event false [] true). split; reflexivity.
Qed.

(** * A task that waits for the event *)
Definition after_wait (r : res lval) : body := BProg (thenv (fun _ => Let (OFlag true) (fun _ => Ret VNone)) r).
Definition Waiting e i s : Prop :=
  Susp i (start (BProg (event_wait e))) None s \/
  cur s = Some (i, BProg (event_wait e)) \/
  (exists f fu, Susp i (fun r => BEv e f r after_wait) (Some f) s /\ nth_error (futs s) f = Some fu /\ f_kind fu = KEv e) \/
  (exists f r, cur s = Some (i, BEv e f r after_wait) /\ forall v, r = Ok v -> In e (ran s)) \/
  (cur s = Some (i, after_wait (Ok (VBool true))) /\ In e (ran s)) \/
  (cur s = Some (i, BProg (Ret VNone)) /\ In e (ran s)) \/
  (exists x, cur s = Some (i, BProg (Raise x))) \/
  (exists st, state_of s i = Some st /\ st <> Pending /\ forall v, st = Finished (Ok v) -> In e (ran s)).
Lemma finish_state s i r cbs k w mu : fget s i = Some (mkt Pending cbs k w mu) -> exists st, state_of (finish s i r) i = Some st /\ st <> Pending /\ forall v, st = Finished (Ok v) -> r = Ok v.
Proof.
  intros E. unfold finish, state_of, conclude. unfold tget. rewrite E. unfold mkt. cbn [k_must pending f_st f_kind f_cbs]. set (st := match r with Ok v => _ | Exn e => _ end).
  exists st. split; [|split].
  - unfold fget. cbn [futs set_cur push set_ready fput set_futs]. unfold fget in E. rewrite (put_nth_get _ _ _ _ i E), Nat.eqb_refl. reflexivity.
  - unfold st. destruct r as [v|[]]; try discriminate. destruct mu; discriminate.
  - intros v. unfold st. destruct r as [v0|[]]; try discriminate. destruct mu; [discriminate|]. congruence.
Qed.
Lemma ran_mono fire s e : In e (ran s) -> In e (ran (step fire s)).
Proof. intros H. rewrite (ran_step shuffle dut delayers). apply in_or_app. now left. Qed.
Lemma waiting_step fire e i s : Wf s -> Ran s -> private s e -> Waiting e i s -> Waiting e i (step fire s).
Proof.
  intros WF R [Hn [ev [Ee Pe]]] H. unfold Waiting. destruct H as [H|[H|[[f [fu [H [E K]]]]|[[f [r [H X]]]|[[H X]|[[H X]|[[x H]|[st [H [X1 X2]]]]]]]]]].
  - destruct (susp_step shuffle dut delayers fire i _ _ s WF H) as [Y|[r [Y [Z _]]]]; [now left|]. destruct r as [v|x]; [right; left; exact Y|]. do 6 right. left. exists x. exact Y.
  - assert (HS : step fire s = exec_op s i (OEvWait e) after_wait) by (unfold Loop_Model.step; rewrite H; reflexivity). destruct (cur_task s i _ WF H) as [cbs [k [w [m Et]]]].
    destruct (e_val ev) eqn:V.
    + do 4 right. left. split; [rewrite HS; unfold exec_op; rewrite Ee, V; reflexivity|]. apply ran_mono. eapply (r_set _ R); eauto.
    + right; right; left. destruct (evwait_new s i e after_wait _ _ _ _ _ Et Ee V) as [cbs' N]. rewrite <- HS in N. assert (SU : Susp i (fun r => BEv e (List.length (futs s)) r after_wait) (Some (List.length (futs s))) (step fire s)).
      { rewrite HS. unfold exec_op. rewrite Ee, V. eapply suspend_susp.
        - unfold fget. cbn [futs eput set_evs falloc set_futs]. rewrite nth_error_app1; [exact Et|]. apply nth_error_Some. unfold fget in Et. congruence.
        - assert (i < List.length (futs s)) by (apply nth_error_Some; unfold fget in Et; congruence). lia. }
      destruct N as [N|N]; eexists _, _; (split; [exact SU|]); (split; [exact N|reflexivity]).
  - destruct (susp_step shuffle dut delayers fire i _ _ s WF H) as [Y|[r [Y [Z _]]]].
    + right; right; left. destruct (step_fext shuffle dut delayers fire s WF f fu E) as [fu' [E' [K' _]]]. exists f, fu'. split; [exact Y|]. split; [exact E'|]. rewrite K in K'. destruct (f_kind fu'); simpl in K'; try contradiction. now subst.
    + do 3 right. left. exists f, r. split; [exact Y|]. intros v ->. apply ran_mono. destruct Z as [[Z _]|[st [Z1 [Z2 Z3]]]]; [discriminate|]. unfold state_of, fget in Z1. rewrite E in Z1. injection Z1 as <-.
      destruct (f_st fu) as [|r|] eqn:St; try discriminate. eapply (r_fut _ R f fu e); eauto.
  - assert (HC : cur (step fire s) = Some (i, after_wait (match r with Ok _ => Ok (VBool true) | Exn x => Exn x end))) by (unfold Loop_Model.step; rewrite H; cbn [exec_body]; destruct (nth_error (evs s) e); reflexivity).
    destruct r as [v|x]; [do 4 right; left; split; auto; apply ran_mono; eauto|]. do 6 right. left. exists x. exact HC.
  - do 5 right. left. split; [unfold Loop_Model.step; rewrite H; reflexivity|]. now apply ran_mono.
  - do 7 right. destruct (cur_task s i _ WF H) as [cbs [k [w [m Et]]]]. destruct (finish_state s i (Ok VNone) _ _ _ _ Et) as [st [A [B C]]].
    assert (HS : step fire s = finish s i (Ok VNone)) by (unfold Loop_Model.step; rewrite H; reflexivity). exists st. split; [rewrite HS; exact A|]. split; auto. intros; now apply ran_mono.
  - do 7 right. destruct (cur_task s i _ WF H) as [cbs [k [w [m Et]]]]. destruct (finish_state s i (Exn x) _ _ _ _ Et) as [st [A [B C]]].
    assert (HS : step fire s = finish s i (Exn x)) by (unfold Loop_Model.step; rewrite H; reflexivity). exists st. split; [rewrite HS; exact A|]. split; auto. intros v ->. specialize (C v eq_refl). discriminate.
  - do 7 right. exists st. split; [|split; auto]; [|intros; apply ran_mono; eauto]. eapply (state_of_done shuffle dut delayers s); eauto. apply steps_step, steps_refl.
Qed.
(** A task created to wait for the event of a hook returns only after the hook has run. *)
Lemma wait_child test m s0 e i fire s1 v : steps (init test m) s0 -> current_op s0 = Some (OCreate (event_wait e)) -> i = List.length (futs s0) -> private s0 e -> steps (step fire s0) s1 -> returned s1 i v -> In e (ran s1).
Proof.
  intros R0 Ho -> Pr R Ret. assert (W0 : Waiting e (List.length (futs s0)) (step fire s0)).
  { left. destruct (reach_linked _ _ _ _ _ _ R0) as [WF _]. assert (X : exists t b, cur s0 = Some (t, b) /\ exists kk, step fire s0 = exec_op s0 t (OCreate (event_wait e)) kk).
    { unfold current_op in Ho. destruct (cur s0) as [[t b]|] eqn:Hc; [|discriminate]. exists t, b. split; auto. unfold Loop_Model.step. rewrite Hc.
      destruct b as [[v0|x|o kk]|[v0|x|o kk] ev todo sb|c|x g r kk|q g r kk|test0|[v0|x|o kk]]; try discriminate; injection Ho as ->; cbn [exec_body]; eauto. }
    destruct X as [t [b [Hc [kk HS]]]]. destruct (cur_task s0 t b WF Hc) as [cbs [k [w [mu Et]]]]. assert (t < List.length (futs s0)) by (apply nth_error_Some; unfold fget in Et; congruence).
    rewrite HS. split; [intros b0 X; cbn in X; injection X as X _; lia|]. exists [], false. cbn. rewrite nth_error_app2, Nat.sub_diag by lia. reflexivity. }
  assert (P0 : private (step fire s0) e) by now apply private_step.
  assert (X : forall s, steps (step fire s0) s -> Waiting e (List.length (futs s0)) s).
  { intros s Rs. remember (step fire s0) as y eqn:Q in Rs. induction Rs as [y|y s2 fi Rs IH]; [subst; exact W0|]. subst y. specialize (IH eq_refl).
    assert (R2 : steps (init test m) s2) by (eapply steps_trans; [apply steps_step; exact R0|exact Rs]). apply waiting_step; auto; [now destruct (reach_linked _ _ _ _ _ _ R2)|eapply reach_ran; eauto|eapply private_steps; eauto]. }
  assert (R1 : steps (init test m) s1) by (eapply steps_trans; [apply steps_step; exact R0|exact R]). destruct (reach_linked _ _ _ _ _ _ R1) as [WF _].
  assert (NL : forall b, cur s1 <> Some (List.length (futs s0), b)).
  { intros b Hc. destruct (cur_task s1 _ b WF Hc) as [cbs [k [w [mu Et]]]]. unfold returned, state_of in Ret. rewrite Et in Ret. discriminate. }
  assert (NS : forall k w, ~ Susp (List.length (futs s0)) k w s1) by (intros k w [_ [cbs [mu Et]]]; unfold returned, state_of, fget in Ret; rewrite Et in Ret; discriminate).
  destruct (X s1 R) as [H|[H|[[f [fu [H _]]]|[[f [r [H _]]]|[[H _]|[[H _]|[[x H]|[st [H [X1 X2]]]]]]]]]]; try (now apply NL in H); try (now apply NS in H).
  unfold returned in Ret. rewrite Ret in H. injection H as <-. now apply (X2 v).
Qed.

(** * A hook of one operation is called at most once *)
Definition isend (q : prog) : Prop := match q with Op _ _ => False | _ => True end.
Section Twice.
Context (e : id).
Fixpoint Con s (b : body) : Prop :=
  match b with
  | BHook q ev _ _ => In e (ran s) \/ (ev = Some e /\ isend q)
  | BClk _ => In e (ran s)
  | BEv _ _ _ k | BGet _ _ _ k => forall r, Con s (k r)
  | _ => True
  end.
Lemma Con_step fire s b : Con s b -> Con (step fire s) b.
Proof. induction b as [q|q ev todo sb|c|x f r k IH|q f r k IH|test|q]; cbn [Con]; auto using ran_mono. intros [A|A]; auto using ran_mono. Qed.
Lemma Con_noclk s b : noclkb b -> Con s b.
Proof. induction b as [q|q ev todo sb|[]|x f r k IH|q f r k IH|test|q]; cbn [Con noclkb]; auto; contradiction. Qed.
Lemma con_inv_step fire s : Wf s -> Clk1 s -> clock s <> None -> CInv Con s -> CInv Con (step fire s).
Proof.
  intros W C Cl A. apply (cinv_step shuffle dut delayers Con); auto.
  - exact Con_noclk.
  - intros; reflexivity.
  - intros; reflexivity.
  - intros b. apply Con_step.
  - intros t b Hc _. pose proof (proj2 A _ _ Hc) as HB. destruct b as [q|[v|x|o kk] ev todo sb|[]|x g r kk|q g r kk|test|q]; cbn [stored Con] in *; auto using ran_mono.
    intros r. destruct HB as [HB|[_ []]]. left. now apply ran_mono.
  - intros t b Hc X. exfalso. destruct b as [[v|x|[] kk]|[v|x|[] kk] ev todo sb|c|x g r kk|q g r kk|test|[v|x|[] kk]]; simpl in X; contradiction.
  - intros t b b' Hc _ Hn. pose proof (proj2 A _ _ Hc) as HB. destruct b as [[v|x|o kk]|[v|x|o kk] ev todo sb|c|x f r kk|q f [v|x] kk|test|[v|x|o kk]]; cbn [nextb Con] in Hn, HB; try contradiction; try (subst b'; exact I).
    + destruct Hn as [r [_ ->]]. exact I.
    + subst b'. cbn [Con]. destruct HB as [HB|[-> _]]; [now apply ran_mono|]. rewrite (ran_step shuffle dut delayers), Hc. apply in_or_app. right. now left.
    + destruct Hn as [r [_ ->]]. cbn [Con]. destruct HB as [HB|[_ []]]. left. now apply ran_mono.
    + destruct c as [| | |[|[h ev] todo] sb| | | |last]; try contradiction.
      * subst b'. now apply ran_mono.
      * destruct Hn as [->|[_ [_ ->]]]; now apply ran_mono.
      * subst b'. destruct sb; now apply ran_mono.
      * subst b'. left. now apply ran_mono.
      * subst b'. now apply ran_mono.
      * subst b'. now apply ran_mono.
    + subst b'. apply Con_step, HB.
    + destruct Hn as [r [_ ->]]. apply Con_step, HB.
    + subst b'. apply Con_step, HB.
    + destruct Hn as [r [_ ->]]. exact I.
    + destruct Hn as [r [_ ->]]. exact I.
Qed.
End Twice.
Lemma hook_twice test m s e f k c todo sb fire s1 q c1 todo1 sb1 : steps (init test m) s -> (forall r, isend (k r)) -> cur s = Some (c, BHook (Op (OMem f) k) (Some e) todo sb) -> steps (step fire s) s1 ->
  cur s1 = Some (c1, BHook q (Some e) todo1 sb1) -> isend q.
Proof.
  intros R0 He Hc R Hc1. assert (R1 : steps (init test m) (step fire s)) by now apply steps_step. destruct (reach_nd shuffle dut delayers test m s R0) as [[E C] _]. destruct (reach_nd shuffle dut delayers test m _ R1) as [[E1 C1] N1].
  assert (Cl : clock s = Some c) by (eapply clock_of; eauto). assert (Cl1 : clock (step fire s) = Some c) by now apply clock_step.
  assert (HB : exists r, cur (step fire s) = Some (c, BHook (k r) (Some e) todo sb)) by (unfold Loop_Model.step; rewrite Hc; cbn [exec_body exec_op]; destruct (f (mm s)) as [mx r]; exists r; reflexivity).
  destruct HB as [r HB]. assert (CI : CInv (Con e) (step fire s)).
  { split.
    - eapply linked_imp; [|exact (nd_linked _ N1)]. cbn [coreof fst snd]. intros t cbs k0 w mu Et Hb _ r0. apply Con_noclk. assert (Hn : clock (step fire s) <> Some t) by (rewrite Cl1; intros X; injection X as ->; eapply Hb; eauto).
      destruct (C1 t Hn) as [_ X]. exact (X _ _ _ _ _ Et r0).
    - intros t b X. rewrite HB in X. injection X as <- <-. right. auto. }
  assert (X : forall s', steps (step fire s) s' -> CInv (Con e) s').
  { clear R Hc1. intros s' R. remember (step fire s) as y eqn:Q in R. induction R as [y|y s2 fi Rs IH]; [subst; exact CI|]. subst y. specialize (IH eq_refl).
    assert (R2 : steps (init test m) s2) by (eapply steps_trans; [exact R1|exact Rs]). destruct (reach_nd shuffle dut delayers test m s2 R2) as [[E2 C2] _]. apply con_inv_step; auto; [apply (v_wf _ E2)|].
    assert (Q : clock s2 = Some c); [|congruence]. clear - Rs Cl1. remember (step fire s) as y. induction Rs; auto. apply clock_step; auto. }
  destruct (proj2 (X s1 R) _ _ Hc1) as [Y|[_ Y]]; auto. exfalso. assert (R3 : steps (init test m) s1) by (eapply steps_trans; [exact R1|exact R]). destruct (reach_nd shuffle dut delayers test m s1 R3) as [_ N3].
  pose proof (nd_cur _ N3 _ _ Hc1) as Z. cbn [ph] in Z. destruct Z as [Z _]. cbn [oev app] in Z. apply NoDup_remove_2 in Z. apply Z. apply in_or_app. now left.
Qed.
End Reg.
