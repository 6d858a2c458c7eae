(** Waiting for an event that is not set: the wait returns only after somebody has set it. *)
From Coq Require Import List Bool Arith ZArith Lia.
From Verif Require Import Py Prio_Model Loop_Model Loop_Spec Loop2_Spec LoopProg_Model Loop_Proofs Loop2_Proofs Loop3_Proofs Loop4_Proofs Loop5_Proofs Loop7_Proofs Loop8_Proofs Loop9_Proofs Loop10_Proofs Loop13_Proofs Loop14_Proofs Loop15_Proofs Loop17_Proofs Loop18_Proofs.
Import ListNotations.
Open Scope nat_scope.

Section Ev.
Context {mem : Type}.
Notation prog := (@prog mem). Notation state := (@state mem). Notation body := (@body mem). Notation task := (@task mem).
Notation fut := (@fut mem). Notation kind := (@kind mem).
Implicit Types (s : state).
Context (shuffle : list id -> list id) (dut delayers : mem -> mem).
Notation step := (step shuffle dut delayers). Notation steps := (steps shuffle dut delayers).

(** * The events of hooks are private *)
Definition pev s (ev : option id) : Prop := match ev with Some e => private s e | None => True end.
Fixpoint hpb s (b : body) : Prop :=
  match b with
  | BHook _ ev todo _ => pev s ev /\ Forall (fun x => pev s (snd x)) todo
  | BClk (CPass todo _) => Forall (fun x => pev s (snd x)) todo
  | BEv _ _ _ k | BGet _ _ _ k => forall r, hpb s (k r)
  | _ => True
  end.
Record Hpriv s : Prop := mk_hpriv { hp_inv : CInv hpb s; hp_prio : Forall (fun p => pev s (pt_done p)) (prio s) }.
Lemma pev_step fire s ev : pev s ev -> pev (step fire s) ev. Proof. destruct ev; simpl; auto. apply private_step. Qed.
Lemma hpb_step fire s b : hpb s b -> hpb (step fire s) b.
Proof.
  assert (T : forall todo : list (prog * option id), Forall (fun x => pev s (snd x)) todo -> Forall (fun x => pev (step fire s) (snd x)) todo) by (intros todo; apply Forall_impl; intros x; apply pev_step).
  induction b as [q|q ev todo sb|c|x f r k IH|q f r k IH|test|q]; cbn [hpb]; auto; [intros [A B]; split; auto; now apply pev_step|]. destruct c; auto.
Qed.
Lemma hpb_noclk s b : noclkb b -> hpb s b.
Proof. induction b as [q|q ev todo sb|[]|x f r k IH|q f r k IH|test|q]; cbn [hpb noclkb]; auto; contradiction. Qed.
Lemma hpriv_step fire s : Wf s -> Clk1 s -> evs s <> [] -> Hpriv s -> Hpriv (step fire s).
Proof.
  intros W C NE [A B]. assert (T : forall todo : list (prog * option id), Forall (fun x => pev s (snd x)) todo -> Forall (fun x => pev (step fire s) (snd x)) todo) by (intros todo; apply Forall_impl; intros x; apply pev_step).
  constructor.
  - apply (cinv_step shuffle dut delayers hpb); auto.
    + exact hpb_noclk.
    + intros; reflexivity.
    + intros; reflexivity.
    + intros b. apply hpb_step.
    + intros t b Hc _. pose proof (proj2 A _ _ Hc) as HB. destruct b as [q|[v|x|o kk] ev todo sb|[]|x g r kk|q g r kk|test|q]; cbn [stored hpb] in *; auto. intros r. destruct HB. split; [now apply pev_step|auto].
    + intros t b Hc _. exact I.
    + intros t b b' Hc _ Hn. pose proof (proj2 A _ _ Hc) as HB. destruct b as [[v|x|o kk]|[v|x|o kk] ev todo sb|c|x f r kk|q f [v|x] kk|test|[v|x|o kk]]; cbn [nextb hpb] in Hn, HB; try contradiction; try (subst b'; exact I).
      * destruct Hn as [r [_ ->]]. exact I.
      * subst b'. cbn [hpb]. apply T, HB.
      * destruct Hn as [r [_ ->]]. cbn [hpb]. destruct HB. split; [now apply pev_step|auto].
      * destruct c as [| | |[|[h ev] todo] sb| | | |last]; try contradiction; try (subst b'; exact I).
        -- destruct Hn as [->|[_ [_ ->]]]; [exact I|]. cbn [hpb]. apply T. rewrite Forall_forall in *. intros y Hy. apply in_map_iff in Hy as [z [<- Hz]]. cbn [snd]. apply B. now apply sorted_In.
        -- subst b'. destruct sb; exact I.
        -- subst b'. cbn [hpb]. apply Forall_cons_iff in HB as [HB1 HB2]. split; [now apply pev_step|auto].
        -- subst b'. destruct (tdone s) as [[|]|]; exact I.
      * subst b'. apply hpb_step, HB.
      * destruct Hn as [r [_ ->]]. apply hpb_step, HB.
      * subst b'. apply hpb_step, HB.
      * destruct Hn as [r [_ ->]]. exact I.
      * destruct Hn as [r [_ ->]]. exact I.
  - assert (B1 : Forall (fun p => pev (step fire s) (pt_done p)) (prio s)) by (eapply Forall_impl; [|exact B]; intros; now apply pev_step).
    rewrite Forall_forall. intros x Hx. destruct (prio_in shuffle dut delayers fire s x Hx) as [H|[H|H]]; [rewrite Forall_forall in B1; auto|rewrite H; exact I|].
    rewrite H. simpl. split; [destruct (evs s); [congruence|simpl; lia]|].
    destruct (cur s) as [[t b]|] eqn:Hc.
    + assert (PR := fr_prio _ _ (step_fr shuffle dut delayers fire s)). unfold seff in PR. rewrite Hc in PR.
      assert (NI : ~ In x (prio s)) by (intros Y; rewrite Forall_forall in B; specialize (B _ Y); rewrite H in B; destruct B as [_ [ev [B _]]]; assert (Z : List.length (evs s) < List.length (evs s)) by (apply nth_error_Some; congruence); lia).
      assert (OP : forall o k, step fire s = exec_op s t o k -> prio (step fire s) = prio (oeff s t o) -> exists ev, nth_error (evs (step fire s)) (List.length (evs s)) = Some ev /\ e_priv ev = true).
      { intros o k HS HP. rewrite HP, oeff_prio in Hx. destruct o as [f|m|fl| |p0|f|f| |e0|e0|e0| |q v|q|q| |h z [|]|l| |]; try contradiction.
        - exists (mk_event false [] true). rewrite HS. cbn. rewrite nth_error_app2, Nat.sub_diag by lia. split; reflexivity.
        - apply in_app_iff in Hx as [Hx|[<-|[]]]; [contradiction|discriminate]. }
      assert (HS : step fire s = exec_body shuffle dut delayers s t b) by (unfold Loop_Model.step; now rewrite Hc).
      destruct b as [[v|y|o kk]|[v|y|o kk] [ev|] todo sb|[| | |[]| | | |]|y g r kk|q g [v|y] kk|test|[v|y|o kk]]; try (rewrite PR in Hx; contradiction); try (eapply OP; [exact HS|exact PR]).
    + exfalso. assert (PR := fr_prio _ _ (step_fr shuffle dut delayers fire s)). unfold seff in PR. rewrite Hc in PR. rewrite PR in Hx. rewrite Forall_forall in B. specialize (B _ Hx). rewrite H in B. destruct B as [_ [ev [B _]]].
      assert (Z : List.length (evs s) < List.length (evs s)) by (apply nth_error_Some; congruence). lia.
Qed.
Lemma reach_hpriv test m s : steps (init test m) s -> All s /\ Hpriv s.
Proof.
  intros R. apply (steps_ind_inv shuffle dut delayers (fun s => All s /\ Hpriv s) _ _) in R; auto.
  - intros fire s0 [A B]. split; [now apply step_all|]. destruct A as [E C]. apply hpriv_step; auto; [apply (v_wf _ E)|exact (h_evs _ (v_hev _ E))].
  - split; [apply (reach_all shuffle dut delayers test m); apply steps_refl|]. constructor; [|constructor]. split; [|intros t b X; discriminate].
    intros t cbs k w mu E Hb. destruct t as [|[|t]]; simpl in E; try discriminate. injection E as <- <- <- <-. intros [v|e]; exact I.
Qed.
Lemma sets_op test m s e ev : steps (init test m) s -> sets s = Some e -> e <> 0 -> nth_error (evs s) e = Some ev -> e_priv ev = false -> current_op s = Some (OEvSet e).
Proof.
  intros R H Hn E P. destruct (reach_hpriv test m s R) as [_ [A _]]. unfold sets in H. unfold current_op. destruct (cur s) as [[t b]|] eqn:Hc; [|discriminate]. pose proof (proj2 A _ _ Hc) as HB.
  assert (Q : forall o, opsets s o = Some e -> o = OEvSet e) by (intros o X; unfold opsets in X; destruct o; try discriminate; destruct (nth_error (evs s) e0) as [ev0|]; [|discriminate]; destruct (e_priv ev0); [discriminate|]; congruence).
  destruct b as [[v|x|o kk]|[v|x|o kk] evh todo sb|[]|x g r kk|q g [v|x] kk|test0|[v|x|o kk]]; try discriminate; try (f_equal; now apply Q); [|injection H as <-; contradiction].
  subst evh. cbn [hpb pev] in HB. destruct HB as [[_ [ev1 [E1 P1]]] _]. congruence.
Qed.

(** * Waiting *)
Definition was_set s0 s e : Prop := exists x, steps s0 x /\ steps x s /\ sets x = Some e.
Lemma was_set_step s0 fire s e : was_set s0 s e -> was_set s0 (step fire s) e. Proof. intros [x [A [B C]]]. exists x. split; auto. split; auto. now apply steps_step. Qed.
Definition was_cancelled s0 s t : Prop := exists x, steps s0 x /\ steps x s /\ ((exists tk, tget x t = Some tk /\ k_must tk = true) \/ exists f, state_of x f = Some Canc).
Lemma was_cancelled_step s0 fire s t : was_cancelled s0 s t -> was_cancelled s0 (step fire s) t. Proof. intros [x [A [B C]]]. exists x. split; auto. split; auto. now apply steps_step. Qed.
Definition InW s0 t e (kb : res lval -> body) s : Prop :=
  (exists f fu, Susp t (fun r => BEv e f r kb) (Some f) s /\ nth_error (futs s) f = Some fu /\ f_kind fu = KEv e /\ (forall r, f_st fu = Finished r -> was_set s0 s e /\ exists v, r = Ok v)) \/
  (exists f r, cur s = Some (t, BEv e f r kb) /\ (forall v, r = Ok v -> was_set s0 s e) /\ (forall x, r = Exn x -> x = CancelledError /\ was_cancelled s0 s t)).
Lemma inw_step fire s0 s t e kb : Wf s -> steps s0 s -> InW s0 t e kb s -> InW s0 t e kb (step fire s) \/ (cur (step fire s) = Some (t, kb (Ok (VBool true))) /\ was_set s0 (step fire s) e) \/ (cur (step fire s) = Some (t, kb (Exn CancelledError)) /\ was_cancelled s0 (step fire s) t).
Proof.
  intros WF R0 [[f [fu [S [E [K F]]]]]|[f [r [Hc [F G]]]]].
  - left. destruct (susp_step shuffle dut delayers fire t _ _ s WF S) as [Y|[r [Y [Z _]]]].
    + left. pose proof WF as [I0 K0]. assert (M := True_ms_kin shuffle dut delayers fire s I0 K0). assert (IN0 : inner (f_kind fu) = true) by (rewrite K; reflexivity).
      destruct (mstar_evolve _ _ f _ _ M fu E IN0) as [fu2 [E2 [K2 V2]]]. cbn [snd coreof] in E2. exists f, fu2. split; auto. split; auto. split; [congruence|]. intros r St. destruct V2 as [V2|[V2 [_ V3]]].
      * destruct (F r) as [F1 F2]; [congruence|]. split; auto. now apply was_set_step.
      * rewrite K, St in V3. destruct V3 as [[_ X]|[[_ X]|[X1 X2]]]; try discriminate. split; [|injection X2 as ->; eauto]. exists s. split; auto. split; [apply steps_step, steps_refl|]. exact X1.
    + right. exists f, r. split; auto. split.
      * intros v ->. destruct Z as [[Z _]|[st [Z1 [Z2 Z3]]]]; [discriminate|]. unfold state_of, fget in Z1. rewrite E in Z1. injection Z1 as <-. apply was_set_step.
        destruct (f_st fu) as [|r|] eqn:St; try discriminate. apply (F r). reflexivity.
      * intros x ->. destruct Z as [[Z1 Z2]|[st [Z1 [Z2 Z3]]]].
        -- split; [now injection Z1|]. exists s. split; auto. split; [apply steps_step, steps_refl|]. now left.
        -- assert (Z4 := Z1). unfold state_of, fget in Z4. rewrite E in Z4. injection Z4 as <-. destruct (f_st fu) as [|r|] eqn:St; [congruence| |].
           ++ destruct (F r eq_refl) as [_ [v ->]]. discriminate.
           ++ split; [now injection Z3|]. exists s. split; auto. split; [apply steps_step, steps_refl|]. right. eauto.
  - right. assert (HC : cur (step fire s) = Some (t, kb (match r with Ok _ => Ok (VBool true) | Exn x => Exn x end))) by (unfold Loop_Model.step; rewrite Hc; cbn [exec_body]; destruct (nth_error (evs s) e); reflexivity).
    destruct r as [v|x]; [left|right]; [split; auto; apply was_set_step; eauto|]. destruct (G x eq_refl) as [-> G1]. split; auto. now apply was_cancelled_step.
Qed.
Lemma inw_inside s0 t e kb s : InW s0 t e kb s -> inside_wait s t e.
Proof.
  intros [[f [fu [[_ [cbs [mu S]]] [E [K F]]]]]|[f [r [Hc _]]]]; [left|right; eauto]. exists f, fu. split; auto. exists (mk_task (fun r => BEv e f r kb) (Some f) mu). split; auto. unfold tget, fget. now rewrite S.
Qed.
(** Once the test has ended it stays ended; without cancelling in the program a task is cancelled only after that. *)
Lemma ended_stays test m s s' : steps (init test m) s -> tdone s = Some true -> steps s s' -> tdone s' = Some true.
Proof.
  assert (O : forall x, steps (init test m) x -> Wf x /\ Once test x).
  { intros x Rx. apply (steps_ind_inv shuffle dut delayers (fun x => Wf x /\ Once test x) _ _) in Rx; auto; [|split; [apply init_wf|apply init_once]]. intros fire s0 [A B]. split; [now apply step_wf|now apply step_once]. }
  intros R T R2. induction R2 as [s|s s1 fire R2 IH]; auto. eapply step_tdone; auto. apply O. exact (steps_trans _ _ _ _ _ _ R R2).
Qed.
Lemma cancelled_ended test m s s' t : nocancel test -> steps (init test m) s -> was_cancelled s s' t -> tdone s' = Some true.
Proof.
  intros NT R [x [A [B C]]]. assert (Rx : steps (init test m) x) by exact (steps_trans _ _ _ _ _ _ R A). apply (ended_stays test m x s' Rx); auto. destruct C as [[tk [C1 C2]]|[f C]]; [eapply must_tdone|eapply canc_tdone]; eauto.
Qed.
(** A task that waits for the event [e], which is not set in [s]. *)
Lemma wait_set W s s' t e k ev : wrap W -> Wf s -> cur s = Some (t, W (Op (OEvWait e) k)) -> nth_error (evs s) e = Some ev -> e_val ev = false -> steps s s' ->
  s' = s \/ (inside_wait s' t e /\ unfinished s' t) \/ (exists s1, steps s s1 /\ steps s1 s' /\ cur s1 = Some (t, W (k (Ok (VBool true)))) /\ was_set s s1 e) \/ (exists s1, steps s s1 /\ steps s1 s' /\ cur s1 = Some (t, W (k (Exn CancelledError))) /\ was_cancelled s s1 t).
Proof.
  intros HW WF Hc Ee V R. destruct (steps_first _ _ _ _ _ R) as [->|[fire R1]]; auto. right. assert (HS := step_op shuffle dut delayers W fire s t _ _ HW Hc). destruct (cur_task s t _ WF Hc) as [cbs [k0 [w [m Et]]]].
  set (kb := fun r => W (k r)) in *. assert (I0 : InW s t e kb (step fire s)).
  { left. destruct (evwait_new s t e kb _ _ _ _ _ Et Ee V) as [cbs' N]. rewrite <- HS in N. assert (SU : Susp t (fun r => BEv e (List.length (futs s)) r kb) (Some (List.length (futs s))) (step fire s)).
    { rewrite HS. unfold exec_op. rewrite Ee, V. eapply suspend_susp.
      - unfold fget. cbn [futs eput set_evs falloc set_futs]. rewrite nth_error_app1; [exact Et|]. apply nth_error_Some. unfold fget in Et. congruence.
      - assert (t < List.length (futs s)) by (apply nth_error_Some; unfold fget in Et; congruence). lia. }
    destruct N as [N|N]; eexists _, _; (split; [exact SU|]); (split; [exact N|]); (split; [reflexivity|]); intros r X; discriminate. }
  assert (X : InW s t e kb s' \/ (exists s1, steps s s1 /\ steps s1 s' /\ cur s1 = Some (t, W (k (Ok (VBool true)))) /\ was_set s s1 e) \/ (exists s1, steps s s1 /\ steps s1 s' /\ cur s1 = Some (t, W (k (Exn CancelledError))) /\ was_cancelled s s1 t)).
  { clear R. remember (step fire s) as y eqn:Q in R1. induction R1 as [y|y s2 fi Rs IH]; [subst; now left|]. subst y. destruct (IH eq_refl) as [A|[[s1 [A [B C]]]|[s1 [A [B C]]]]].
    - assert (R2 : steps s s2) by (eapply steps_trans; [apply steps_step, steps_refl|exact Rs]). assert (R3 : steps s (step fi s2)) by now apply steps_step. destruct (inw_step fi s s2 t e kb (steps_wf shuffle dut delayers _ _ WF R2) R2 A) as [Y|[[Y1 Y2]|[Y1 Y2]]]; auto.
      + right; left. exists (step fi s2). split; auto. split; [apply steps_refl|]. auto.
      + right; right. exists (step fi s2). split; auto. split; [apply steps_refl|]. auto.
    - right; left. exists s1. split; auto. split; auto. now apply steps_step.
    - right; right. exists s1. split; auto. split; auto. now apply steps_step. }
  destruct X as [X|X]; auto. left. split; [eapply inw_inside; eauto|]. apply live_iff. unfold islive. destruct X as [[f [fu [[_ [cbs1 [mu S]]] _]]]|[f [r [Hc1 _]]]]; [now rewrite S|].
  destruct (cur_task s' t _ (steps_wf shuffle dut delayers _ _ WF R) Hc1) as [cbs1 [k1 [w1 [m1 Et1]]]]. unfold fget in Et1. now rewrite Et1.
Qed.
End Ev.
