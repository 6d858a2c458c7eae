(** What runs after one step; suspended tasks; quiescence at dut.Step. *)
From Coq Require Import List Bool Arith ZArith Lia.
From Verif Require Import Py Prio_Model Loop_Model Loop_Spec Loop_Proofs Loop2_Proofs Loop3_Proofs.
Import ListNotations.
Open Scope nat_scope.

Section Quiet.
Context {mem : Type}.
Notation prog := (@prog mem). Notation state := (@state mem). Notation body := (@body mem). Notation task := (@task mem).
Notation fut := (@fut mem). Notation kind := (@kind mem).
Implicit Types (s : state) (F : list fut).
Context (shuffle : list id -> list id) (dut delayers : mem -> mem).
Notation step := (step shuffle dut delayers). Notation steps := (steps shuffle dut delayers).

Definition nextb s (t : id) (b b' : body) : Prop :=
  match b with
  | BProg (Op o k) => exists r, opres s o r /\ b' = BProg (k r)
  | BProg _ => False
  | BHook (Op o k) ev todo sb => exists r, opres s o r /\ b' = BHook (k r) ev todo sb
  | BHook (Ret _) ev todo sb => b' = BClk (CPass todo (match ev with Some _ => true | None => sb end))
  | BHook (Raise e) _ _ _ => b' = BProg (Raise e)
  | BClk CInit | BClk (CStep _) => b' = BClk CRound
  | BClk CCheck => b' = BClk CRound \/ (has_unwait s t = false /\ flag s = false /\ b' = BClk (CPass (map (fun p => (pt_coro p, pt_done p)) (pt_sorted (prio s))) false))
  | BClk (CPass [] sb) => b' = BClk (if sb then CRound else CTail)
  | BClk (CPass ((h, ev) :: todo) sb) => b' = BHook h ev todo sb
  | BClk CTail => b' = BClk (match tdone s with Some true => CCancel | _ => CStep false end)
  | BClk CRound | BClk CCancel | BClk CGathered => False
  | BEv _ _ r k => b' = k (match r with Ok _ => Ok (VBool true) | Exn e => Exn e end)
  | BGet _ _ (Exn e) k => b' = k (Exn e)
  | BGet q _ (Ok _) k => exists r, opres s (OQGet q) r /\ b' = k r
  | BMain test => b' = BTest test
  | BTest (Op o k) => exists r, opres s o r /\ b' = BTest (k r)
  | BTest (Ret v) => exists r : res lval, opres s (OEvWait 0) r /\ b' = BProg (match r with Ok _ => Ret v | Exn e => Raise e end)
  | BTest (Raise _) => False
  end.
Lemma step_cur fire s t' b' : Wf s -> cur (step fire s) = Some (t', b') ->
  (exists b, cur s = Some (t', b) /\ nextb s t' b b') \/
  (cur s = None /\ exists h r n st cbs k w m, ready s = h :: r /\ batch s = S n /\ owner h = Some t' /\ nth_error (futs s) t' = Some (mkt st cbs k w m) /\
     b' = k (if m then Exn CancelledError else hres (futs s) h)).
Proof.
  intros [I K] H. unfold Loop_Model.step in H. destruct (cur s) as [[t b]|] eqn:Hc.
  - left. exists b. enough (t' = t /\ nextb s t' b b') as [-> X] by auto.
    destruct b as [[v|e|o kk]|[v|e|o kk] ev todo sb|c|e f r kk|q f [v|e] kk|test|[v|e|o kk]]; cbn [exec_body nextb] in *; try (unfold finish in H; discriminate H).
    + destruct (cur_op_res s t o (fun r => BProg (kk r))) as [E|[r [O E]]]; rewrite E in H; [discriminate|]. injection H as <- <-. eauto.
    + destruct ev; injection H as <- <-; auto.
    + injection H as <- <-. auto.
    + destruct (cur_op_res s t o (fun r => BHook (kk r) ev todo sb)) as [E|[r [O E]]]; rewrite E in H; [discriminate|]. injection H as <- <-. eauto.
    + destruct c as [| | |todo sb| | | |last]; cbn [exec_clk] in H.
      * destruct (tdone s); [injection H as <- <-; auto|]. rewrite cur_suspend0 in H. discriminate.
      * rewrite cur_suspend0 in H. discriminate.
      * destruct (has_unwait s t) eqn:U; [injection H as <- <-; auto|]. simpl in H. destruct (flag s); injection H as <- <-; auto 10.
      * destruct todo as [|[h ev] todo]; injection H as <- <-; auto.
      * injection H as <- <-; auto.
      * set (l := shuffle _) in H. destruct l; [rewrite cur_suspend0 in H|rewrite cur_suspend in H]; discriminate.
      * rewrite cur_suspend0 in H. discriminate.
      * injection H as <- <-; auto.
    + destruct (nth_error (evs s) e); injection H as <- <-; auto.
    + destruct (cur_q_get_res s t q kk) as [E|[r [O E]]]; rewrite E in H; [discriminate|]. injection H as <- <-. eauto.
    + injection H as <- <-. auto.
    + injection H as <- <-. auto.
    + destruct (clock s); [|discriminate H]. destruct (cur_op_res (set_tdone s (Some true)) t (OEvWait 0) (fun r => BProg (match r with Ok _ => Ret v | Exn e => Raise e end))) as [E|[r [O E]]]; rewrite E in H; [discriminate|]. injection H as <- <-. eauto.
    + destruct (cur_op_res s t o (fun r => BTest (kk r))) as [E|[r [O E]]]; rewrite E in H; [discriminate|]. injection H as <- <-. eauto.
  - right. split; auto. destruct (batch s) as [|n].
    + destruct (stopping s); [congruence|]. simpl in H. rewrite (rest_cur _ _ (rest_fold fire1 fire s fire1_rest)) in H. congruence.
    + destruct (ready s) as [|h r] eqn:Hr; [simpl in H; congruence|]. set (s0 := set_batch (set_ready s r) n) in *.
      assert (Z : forall x, owner h = Some x -> cur (resume s0 x (hres (futs s) h)) = Some (t', b') -> exists h0 r0 n0 st cbs k w m,
        h :: r = h0 :: r0 /\ S n = S n0 /\ owner h0 = Some t' /\ nth_error (futs s) t' = Some (mkt st cbs k w m) /\ b' = k (if m then Exn CancelledError else hres (futs s) h0)).
      { intros x Ho E. unfold resume in E. destruct (tget s0 x) as [tk|] eqn:T; [|simpl in E; congruence]. injection E as <- <-.
        destruct (tget_fut _ _ _ T) as [st [cbs E]]. destruct tk as [kk w m]. exists h, r, n, st, cbs, kk, w, m. repeat split; auto. }
      destruct h as [x|x e|x f|g| |f]; cbn [run_handle] in H.
      * apply (Z x eq_refl H).
      * apply (Z x eq_refl H).
      * apply (Z x eq_refl H).
      * exfalso. revert H. destruct (fget s0 g) as [[st cbs []]|]; try (simpl; congruence). destruct need as [|[|n']]; try (simpl; congruence).
        rewrite (rest_cur _ _ (rest_settle _ _ _)). simpl. congruence.
      * simpl in H. congruence.
      * rewrite (rest_cur _ _ (rest_settle _ _ _)) in H. simpl in H. congruence.
Qed.

Lemma plain_curfits (b : body) : plainb b = true -> curfits b. Proof. destruct b; simpl; auto; discriminate. Qed.
Lemma step_linked fire s : Wf s -> Linked s -> Linked (step fire s).
Proof.
  intros W [L1 L2]. pose proof W as [I K]. split.
  - eapply mstar_linked; [|exact L1]. apply step_core; auto. intros t b Hc. apply fits_stores. eauto.
  - intros t' b' Hc'. destruct (step_cur fire s t' b' W Hc') as [[b [Hc Hn]]|[Hc [h [r [n [st [cbs [k [w [m [Hr [Hb [Ho [E ->]]]]]]]]]]]]]].
    + specialize (L2 _ _ Hc). destruct b as [[v|e|o kk]|[v|e|o kk] ev todo sb|c|e f r kk|q f [v|e] kk|test|[v|e|o kk]]; cbn [nextb] in Hn; try contradiction; try (subst b'; exact Logic.I).
      * destruct Hn as [r [_ ->]]. exact Logic.I.
      * destruct Hn as [r [_ ->]]. exact Logic.I.
      * destruct c as [| | |[|[h ev] todo] sb| | | |last]; try contradiction; try (subst b'; exact Logic.I).
        -- destruct Hn as [->|[_ [_ ->]]]; exact Logic.I.
      * subst b'. apply plain_curfits, L2.
      * destruct Hn as [r [_ ->]]. apply plain_curfits, L2.
      * subst b'. apply plain_curfits, L2.
      * destruct Hn as [r [_ ->]]. exact Logic.I.
      * destruct Hn as [r [_ ->]]. exact Logic.I.
    + assert (Hin : In h (ready s)) by (rewrite Hr; now left). destruct (handle_live _ I h t' Hin Ho) as [cbs' [k' [w' [m' E']]]]. simpl in E'. rewrite E in E'. injection E' as -> <- <- <- <-.
      assert (Hcn : forall b, cur s <> Some (t', b)) by congruence. specialize (L1 t' _ _ _ _ E Hcn).
      destruct w as [f|]; [|apply plain_curfits, L1]. destruct L1 as [kd [fu [_ [_ F]]]].
      destruct kd; simpl in F; try (apply plain_curfits, F); destruct F as [kk [-> F]]; exact F.
Qed.
Lemma init_linked test m : Linked (init test m : state).
Proof.
  split; [|discriminate]. intros [|[|t]] cbs k w mu E; simpl in E; try discriminate. injection E as _ <- <- _. intros _ [v|e]; reflexivity.
Qed.
Lemma reach_linked test m s : steps (init test m) s -> Wf s /\ Linked s.
Proof.
  intros R. apply (steps_ind_inv shuffle dut delayers (fun s => Wf s /\ Linked s) _ _) in R; auto.
  - intros fire s0 [W0 G0]. split; [now apply step_wf|now apply step_linked].
  - split; [apply init_wf|apply init_linked].
Qed.

Lemma live_iff s t : In t (live s) <-> islive (futs s) t = true.
Proof.
  unfold live. rewrite filter_In, in_seq. unfold islive, fget. split; [intros [_ H]; exact H|]. intros H. split; auto. pose proof (islive_len (futs s) t H). lia.
Qed.

(** * Quiescence *)
Definition quietF F (c : id) : Prop :=
  forall t, islive F t = true -> t <> c -> exists f, waitof F t = Some (Some f) /\ forall fu r, nth_error F f = Some fu -> f_st fu <> Finished r.
Lemma quiet_check s c : has_unwait s c = false -> quietF (futs s) c.
Proof.
  unfold has_unwait. intros H t L Hn. assert (U : unwait s t = false).
  { destruct (unwait s t) eqn:U; auto. rewrite <- H. symmetry. apply existsb_exists. exists t. split; [now apply live_iff|]. rewrite U. now destruct (Nat.eqb_spec t c). }
  destruct (live_task _ _ L) as [cbs [k [w [m E]]]]. rewrite (waitof_task _ _ _ _ _ _ _ E). unfold unwait, tget, fget in U. rewrite E in U. simpl in U.
  destruct w as [f|]; [|discriminate]. exists f. split; auto. intros fu r Ef X. rewrite Ef, X in U. discriminate.
Qed.
Lemma quiet_ready s c b : Wf s -> cur s = Some (c, b) -> quietF (futs s) c -> forall h t, In h (ready s) -> owner h = Some t ->
  exists f fu, h = HWake t f /\ waitof (futs s) t = Some (Some f) /\ nth_error (futs s) f = Some fu /\ f_st fu = Canc.
Proof.
  intros [I K] Hc Q h t Hh Ho. destruct (handle_live _ I h t Hh Ho) as [cbs [k [w [m E]]]]. cbn [snd coreof] in E.
  assert (Hn : t <> c).
  { intros ->. pose proof (i_cnt _ I c) as N. cbn [coreof fst snd] in N. rewrite Hc in N. simpl in N. rewrite Nat.eqb_refl in N. pose proof (cnth_In _ _ _ Hh Ho). destruct (islive (futs s) c); lia. }
  assert (L : islive (futs s) t = true) by (unfold islive; rewrite E; reflexivity). destruct (Q t L Hn) as [f [W F]].
  destruct h; simpl in Ho; try discriminate; injection Ho as ->.
  - pose proof (i_step _ I t Hh) as X. cbn [coreof snd] in X. congruence.
  - pose proof (i_throw _ I t _ Hh) as X. cbn [coreof snd] in X. congruence.
  - destruct (i_wake _ I t _ Hh) as [X [fu [X1 X2]]]. cbn [coreof snd] in X, X1. assert (f0 = f) by congruence. subst f0. exists f, fu. repeat split; auto.
    specialize (F fu). destruct fu as [[|r|] cb kd]; auto; try discriminate. exfalso. apply (F r X1). reflexivity.
Qed.

Section Tame.
Definition Hk33 (d : bool) (p : prog) : Prop := if d then True else calm p.
Lemma tame_HC h z d : tame_op (OPrio h z d) -> Hk33 d h. Proof. destruct d; simpl; auto. Qed.
Lemma tame_Hcont d o k r : Hk33 d (Op o k) -> Hk33 d (k r).
Proof. destruct d; simpl; auto. unfold calm. intros H. inversion H; subst. auto. Qed.
Notation Good := (Good tame_op Hk33).
Fixpoint parkedb (b : body) : Prop :=
  match b with
  | BProg _ => True
  | BHook _ ev _ sb => ev <> None \/ sb = true
  | BClk (CPass _ sb) => sb = true
  | BClk CTail | BClk (CStep false) => False
  | BClk _ | BMain _ | BTest _ => True
  | BEv _ _ _ k | BGet _ _ _ k => forall r, parkedb (k r)
  end.
Definition parkedk (k : res lval -> body) : Prop := forall r, parkedb (k r).
Definition curp (b : body) : Prop := match b with BEv _ _ _ k | BGet _ _ _ k => forall r, parkedb (k r) | _ => True end.
Definition stage (b : body) : bool :=
  match b with BClk (CPass _ false) | BHook _ None _ false | BClk CTail | BClk (CStep false) => true | _ => false end.
Record P33 s : Prop := mk_p33
  { p_conts : conts parkedk (futs s);
    p_cur : forall t b, cur s = Some (t, b) -> curp b;
    p_stage : forall t b, cur s = Some (t, b) -> stage b = true -> quietF (futs s) t }.
Lemma parked_stage (b : body) : parkedb b -> stage b = false.
Proof. destruct b as [|p [ev|] todo []|[]| | | |]; simpl; auto; try (intros [H|H]; congruence); try (intros; subst; auto); try contradiction. destruct last; tauto. Qed.
Lemma parked_curp (b : body) : parkedb b -> curp b. Proof. now destruct b. Qed.
Lemma parked_stores (b : body) : goodb tame_op Hk33 b -> curp b -> stores (fun _ => parkedk) b.
Proof.
  assert (S0 : forall b, parkedb b -> parkedk (start b)) by (intros b0 H [|]; simpl; auto).
  assert (O : forall o k, parkedk k -> opstores (fun _ => parkedk) o k).
  { intros o k H. destruct o; simpl; auto; try (apply S0; exact I); try (intros f r; exact H). }
  destruct b as [[v|e|o kk]|[v|e|o kk] ev todo sb|[]|e f r kk|q f [v|e] kk|test|[v|e|o kk]]; simpl; intros H Hp; auto; try (apply S0; exact I).
  - apply O. intros r. exact I.
  - destruct ev as [ev|]; [apply O; intros r; left; discriminate|]. destruct sb; [apply O; intros r; now right|].
    destruct H as [[_ H] _]. simpl in H. unfold calm in H. inversion H; subst. destruct o; simpl in *; auto; contradiction.
  - intros g r. exact Hp.
  - intros f r. simpl. intros _. exact I.
  - apply O. intros r. exact I.
Qed.
Lemma calm_futs s t o k : calm_op o -> (forall p z d, o <> OPrio p z d -> True) -> futs (exec_op s t o k) = futs s \/ futs (exec_op s t o k) = futs s ++ [mk_fut Pending [] KTimer].
Proof.
  intros H _. unfold exec_op. destruct o as [f|m|fl| |p|f|f| |e|e|e| |q v|q|q| |h z [|]|l| |]; simpl in H; try contradiction; auto.
  - destruct (f (mm s)); auto.
  - unfold ev_clear. destruct (nth_error (evs s) e) as [ev|]; [destruct (e_priv ev)|]; auto.
  - destruct (nth_error (qs s) q); auto.
Qed.
Lemma quiet_timer F c : quietF F c -> quietF (F ++ [mk_fut Pending [] KTimer]) c.
Proof.
  intros Q t L Hn. rewrite islive_new in L. destruct (Nat.eqb_spec t (List.length F)) as [E0|Hl]; [discriminate|]. destruct (Q t L Hn) as [f [W X]].
  exists f. split.
  - rewrite waitof_new. destruct (Nat.eqb_spec t (List.length F)); [congruence|exact W].
  - intros fu r E. rewrite nth_app_new in E. destruct (Nat.eqb f (List.length F)); [injection E as <-; discriminate|eauto].
Qed.
Lemma step_p33 fire s : Wf s -> Good s -> P33 s -> P33 (step fire s).
Proof.
  intros W G [P1 P2 P3]. pose proof W as [I K]. constructor.
  - eapply (mstar_conts parkedk _ (coreof s) (coreof (step fire s))); [|exact P1]. apply (step_core shuffle dut delayers (fun _ => parkedk)); auto. intros t b Hc. apply parked_stores; eauto. eapply g_cur; eauto.
  - intros t' b' Hc'. destruct (step_cur fire s t' b' W Hc') as [[b [Hc Hn]]|[Hc [h [r [n [st [cbs [k [w [m [Hr [Hb [Ho [E ->]]]]]]]]]]]]]].
    + specialize (P2 _ _ Hc). destruct b as [[v|e|o kk]|[v|e|o kk] ev todo sb|c|e f r kk|q f [v|e] kk|test|[v|e|o kk]]; cbn [nextb] in Hn; try contradiction; try (subst b'; exact Logic.I).
      * destruct Hn as [r [_ ->]]. exact Logic.I.
      * destruct Hn as [r [_ ->]]. exact Logic.I.
      * destruct c as [| | |[|[h ev] todo] sb| | | |last]; try contradiction; try (subst b'; exact Logic.I). destruct Hn as [->|[_ [_ ->]]]; exact Logic.I.
      * subst b'. apply parked_curp, P2.
      * destruct Hn as [r [_ ->]]. apply parked_curp, P2.
      * subst b'. apply parked_curp, P2.
      * destruct Hn as [r [_ ->]]. exact Logic.I.
      * destruct Hn as [r [_ ->]]. exact Logic.I.
    + apply parked_curp. exact (P1 _ _ _ _ _ _ E _).
  - intros t' b' Hc' Hst. destruct (step_cur fire s t' b' W Hc') as [[b [Hc Hn]]|[Hc [h [r [n [st [cbs [k [w [m [Hr [Hb [Ho [E ->]]]]]]]]]]]]]].
    + specialize (P2 _ _ Hc). pose proof (P3 _ _ Hc) as Q. unfold Loop_Model.step. rewrite Hc.
      destruct b as [[v|e|o kk]|[v|e|o kk] ev todo sb|c|e f r kk|q f [v|e] kk|test|[v|e|o kk]]; cbn [nextb] in Hn; try contradiction; try (subst b'; discriminate).
      * destruct Hn as [r [_ ->]]. discriminate.
      * subst b'. destruct ev as [ev|]; [discriminate|]. cbn [exec_body]. simpl in Hst. apply Q. exact Hst.
      * destruct Hn as [r [_ ->]]. cbn [exec_body]. assert (ev = None /\ sb = false) as [-> ->] by (simpl in Hst; destruct ev, sb; try discriminate; auto).
        destruct (g_cur _ _ _ G _ _ Hc) as [[_ H] _]. simpl in H. unfold calm in H. inversion H; subst.
        destruct (calm_futs s t' o (fun r => BHook (kk r) None todo false) H2) as [F|F]; auto; rewrite F; [|apply quiet_timer]; apply Q; reflexivity.
      * destruct c as [| | |[|[h ev] todo] sb| | | |last]; try contradiction; try (subst b'; discriminate).
        -- destruct Hn as [->|[U [Fl ->]]]; [discriminate|]. cbn [exec_body exec_clk]. rewrite U, Fl. simpl. now apply quiet_check.
        -- subst b'. destruct sb; [discriminate|]. simpl. apply Q. reflexivity.
        -- subst b'. simpl in Hst. destruct ev, sb; try discriminate. simpl. apply Q. reflexivity.
        -- subst b'. simpl. apply Q. reflexivity.
      * subst b'. rewrite parked_stage in Hst; [discriminate|apply P2].
      * destruct Hn as [r [_ ->]]. rewrite parked_stage in Hst; [discriminate|apply P2].
      * subst b'. rewrite parked_stage in Hst; [discriminate|apply P2].
      * destruct Hn as [r [_ ->]]. discriminate.
      * destruct Hn as [r [_ ->]]. discriminate.
    + exfalso. rewrite parked_stage in Hst; [discriminate|]. exact (P1 _ _ _ _ _ _ E _).
Qed.
Lemma init_p33 test m : P33 (init test m : state).
Proof.
  constructor; try discriminate. intros [|[|t]] st cbs k w mu E; simpl in E; try discriminate. injection E as _ _ <- _ _. intros [v|e]; exact I.
Qed.
Lemma reach_p33 test m s : tame test -> steps (init test m) s -> Wf s /\ Good s /\ P33 s.
Proof.
  intros T R. apply (steps_ind_inv shuffle dut delayers (fun s => Wf s /\ Good s /\ P33 s) _ _) in R; auto.
  - intros fire s0 [W0 [G0 P0]]. split; [now apply step_wf|split; [apply step_good; auto; try (intros; eapply tame_HC; eassumption); intros; eapply tame_Hcont; eassumption|now apply step_p33]].
  - split; [apply init_wf|split; [|apply init_p33]]. now apply init_good.
Qed.
End Tame.
End Quiet.
