(** The clock event: private, never set between steps, its waiters are registered and released by dut.Step. *)
From Coq Require Import List Bool Arith ZArith Lia.
From Verif Require Import Py Prio_Model Loop_Model Loop_Spec Loop_Proofs Loop2_Proofs Loop3_Proofs Loop4_Proofs Loop7_Proofs Loop8_Proofs.
Import ListNotations.
Open Scope nat_scope.

Section Ev.
Context {mem : Type}.
Notation prog := (@prog mem). Notation state := (@state mem). Notation body := (@body mem). Notation task := (@task mem).
Notation fut := (@fut mem). Notation kind := (@kind mem).
Implicit Types (s : state) (F : list fut).
Context (shuffle : list id -> list id) (dut delayers : mem -> mem).
Notation step := (step shuffle dut delayers). Notation steps := (steps shuffle dut delayers).

(** * The events of hooks are not the clock event *)
Definition not0 (x : prog * option id) : Prop := snd x <> Some 0.
Fixpoint hevb (b : body) : Prop :=
  match b with
  | BHook _ ev todo _ => ev <> Some 0 /\ Forall not0 todo
  | BClk (CPass todo _) => Forall not0 todo
  | BEv _ _ _ k | BGet _ _ _ k => forall r, hevb (k r)
  | _ => True
  end.
Definition hevk (k : res lval -> body) : Prop := forall r, hevb (k r).
Record Hev s : Prop := mk_hev
  { h_conts : conts hevk (futs s);
    h_cur : forall t b, cur s = Some (t, b) -> hevb b;
    h_prio : Forall (fun p => pt_done p <> Some 0) (prio s);
    h_evs : evs s <> [] }.
Lemma hev_stores (b : body) : hevb b -> stores (fun _ => hevk) b.
Proof.
  assert (S0 : forall b, hevb b -> hevk (start b)) by (intros b0 H [|]; simpl; auto).
  assert (O : forall o k, hevk k -> opstores (fun _ => hevk) o k).
  { intros o k H. destruct o; simpl; auto; try (apply S0; exact I); try (intros f r; exact H). }
  destruct b as [[v|e|o kk]|[v|e|o kk] ev todo sb|[]|e f r kk|q f [v|e] kk|test|[v|e|o kk]]; simpl; intros H; auto; try (apply S0; exact I); try (apply O; intros r; exact I).
  - apply O. intros r. exact H.
  - intros g r. exact H.
  - intros f r. simpl. intros _. exact I.
Qed.
Lemma evs_nonempty s fire : evs s <> [] -> evs (step fire s) <> [].
Proof.
  rewrite step_evs. assert (P : forall (e : id) ev E, E <> [] -> put_nth e ev E <> ([] : list event)) by (intros [|e] ev [|x E] H; simpl; congruence).
  assert (A : forall (E l : list event), E <> [] -> E ++ l <> []) by (intros [|? ?] ? ?; simpl; congruence).
  assert (Q1 : forall E e, E <> [] -> evset E e <> []) by (intros E e H; unfold evset; destruct (nth_error E e) as [ev|]; auto; destruct (e_val ev); auto).
  assert (Q2 : forall E e, E <> [] -> evclear E e <> []) by (intros E e H; unfold evclear; destruct (nth_error E e) as [ev|]; auto).
  intros H. assert (O : forall o, evop s o <> []).
  { intros o. unfold evop. destruct o as [f|m|fl| |p|f|f| |e|e|e| |q v|q|q| |h z [|]|l| |]; auto; destruct (nth_error (evs s) e) as [ev|]; auto; [destruct (e_priv ev)|destruct (e_priv ev)|destruct (e_val ev)]; auto. }
  unfold evafter. destruct (cur s) as [[t b]|]; auto. destruct b as [[v|e|o kk]|[v|e|o kk] ev todo sb|[]|e f r kk|q f [v|e] kk|test|[v|e|o kk]]; auto.
  - destruct ev; auto.
  - destruct (nth_error (evs s) e); auto.
  - destruct (clock s); auto.
Qed.
Lemma step_hev fire s : Wf s -> Hev s -> Hev (step fire s).
Proof.
  intros W [P1 P2 P3 P4]. pose proof W as [I K]. constructor.
  - eapply (mstar_conts hevk _ (coreof s) (coreof (step fire s))); [|exact P1]. apply (step_core shuffle dut delayers (fun _ => hevk)); auto. intros t b Hc. apply hev_stores. eauto.
  - intros t' b' Hc'. destruct (step_cur shuffle dut delayers fire s t' b' W Hc') as [[b [Hc Hn]]|[Hc [h [r [n [st [cbs [k [w [m [Hr [Hb [Ho [E ->]]]]]]]]]]]]]].
    + specialize (P2 _ _ Hc). destruct b as [[v|e|o kk]|[v|e|o kk] ev todo sb|c|e f r kk|q f [v|e] kk|test|[v|e|o kk]]; cbn [nextb] in Hn; try contradiction; try (subst b'; exact Logic.I).
      * destruct Hn as [r [_ ->]]. exact Logic.I.
      * subst b'. apply P2.
      * destruct Hn as [r [_ ->]]. exact P2.
      * destruct c as [| | |[|[h ev] todo] sb| | | |last]; try contradiction; try (subst b'; exact Logic.I).
        -- destruct Hn as [->|[_ [_ ->]]]; [exact Logic.I|]. simpl. apply Forall_forall. intros x Hx. apply in_map_iff in Hx as [p [<- Hp]]. apply sorted_In in Hp. rewrite Forall_forall in P3. exact (P3 p Hp).
        -- subst b'. destruct sb; exact Logic.I.
        -- subst b'. simpl in P2. inversion P2; subst. simpl. auto.
        -- subst b'. destruct (tdone s) as [[|]|]; exact Logic.I.
      * subst b'. apply P2.
      * destruct Hn as [r [_ ->]]. apply P2.
      * subst b'. apply P2.
      * destruct Hn as [r [_ ->]]. exact Logic.I.
      * destruct Hn as [r [_ ->]]. exact Logic.I.
    + exact (P1 _ _ _ _ _ _ E _).
  - rewrite (fr_prio _ _ (step_fr shuffle dut delayers fire s)). unfold seff. destruct (cur s) as [[t b]|] eqn:Hc; auto.
    assert (Q : forall o, Forall (fun p => pt_done p <> Some 0) (prio (oeff s t o))).
    { intros o. destruct o as [f|m|fl| |p|f|f| |e|e|e| |q v|q|q| |h z d|l| |]; auto.
      - destruct d; simpl; apply Forall_app; split; auto; constructor; auto; simpl; [|discriminate]. destruct (evs s); [contradiction|]. discriminate.
      - simpl. destruct (clock s); auto. }
    destruct b as [[v|e|o kk]|[v|e|o kk] ev todo sb|c|e f r kk|q f [v|e] kk|test|[v|e|o kk]]; auto.
    + destruct ev; auto.
    + destruct c as [| | |[]| | | |]; auto. constructor.
  - now apply evs_nonempty.
Qed.
Lemma init_hev test m : Hev (init test m : state).
Proof.
  constructor; try discriminate; try constructor. intros [|[|t]] st cbs k w mu E; simpl in E; try discriminate. injection E as _ _ <- _ _. intros [v|e]; exact I.
Qed.

(** * Running [BEv] and [BGet]: the future is done *)
Definition CurDone s : Prop := forall t b, cur s = Some (t, b) -> match b with
  | BEv e f _ _ => exists fu, nth_error (futs s) f = Some fu /\ pending fu = false /\ f_kind fu = KEv e
  | BGet q f _ _ => exists fu, nth_error (futs s) f = Some fu /\ pending fu = false /\ f_kind fu = KQueue q
  | _ => True end.
Lemma plain_done s (b : body) : plainb b = true -> match b with
  | BEv e f _ _ => exists fu, nth_error (futs s) f = Some fu /\ pending fu = false /\ f_kind fu = KEv e
  | BGet q f _ _ => exists fu, nth_error (futs s) f = Some fu /\ pending fu = false /\ f_kind fu = KQueue q
  | _ => True end.
Proof. now destruct b. Qed.
Lemma nextb_plain s t b b' : curfits b -> nextb s t b b' -> plainb b' = true.
Proof.
  intros CF Hn. destruct b as [[v|e|o kk]|[v|e|o kk] ev todo sb|c|e f r kk|q f [v|e] kk|test|[v|e|o kk]]; cbn [nextb curfits] in *; try contradiction; try (subst b'; auto; reflexivity);
    try (destruct Hn as [r [_ ->]]; auto; fail).
  destruct c as [| | |[|[h ev] todo] sb| | | |last]; try contradiction; try (subst b'; reflexivity). destruct Hn as [->|[_ [_ ->]]]; reflexivity.
Qed.
Lemma step_curdone fire s : Wf s -> Linked s -> CurDone (step fire s).
Proof.
  intros W L t' b' Hc'. pose proof W as [I K]. destruct (step_cur shuffle dut delayers fire s t' b' W Hc') as [[b [Hc Hn]]|[Hc [h [r [n [st [cbs [k [w [m [Hr [Hb [Ho [E ->]]]]]]]]]]]]]].
  - apply plain_done. eapply nextb_plain; eauto. exact (proj2 L _ _ Hc).
  - assert (Hin : In h (ready s)) by (rewrite Hr; now left). destruct (handle_live _ I h t' Hin Ho) as [cbs' [k' [w' [m' E']]]]. cbn [snd coreof] in E'. rewrite E in E'. injection E' as -> <- <- <- <-.
    assert (Hcn : forall b, cur s <> Some (t', b)) by congruence. pose proof (proj1 L t' _ _ _ _ E Hcn) as L1. assert (WW : waitof (futs s) t' = Some w) by (apply (waitof_task _ _ _ _ _ _ _ E)).
    destruct w as [f|]; [|apply plain_done, L1]. destruct L1 as [kd [fu [Ef [Kr Fi]]]]. cbn [snd coreof] in Ef.
    assert (P : pending fu = false).
    { destruct h as [x|x e|x f''|g| |f'']; simpl in Ho; try discriminate; injection Ho as ->.
      + pose proof (i_step _ I t' Hin) as X. cbn [snd coreof] in X. congruence.
      + pose proof (i_throw _ I t' e Hin) as X. cbn [snd coreof] in X. congruence.
      + destruct (i_wake _ I t' f'' Hin) as [X [fu' [X1 X2]]]. cbn [snd coreof] in X, X1. assert (f'' = f) by congruence. subst f''. rewrite Ef in X1. now injection X1 as <-. }
    destruct (step_task shuffle dut delayers fire s t' cbs k (Some f) m W Hcn E) as [[Hx _]|[_ [_ [_ [_ [_ [_ [_ [_ HF]]]]]]]]]; [now apply Hx in Hc'|].
    assert (Ef' : nth_error (futs (step fire s)) f = Some fu \/ f = t').
    { rewrite HF, (put_nth_get _ _ _ _ f E). destruct (Nat.eqb_spec f t'); auto. }
    destruct kd; simpl in Fi; try (apply plain_done; apply Fi); destruct Fi as [kk [-> _]]; cbv beta; destruct Ef' as [Ef'|X].
    + exists fu. split; auto. split; auto. destruct (f_kind fu); simpl in Kr; try contradiction. congruence.
    + exfalso. subst f. rewrite E in Ef. injection Ef as <-. contradiction.
    + exists fu. split; auto. split; auto. destruct (f_kind fu); simpl in Kr; try contradiction. congruence.
    + exfalso. subst f. rewrite E in Ef. injection Ef as <-. contradiction.
Qed.

(** * Waiters are registered *)
Definition EvW s : Prop := forall f fu e, nth_error (futs s) f = Some fu -> f_kind fu = KEv e -> f_st fu = Pending ->
  exists ev, nth_error (evs s) e = Some ev /\ In f (e_waiters ev) /\ e_val ev = false.
Definition Ev0 s : Prop := exists ws, nth_error (evs s) 0 = Some (mk_event false ws true).
Lemma evset_other E e e' ev : nth_error E e' = Some ev -> e <> e' -> nth_error (evset E e) e' = Some ev.
Proof. intros H Hn. unfold evset. destruct (nth_error E e) as [x|] eqn:Ex; auto. destruct (e_val x); auto. rewrite (put_nth_get _ _ _ _ e' Ex). destruct (Nat.eqb_spec e' e); congruence. Qed.
Lemma evclear_reg E e e' ev f : nth_error E e' = Some ev -> In f (e_waiters ev) -> e_val ev = false ->
  exists ev', nth_error (evclear E e) e' = Some ev' /\ In f (e_waiters ev') /\ e_val ev' = false.
Proof.
  intros H Hf V. unfold evclear. destruct (nth_error E e) as [x|] eqn:Ex; [|eauto]. rewrite (put_nth_get _ _ _ _ e' Ex). destruct (Nat.eqb_spec e' e) as [->|]; [|eauto].
  rewrite H in Ex. injection Ex as <-. eexists. split; [reflexivity|]. auto.
Qed.
Lemma app_reg (E l : list event) e ev : nth_error E e = Some ev -> nth_error (E ++ l) e = Some ev.
Proof. intros H. rewrite nth_error_app1; auto. apply nth_error_Some. congruence. Qed.
(** The event that a step sets, if any: a waiter of it is not pending afterwards. *)
Definition setsev s : option id :=
  match cur s with
  | Some (_, BProg (Op (OEvSet e) _)) | Some (_, BHook (Op (OEvSet e) _) _ _ _) | Some (_, BTest (Op (OEvSet e) _)) => match nth_error (evs s) e with Some ev => if e_priv ev then None else Some e | None => None end
  | Some (_, BHook (Ret _) (Some e) _ _) => Some e
  | Some (_, BClk (CStep _)) => Some 0
  | _ => None
  end.
Lemma setsev_done fire s e ev f fu : setsev s = Some e -> nth_error (evs s) e = Some ev -> e_val ev = false -> In f (e_waiters ev) -> nth_error (futs s) f = Some fu -> is_task (f_kind fu) = false ->
  exists fu', nth_error (futs (step fire s)) f = Some fu' /\ pending fu' = false.
Proof.
  intros H E V Hf Ef T. unfold setsev in H. unfold Loop_Model.step. destruct (cur s) as [[t b]|] eqn:Hc; [|discriminate].
  destruct b as [[v|x|o kk]|[v|x|o kk] evh todo sb|c|x g r kk|q g [v|x] kk|test|[v|x|o kk]]; try discriminate; cbn [exec_body].
  - destruct o; try discriminate. destruct (nth_error (evs s) e0) as [ev0|] eqn:E0; [|discriminate]. destruct (e_priv ev0) eqn:P0; [discriminate|]. injection H as ->. rewrite E in E0. injection E0 as <-.
    unfold exec_op. rewrite E, P0. exact (ev_set_done s e ev f fu E V Hf Ef T).
  - destruct evh as [x|]; [|discriminate]. injection H as ->. exact (ev_set_done (set_ran s (ran s ++ [e])) e ev f fu E V Hf Ef T).
  - destruct o; try discriminate. destruct (nth_error (evs s) e0) as [ev0|] eqn:E0; [|discriminate]. destruct (e_priv ev0) eqn:P0; [discriminate|]. injection H as ->. rewrite E in E0. injection E0 as <-.
    unfold exec_op. rewrite E, P0. exact (ev_set_done s e ev f fu E V Hf Ef T).
  - destruct c; try discriminate. injection H as <-. cbn [exec_clk].
    pose proof (ev_set_done (set_mm (set_nstep s (S (nstep s))) (dut (mm s))) 0 ev f fu E V Hf Ef T) as X. unfold ev_clear. destruct (nth_error (evs (ev_set _ 0)) 0); exact X.
  - destruct o; try discriminate. destruct (nth_error (evs s) e0) as [ev0|] eqn:E0; [|discriminate]. destruct (e_priv ev0) eqn:P0; [discriminate|]. injection H as ->. rewrite E in E0. injection E0 as <-.
    unfold exec_op. rewrite E, P0. exact (ev_set_done s e ev f fu E V Hf Ef T).
Qed.
Lemma len_evwait s t e k f : List.length (futs s) <= f -> f < List.length (futs (exec_op s t (OEvWait e) k)) ->
  exists ev, nth_error (evs s) e = Some ev /\ e_val ev = false /\ f = List.length (futs s).
Proof.
  unfold exec_op. destruct (nth_error (evs s) e) as [ev|]; [|simpl; lia]. destruct (e_val ev) eqn:V; [simpl; lia|]. rewrite len_suspend. simpl. rewrite app_length. simpl. intros. exists ev. repeat split; auto. lia.
Qed.
Lemma evwait_reg s e ev : nth_error (evs s) e = Some ev -> e_val ev = false -> exists ev', nth_error (evop s (OEvWait e)) e = Some ev' /\ In (List.length (futs s)) (e_waiters ev') /\ e_val ev' = false.
Proof. intros E V. unfold evop. rewrite E, V, (put_nth_get _ _ _ _ e E), Nat.eqb_refl. eexists. split; [reflexivity|]. simpl. split; auto. apply in_or_app. right. now left. Qed.
Lemma evop_old s o e ev f : (forall e', o = OEvSet e' -> e' = e -> e_priv ev = true) -> nth_error (evs s) e = Some ev -> In f (e_waiters ev) -> e_val ev = false ->
  exists ev', nth_error (evop s o) e = Some ev' /\ In f (e_waiters ev') /\ e_val ev' = false.
Proof.
  intros HS E Hf V. assert (D : exists ev', nth_error (evs s) e = Some ev' /\ In f (e_waiters ev') /\ e_val ev' = false) by eauto. unfold evop.
  destruct o as [f0|m|fl| |p|f0|f0| |e0|e0|e0| |q v|q|q| |h z [|]|l| |]; auto.
  - exists ev. split; auto. now apply app_reg.
  - destruct (nth_error (evs s) e0) as [ev0|] eqn:E0; auto. destruct (e_priv ev0) eqn:P0; auto. exists ev. split; auto. apply evset_other; auto. intros ->. rewrite E in E0. injection E0 as <-. specialize (HS _ eq_refl eq_refl). congruence.
  - destruct (nth_error (evs s) e0) as [ev0|] eqn:E0; auto. destruct (e_priv ev0) eqn:P0; auto. eapply evclear_reg; eauto.
  - destruct (nth_error (evs s) e0) as [ev0|] eqn:E0; auto. destruct (e_val ev0) eqn:V0; auto. rewrite (put_nth_get _ _ _ _ e E0). destruct (Nat.eqb_spec e e0) as [->|]; auto.
    rewrite E in E0. injection E0 as <-. eexists. split; [reflexivity|]. simpl. split; auto. apply in_or_app. now left.
  - exists ev. split; auto. now apply app_reg.
Qed.
Lemma step_evw fire s : Wf s -> CurDone s -> EvW s -> EvW (step fire s).
Proof.
  intros W CD EW f fu' e E' K' P'. pose proof W as [I K].
  assert (M := True_ms_kin shuffle dut delayers fire s I K).
  assert (IN : inner (f_kind fu') = true) by (rewrite K'; reflexivity).
  destruct (mstar_fresh _ _ f fu' _ _ M E' IN) as [[fu [E Kd]]|[Lf Sp]].
  - cbn [snd coreof] in E. rewrite K' in Kd. assert (IN0 : inner (f_kind fu) = true) by (rewrite Kd; reflexivity).
    destruct (mstar_evolve _ _ f _ _ M fu E IN0) as [fu2 [E2 [_ V2]]]. cbn [snd coreof] in E2. rewrite E' in E2. injection E2 as <-.
    assert (P : f_st fu = Pending) by (destruct V2 as [V2|[V2 _]]; congruence). destruct (EW f fu e E Kd P) as [ev [Ee [Hf V]]].
    assert (NS : setsev s <> Some e).
    { intros X. destruct (setsev_done fire s e ev f fu X Ee V Hf E) as [fu3 [E3 P3]]; [rewrite Kd; reflexivity|]. rewrite E' in E3. injection E3 as <-. unfold pending in P3. rewrite P' in P3. discriminate. }
    rewrite step_evs. unfold evafter. unfold setsev in NS. assert (D : exists ev', nth_error (evs s) e = Some ev' /\ In f (e_waiters ev') /\ e_val ev' = false) by eauto.
    assert (Q : forall o, match o with OEvSet e => match nth_error (evs s) e with Some ev => if e_priv ev then None else Some e | None => None end | _ => None end <> Some e ->
       exists ev', nth_error (evop s o) e = Some ev' /\ In f (e_waiters ev') /\ e_val ev' = false).
    { intros o HO. eapply evop_old; eauto. intros e' -> ->. rewrite Ee in HO. destruct (e_priv ev); auto. }
    destruct (cur s) as [[t b]|] eqn:Hc; auto. destruct b as [[v|x|o kk]|[v|x|o kk] evh todo sb|c|x g r kk|q g [v|x] kk|test|[v|x|o kk]]; auto.
    + destruct evh as [x|]; auto. exists ev. split; auto. apply evset_other; auto; congruence.
    + destruct c; auto. eapply evclear_reg; eauto. apply evset_other; auto; congruence.
    + destruct (nth_error (evs s) x) as [ev0|] eqn:E0; auto. rewrite (put_nth_get _ _ _ _ e E0). destruct (Nat.eqb_spec e x) as [->|]; auto. rewrite Ee in E0. injection E0 as <-.
      eexists. split; [reflexivity|]. simpl. split; auto. unfold remove1. apply filter_In. split; auto. destruct (Nat.eqb_spec g f) as [->|]; auto.
      destruct (CD _ _ Hc) as [fu3 [E3 [P3 _]]]. rewrite E in E3. injection E3 as <-. unfold pending in P3. rewrite P in P3. discriminate.
    + destruct (clock s); auto; apply Q; discriminate.
  - rewrite K' in Sp. destruct Sp as [[_ X]|[[Sp _]|[_ X]]]; try discriminate. cbn [snd coreof] in *.
    assert (Lf' : f < List.length (futs (step fire s))) by (apply nth_error_Some; congruence).
    assert (Q : forall t e k, List.length (futs s) <= f -> f < List.length (futs (exec_op s t (OEvWait e) k)) -> exists ev', nth_error (evop s (OEvWait e)) e = Some ev' /\ In f (e_waiters ev') /\ e_val ev' = false).
    { intros t0 e0 k0 L1 L2. destruct (len_evwait s t0 e0 k0 f L1 L2) as [ev [Ee [V ->]]]. eapply evwait_reg; eauto. }
    rewrite step_evs. unfold Loop_Model.step in Lf'. unfold evafter. unfold creates in Sp. destruct (cur s) as [[t b]|] eqn:Hc; [|contradiction].
    destruct b as [[v|x|o kk]|[v|x|o kk] evh todo sb|[]|x g r kk|q g [v|x] kk|test|[v|x|o kk]]; try contradiction; cbn [exec_body] in Lf'; simpl in Sp.
    + subst o. eapply Q; eauto.
    + subst o. eapply Q; eauto.
    + discriminate.
    + injection Sp as ->. destruct (clock s) eqn:Cl.
      * destruct (len_evwait (set_tdone s (Some true)) t 0 _ f Lf Lf') as [ev [Ee [V ->]]]. exact (evwait_reg s 0 ev Ee V).
      * exfalso. unfold finish, conclude in Lf'. destruct (fget (set_tdone s (Some true)) t) as [fx|]; [destruct (pending fx)|]; simpl in Lf'; rewrite ?put_nth_length in Lf'; lia.
    + subst o. eapply Q; eauto.
Qed.
Lemma step_ev0 fire s : Hev s -> Ev0 s -> Ev0 (step fire s).
Proof.
  intros H [ws E]. unfold Ev0. rewrite step_evs. unfold evafter.
  assert (C0 : forall E' ev, nth_error E' 0 = Some ev -> e_priv ev = true -> exists ws, nth_error (evclear E' 0) 0 = Some (mk_event false ws true)).
  { intros E' ev X P. unfold evclear. rewrite X, (put_nth_get _ _ _ _ 0 X). simpl. rewrite P. eauto. }
  assert (Q : forall o, exists ws, nth_error (evop s o) 0 = Some (mk_event false ws true)).
  { intros o. unfold evop. destruct o as [f0|m|fl| |p|f0|f0| |e0|e0|e0| |q v|q|q| |h z [|]|l| |]; eauto.
    - exists ws. now apply app_reg.
    - destruct (nth_error (evs s) e0) as [ev0|] eqn:E0; eauto. destruct (e_priv ev0) eqn:P0; eauto. exists ws. apply evset_other; auto. intros ->. rewrite E in E0. injection E0 as <-. discriminate.
    - destruct (nth_error (evs s) e0) as [ev0|] eqn:E0; eauto. destruct (e_priv ev0) eqn:P0; eauto. unfold evclear. rewrite E0, (put_nth_get _ _ _ _ 0 E0). destruct e0; simpl; eauto. rewrite E in E0. injection E0 as <-. discriminate.
    - destruct (nth_error (evs s) e0) as [ev0|] eqn:E0; eauto. destruct (e_val ev0) eqn:V0; eauto. rewrite (put_nth_get _ _ _ _ 0 E0). destruct e0; simpl; eauto. rewrite E in E0. injection E0 as <-. simpl. eauto.
    - exists ws. now apply app_reg. }
  destruct (cur s) as [[t b]|] eqn:Hc; eauto. pose proof (h_cur _ H _ _ Hc) as HB. destruct b as [[v|x|o kk]|[v|x|o kk] evh todo sb|[]|x g r kk|q g [v|x] kk|test|[v|x|o kk]]; eauto.
  - destruct evh as [x|]; eauto. exists ws. apply evset_other; auto. destruct HB as [HB _]. intros ->. now apply HB.
  - unfold evset. rewrite E. cbn [e_val e_waiters e_priv]. apply (C0 _ (mk_event true ws true)); auto. rewrite (put_nth_get _ _ _ _ 0 E). reflexivity.
  - destruct (nth_error (evs s) x) as [ev0|] eqn:E0; eauto. rewrite (put_nth_get _ _ _ _ 0 E0). destruct x; simpl; eauto. rewrite E in E0. injection E0 as <-. simpl. eauto.
  - destruct (clock s); eauto.
Qed.
Record Evi s : Prop := mk_evi { v_wf : Wf s; v_linked : Linked s; v_hev : Hev s; v_done : CurDone s; v_reg : EvW s; v_zero : Ev0 s }.
Lemma step_evi fire s : Evi s -> Evi (step fire s).
Proof.
  intros [A B C D E G]. constructor; [now apply step_wf|now apply step_linked|now apply step_hev|now apply step_curdone|now apply step_evw|now apply step_ev0].
Qed.
Lemma reach_evi test m s : steps (init test m) s -> Evi s.
Proof.
  intros R. apply (steps_ind_inv shuffle dut delayers Evi _ _) in R; auto; [intros; now apply step_evi|].
  constructor; [apply init_wf|apply init_linked|apply init_hev|intros t b X; discriminate| |].
  - intros [|[|f]] fu e E; simpl in E; try discriminate. injection E as <-. discriminate.
  - exists []. reflexivity.
Qed.
End Ev.
