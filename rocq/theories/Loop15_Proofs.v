(** Every registered hook runs at most once. *)
From Coq Require Import List Bool Arith ZArith Lia Permutation.
From Verif Require Import Py Prio_Model Prio_Proofs Loop_Model Loop_Spec Loop_Proofs Loop2_Proofs Loop3_Proofs Loop4_Proofs Loop7_Proofs Loop8_Proofs Loop9_Proofs Loop10_Proofs Loop13_Proofs Loop14_Proofs.
Import ListNotations.
Open Scope nat_scope.

Section Once.
Context {mem : Type}.
Notation prog := (@prog mem). Notation state := (@state mem). Notation body := (@body mem). Notation task := (@task mem).
Notation fut := (@fut mem). Notation kind := (@kind mem).
Implicit Types (s : state) (F : list fut).
Context (shuffle : list id -> list id) (dut delayers : mem -> mem).
Notation step := (step shuffle dut delayers). Notation steps := (steps shuffle dut delayers).

Definition oev (o : option id) : list id := match o with Some e => [e] | None => [] end.
Definition evp (l : list (ptask prog)) : list id := flat_map (fun p => oev (pt_done p)) l.
Definition tev (l : list (prog * option id)) : list id := flat_map (fun x => oev (snd x)) l.
Definition fresh (n : nat) (l : list id) : Prop := NoDup l /\ Forall (fun e => e < n) l.
Fixpoint ph (n : nat) (R : list id) (P : list (ptask prog)) (b : body) : Prop :=
  match b with
  | BHook _ ev todo _ => fresh n (R ++ oev ev ++ tev todo)
  | BClk (CPass todo _) => fresh n (R ++ tev todo)
  | BClk _ => fresh n (R ++ evp P)
  | BEv _ _ _ k | BGet _ _ _ k => forall r, ph n R P (k r)
  | _ => True
  end.
Definition phk n R P (k : res lval -> body) : Prop := forall r, ph n R P (k r).
Record Nd s : Prop := mk_nd
  { nd_ran : fresh (List.length (evs s)) (ran s);
    nd_prio : Forall (fun e => e < List.length (evs s)) (evp (prio s));
    nd_none : clock s = None -> fresh (List.length (evs s)) (ran s ++ evp (prio s));
    nd_linked : linked (fun _ => phk (List.length (evs s)) (ran s) (prio s)) (coreof s);
    nd_cur : forall t b, cur s = Some (t, b) -> ph (List.length (evs s)) (ran s) (prio s) b }.

Lemma fresh_le n n' l : n <= n' -> fresh n l -> fresh n' l.
Proof. intros H [A B]. split; auto. eapply Forall_impl; [|exact B]. simpl. lia. Qed.
Lemma fresh_app n l l' : fresh n (l ++ l') -> fresh n l.
Proof.
  intros [A B]. apply Forall_app in B as [B _]. split; auto. clear B. induction l as [|x l IH]; [constructor|]. simpl in A. inversion A; subst. constructor; auto. intros X. apply H1. apply in_or_app. auto.
Qed.
Lemma fresh_perm n l l' : Permutation l l' -> fresh n l -> fresh n l'.
Proof. intros H [A B]. split; [eapply Permutation_NoDup; eauto|eapply Permutation_Forall; eauto]. Qed.
Lemma fresh_new n n' l : n < n' -> fresh n l -> fresh n' (l ++ [n]).
Proof.
  intros H [A B]. eapply fresh_perm; [apply Permutation_cons_append|]. split.
  - constructor; auto. intros X. rewrite Forall_forall in B. specialize (B _ X). lia.
  - constructor; auto. eapply Forall_impl; [|exact B]. simpl. lia.
Qed.
(** The list of tasks grows by nothing, a task without event, or a task with a new event. *)
Definition grows (n n' : nat) (P P' : list (ptask prog)) : Prop := n <= n' /\ exists x, evp P' = evp P ++ x /\ (x = [] \/ (x = [n] /\ n < n')).
Lemma grows_fresh n n' P P' R : grows n n' P P' -> fresh n (R ++ evp P) -> fresh n' (R ++ evp P').
Proof.
  intros [L [x [-> X]]] H. destruct X as [->|[-> X]]; [rewrite app_nil_r; eapply fresh_le; eauto|]. rewrite app_assoc. now apply fresh_new.
Qed.
Lemma grows_ph n n' P P' R b : grows n n' P P' -> ph n R P b -> ph n' R P' b.
Proof.
  intros G. assert (L : n <= n') by apply G. induction b as [p|p ev todo sb|c|e f r k IH|q f r k IH|test|p]; cbn [ph]; auto; try (intros H; eapply fresh_le; eauto; fail).
  destruct c; try (apply grows_fresh; exact G). intros H. eapply fresh_le; eauto.
Qed.
Lemma noclk_ph n R P b : noclkb b -> ph n R P b.
Proof. induction b as [p|p ev todo sb|c|e f r k IH|q f r k IH|test|p]; cbn [ph noclkb]; auto; contradiction. Qed.
Lemma linked_imp (Q Q' : (res lval -> body) -> Prop) (x : @core mem) :
  (forall t cbs k w m, nth_error (snd x) t = Some (mkt Pending cbs k w m) -> (forall b, fst (fst x) <> Some (t, b)) -> Q k -> Q' k) -> linked (fun _ => Q) x -> linked (fun _ => Q') x.
Proof.
  intros H L t cbs k w m E Hb. pose proof (L t cbs k w m E Hb) as X. destruct w as [f|]; [destruct X as [kd [fu [E1 [K1 X]]]]; exists kd, fu; split; auto; split; auto|]; eapply H; eauto.
Qed.

(** * The list of hooks after a step *)
Definition clearing s : Prop := match cur s with Some (_, BClk (CPass [] _)) | Some (_, BHook (Ret _) (Some _) _ _) => True | _ => False end.
Lemma oeff_prio s t o : prio (oeff s t o) = match o with OPrio h z d => prio s ++ [mk_pt h z (if d then Some (List.length (evs s)) else None)] | _ => prio s end.
Proof. destruct o as [f|m|fl| |p|f|f| |e|e|e| |q v|q|q| |h z [|]|l| |]; auto. simpl. now destruct (clock s). Qed.
Lemma grow_op s o t : grows (List.length (evs s)) (List.length (evop s o)) (prio s) (prio (oeff s t o)).
Proof.
  rewrite oeff_prio. assert (Q1 : forall E e, List.length (evset E e) = List.length E) by (intros; unfold evset; destruct (nth_error E e) as [x|]; auto; destruct (e_val x); auto; apply put_nth_length).
  assert (Q2 : forall E e, List.length (evclear E e) = List.length E) by (intros; unfold evclear; destruct (nth_error E e) as [x|]; auto; apply put_nth_length).
  assert (D : List.length (evs s) <= List.length (evop s o)).
  { unfold evop. destruct o as [f0|m|fl| |p|f0|f0| |e0|e0|e0| |q v|q|q| |h z [|]|l| |]; auto; rewrite ?app_length; try lia; destruct (nth_error (evs s) e0) as [x|]; auto; [destruct (e_priv x)|destruct (e_priv x)|destruct (e_val x)]; rewrite ?Q1, ?Q2, ?put_nth_length; auto. }
  split; auto. destruct o as [f|m|fl| |p|f|f| |e|e|e| |q v|q|q| |h z [|]|l| |]; try (exists []; rewrite app_nil_r; auto; fail); unfold evp; rewrite flat_map_app; simpl.
  - exists [List.length (evs s)]. split; auto. right. split; auto. rewrite app_length. simpl. lia.
  - exists []. auto.
Qed.
Lemma step_grows fire s : ~ clearing s -> grows (List.length (evs s)) (List.length (evs (step fire s))) (prio s) (prio (step fire s)) /\ ran (step fire s) = ran s.
Proof.
  intros NC. split.
  - rewrite step_evs, (fr_prio _ _ (step_fr shuffle dut delayers fire s)). unfold clearing in NC. unfold evafter, seff. assert (D : forall E : list event, List.length (evs s) <= List.length E -> grows (List.length (evs s)) (List.length E) (prio s) (prio s)) by (intros E L; split; auto; exists []; rewrite app_nil_r; auto).
    assert (Q1 : forall E e, List.length (evset E e) = List.length E) by (intros; unfold evset; destruct (nth_error E e) as [x|]; auto; destruct (e_val x); auto; apply put_nth_length).
    assert (Q2 : forall E e, List.length (evclear E e) = List.length E) by (intros; unfold evclear; destruct (nth_error E e) as [x|]; auto; apply put_nth_length).
    destruct (cur s) as [[t b]|]; [|now apply D]. destruct b as [[v|x|o kk]|[v|x|o kk] [ev|] todo sb|[| | |[]| | | |]|x g r kk|q g [v|x] kk|test|[v|x|o kk]]; try (apply D; auto; fail); try apply grow_op; try contradiction.
    + apply D. now rewrite Q2, Q1.
    + apply D. destruct (nth_error (evs s) x); rewrite ?put_nth_length; auto.
    + change (prio (set_tdone s (Some true))) with (prio s). destruct (clock s); [|now apply D]. exact (grow_op s (OEvWait 0) 0).
  - rewrite ran_step. unfold clearing in NC. destruct (cur s) as [[t b]|]; [|apply app_nil_r]. destruct b as [p|[v|x|o kk] [ev|] todo sb|c|x g r kk|q g r kk|test|p]; try apply app_nil_r. contradiction.
Qed.
Lemma clearing_clock s t b : Clk1 s -> clearing s -> cur s = Some (t, b) -> clock s = Some t.
Proof.
  intros C H Hc. unfold clearing in H. rewrite Hc in H. destruct (option_map (Nat.eqb t) (clock s)) as [[|]|] eqn:Q.
  - destruct (clock s) as [c|]; [|discriminate]. injection Q as Q. apply Nat.eqb_eq in Q. now subst.
  - exfalso. assert (Y : clock s <> Some t) by (intros Z; rewrite Z in Q; simpl in Q; rewrite Nat.eqb_refl in Q; discriminate). pose proof (proj1 (C t Y) b Hc) as X.
    destruct b as [p|[v|x|o kk] [ev|] todo sb|c|x g r kk|q g r kk|test|p]; cbn [noclkb] in X; contradiction.
  - exfalso. assert (Y : clock s <> Some t) by (intros Z; rewrite Z in Q; discriminate). pose proof (proj1 (C t Y) b Hc) as X.
    destruct b as [p|[v|x|o kk] [ev|] todo sb|c|x g r kk|q g r kk|test|p]; cbn [noclkb] in X; contradiction.
Qed.
Lemma clearing_dec s : clearing s \/ ~ clearing s.
Proof. unfold clearing. destruct (cur s) as [[t b]|]; auto. destruct b as [p|[v|x|o kk] [ev|] todo sb|[| | |[]| | | |]|x g r kk|q g r kk|test|p]; auto. Qed.
Lemma start_phk n R P b : ph n R P b -> phk n R P (start b). Proof. intros H [v|e]; simpl; auto. Qed.

(** The continuations stored by the running task. *)
Definition again s (b : body) : Prop := match b with BProg (Op OStartClock _) | BHook (Op OStartClock _) _ _ _ | BTest (Op OStartClock _) => clock s <> None | _ => False end.
Lemma ph_stores fire s t b : Nd s -> ~ clearing s -> cur s = Some (t, b) -> ~ again s b -> stores (fun _ => phk (List.length (evs (step fire s))) (ran (step fire s)) (prio (step fire s))) b.
Proof.
  intros N NC Hc HA. destruct (step_grows fire s NC) as [G Hr]. rewrite Hr. pose proof (nd_cur _ N _ _ Hc) as HB. set (n := List.length (evs (step fire s))) in *. set (P := prio (step fire s)) in *.
  assert (O : forall o k, phk n (ran s) P k -> (o = OStartClock -> clock s = None) -> opstores (fun _ => phk n (ran s) P) o k).
  { intros o k HK HO. destruct o; simpl; auto.
    - intros r; destruct r; exact Logic.I.
    - intros f r x. exact (HK x).
    - intros f r x. exact (HK x).
    - apply start_phk. simpl. eapply grows_fresh; [exact G|]. apply (nd_none _ N). now apply HO. }
  assert (HO : forall o : @op mem prog, (o = OStartClock -> clock s = None) \/ (o = OStartClock /\ clock s <> None)).
  { intros o. destruct (clock s) as [c|]; auto. destruct o; auto; try (left; intros X; discriminate X). right. split; auto. discriminate. }
  destruct b as [[v|x|o kk]|[v|x|o kk] ev todo sb|c|x g r kk|q g [v|x] kk|test|[v|x|o kk]]; cbn [stores]; auto.
  - apply O; [intros r; exact Logic.I|]. destruct (HO o) as [X|[-> X]]; auto. contradiction.
  - apply O; [|destruct (HO o) as [X|[-> X]]; auto; contradiction]. intros r. cbn [ph] in *. eapply fresh_le; [apply G|exact HB].
  - assert (S0 : fresh (List.length (evs s)) (ran s ++ evp (prio s)) -> forall c, match c with CPass _ _ => False | _ => True end -> phk n (ran s) P (start (BClk c))).
    { intros H c0 Hc0. apply start_phk. destruct c0; try contradiction; simpl; eapply grows_fresh; eauto. }
    destruct c as [| | |todo sb| | | |last]; cbn [ph] in HB; auto; try (apply S0; auto; exact Logic.I).
  - intros f r y. eapply grows_ph; [exact G|]. apply HB.
  - apply O; [intros r; exact Logic.I|discriminate].
  - apply O; [intros r; exact Logic.I|]. destruct (HO o) as [X|[-> X]]; auto. contradiction.
Qed.
(** * The step *)
Lemma again_futs fire s t b : cur s = Some (t, b) -> again s b -> futs (step fire s) = futs s.
Proof.
  intros Hc HA. unfold Loop_Model.step. rewrite Hc. destruct b as [[v|x|o kk]|[v|x|o kk] ev todo sb|c|x g r kk|q g r kk|test|[v|x|o kk]]; cbn [again] in HA; try contradiction; destruct o; try contradiction; cbn [exec_body exec_op]; destruct (clock s); auto; contradiction.
Qed.
Lemma step_linked_nd fire s : Wf s -> Clk1 s -> Nd s -> linked (fun _ => phk (List.length (evs (step fire s))) (ran (step fire s)) (prio (step fire s))) (coreof (step fire s)).
Proof.
  intros W C N. pose proof W as [I K].
  assert (L0 : linked (fun _ => phk (List.length (evs (step fire s))) (ran (step fire s)) (prio (step fire s))) (coreof s)).
  { eapply linked_imp; [|exact (nd_linked _ N)]. intros t cbs k w m E Hb Q r. cbn [coreof fst snd] in *. destruct (clearing_dec s) as [CL|NC].
    - apply noclk_ph. destruct (cur s) as [[t0 b]|] eqn:Hc; [|unfold clearing in CL; rewrite Hc in CL; contradiction]. pose proof (clearing_clock s t0 b C CL Hc) as Cl.
      assert (Y : clock s <> Some t) by (rewrite Cl; intros X; injection X as ->; eapply Hb; reflexivity). exact (proj2 (C t Y) _ _ _ _ _ E r).
    - destruct (step_grows fire s NC) as [G ->]. eapply grows_ph; [exact G|]. apply Q. }
  destruct (cur s) as [[t b]|] eqn:Hc.
  2: { eapply mstar_linked; [|exact L0]. apply (step_core shuffle dut delayers (fun _ => phk _ _ _)); auto. intros t b X. congruence. }
  destruct (clearing_dec s) as [CL|NC].
  - eapply mstar_linked; [|exact L0]. apply (step_core shuffle dut delayers (fun _ => phk _ _ _)); auto. intros t1 b1 X. rewrite Hc in X. injection X as <- <-.
    unfold clearing in CL. rewrite Hc in CL. destruct b as [p|[v|x|o kk] [ev|] todo sb|[| | |[]| | | |]|x g r kk|q g r kk|test|p]; try contradiction; exact Logic.I.
  - assert (HA : again s b \/ ~ again s b).
    { destruct b as [[v|x|o kk]|[v|x|o kk] ev todo sb|c|x g r kk|q g r kk|test|[v|x|o kk]]; cbn [again]; auto; destruct o; auto; destruct (clock s); auto; left; discriminate. }
    destruct HA as [HA|HA].
    + intros t1 cbs k w m E Hb. cbn [coreof fst snd] in *. rewrite (again_futs fire s t b Hc HA) in E.
      assert (Hb0 : forall b0, cur s <> Some (t1, b0)).
      { intros b0 X. rewrite Hc in X. injection X as <- <-. assert (Y : exists b', cur (step fire s) = Some (t, b')).
        { unfold Loop_Model.step. rewrite Hc. clear - HA. destruct b as [[v|x|o kk]|[v|x|o kk] ev todo sb|c|x g r kk|q g r kk|test|[v|x|o kk]]; cbn [again] in HA; try contradiction; destruct o; try contradiction; cbn [exec_body exec_op]; destruct (clock s); eexists; reflexivity. }
        destruct Y as [b' Y]. eapply Hb; eauto. }
      pose proof (L0 t1 cbs k w m E Hb0) as X. cbn [coreof fst snd] in X. now rewrite (again_futs fire s t b Hc HA).
    + eapply mstar_linked; [|exact L0]. apply (step_core shuffle dut delayers (fun _ => phk _ _ _)); auto. intros t1 b1 X. rewrite Hc in X. injection X as <- <-. eapply ph_stores; eauto.
Qed.
Lemma tev_sorted (l : list (ptask prog)) : Permutation (tev (map (fun p => (pt_coro p, pt_done p)) (pt_sorted l))) (evp l).
Proof.
  assert (X : tev (map (fun p => (pt_coro p, pt_done p)) (pt_sorted l)) = evp (pt_sorted l)) by (unfold tev, evp; induction (pt_sorted l) as [|x l0 IH]; simpl; auto; now rewrite IH).
  rewrite X. unfold evp. apply Permutation_flat_map. apply pt_sorted_perm.
Qed.
Lemma step_nd fire s : Wf s -> Clk1 s -> Nd s -> Nd (step fire s).
Proof.
  intros W C N. pose proof W as [I K]. pose proof (len_evs shuffle dut delayers fire s) as L. destruct (clearing_dec s) as [CL|NC].
  - destruct (cur s) as [[t b]|] eqn:Hc; [|unfold clearing in CL; rewrite Hc in CL; contradiction]. pose proof (clearing_clock s t b C CL Hc) as Cl. pose proof (nd_cur _ N _ _ Hc) as HB.
    assert (D : (exists v e todo sb, b = BHook (Ret v) (Some e) todo sb) \/ exists sb, b = BClk (CPass [] sb)).
    { unfold clearing in CL. rewrite Hc in CL. destruct b as [p|[v|x|o kk] [ev|] todo sb|[| | |[]| | | |]|x g r kk|q g r kk|test|p]; try contradiction; eauto 10. }
    assert (PR : prio (step fire s) = match b with BHook _ _ _ _ => prio s | _ => [] end).
    { rewrite (fr_prio _ _ (step_fr shuffle dut delayers fire s)). unfold seff. rewrite Hc. destruct D as [[v [e [todo [sb ->]]]]|[sb ->]]; reflexivity. }
    pose proof (ran_step shuffle dut delayers fire s) as RR. rewrite Hc in RR. constructor.
    + rewrite RR. destruct D as [[v [e [todo [sb ->]]]]|[sb ->]]; cbn [ph oev] in HB; eapply fresh_le; try exact L.
      * rewrite app_assoc in HB. now apply fresh_app in HB.
      * simpl in HB. exact HB.
    + rewrite PR. destruct D as [[v [e [todo [sb ->]]]]|[sb ->]]; [|constructor]. eapply Forall_impl; [|exact (nd_prio _ N)]. simpl. lia.
    + intros X. exfalso. pose proof (clock_step shuffle dut delayers fire s t Cl). congruence.
    + now apply step_linked_nd.
    + intros t' b' Hc'. destruct (step_cur shuffle dut delayers fire s t' b' W Hc') as [[b0 [X Hn]]|[X _]]; [|congruence]. rewrite Hc in X. injection X as <- <-.
      rewrite RR, PR. destruct D as [[v [e [todo [sb ->]]]]|[sb ->]]; cbn [nextb] in Hn; subst b'; cbn [ph oev] in *.
      * rewrite <- app_assoc. eapply fresh_le; eauto.
      * destruct sb; cbn [ph evp flat_map]; rewrite !app_nil_r; simpl in HB; rewrite app_nil_r in HB; eapply fresh_le; eauto.
  - destruct (step_grows fire s NC) as [G RR]. constructor.
    + rewrite RR. eapply fresh_le; [exact L|apply (nd_ran _ N)].
    + destruct G as [_ [x [-> X]]]. apply Forall_app. split.
      * eapply Forall_impl; [|exact (nd_prio _ N)]. simpl. lia.
      * destruct X as [->|[-> X]]; auto.
    + intros X. rewrite RR. eapply grows_fresh; [exact G|]. apply (nd_none _ N). destruct (clock s) as [c|] eqn:Cl; auto. pose proof (clock_step shuffle dut delayers fire s c Cl). congruence.
    + now apply step_linked_nd.
    + intros t' b' Hc'. rewrite RR. eapply grows_ph; [exact G|]. destruct (step_cur shuffle dut delayers fire s t' b' W Hc') as [[b [Hc Hn]]|[Hc [h [r [n [st [cbs [k [w [m [Hr [Hb [Ho [E ->]]]]]]]]]]]]]].
      * pose proof (nd_cur _ N _ _ Hc) as HB. destruct b as [[v|e|o kk]|[v|e|o kk] ev todo sb|c|e f r kk|q f [v|e] kk|test|[v|e|o kk]]; cbn [nextb] in Hn; try contradiction; try (subst b'; exact Logic.I); try (destruct Hn as [r [_ ->]]; try exact Logic.I; exact HB).
        -- subst b'. destruct ev as [e|]; [unfold clearing in NC; rewrite Hc in NC; contradiction|]. exact HB.
        -- destruct c as [| | |[|[h ev] todo] sb| | | |last]; try contradiction; cbn [ph] in HB; try (subst b'; exact HB).
           ++ destruct Hn as [->|[_ [_ ->]]]; [exact HB|]. cbn [ph]. eapply fresh_perm; [|exact HB]. apply Permutation_app_head. symmetry. apply tev_sorted.
           ++ unfold clearing in NC. rewrite Hc in NC. contradiction.
           ++ subst b'. destruct (tdone s) as [[|]|]; exact HB.
        -- subst b'. apply HB.
        -- destruct Hn as [r [_ ->]]. apply HB.
        -- subst b'. apply HB.
      * assert (Hin : In h (ready s)) by (rewrite Hr; now left). destruct (handle_live _ I h t' Hin Ho) as [cbs' [k' [w' [m' E']]]]. cbn [snd coreof] in E'. rewrite E in E'. injection E' as -> <- <- <- <-.
        assert (Hcn : forall b, cur s <> Some (t', b)) by congruence. pose proof (nd_linked _ N t' _ _ _ _ E Hcn) as X. destruct w as [f0|]; [destruct X as [kd [fu0 [_ [_ X]]]]|]; apply X.
Qed.
Lemma init_nd test m : Nd (init test m : state).
Proof.
  constructor; try (intros; discriminate).
  - split; constructor.
  - constructor.
  - intros _. split; constructor.
  - intros t cbs k w mu E Hb. destruct t as [|[|t]]; simpl in E; try discriminate. injection E as _ <- <- _. intros [v|e]; exact Logic.I.
Qed.
Lemma reach_nd test m s : steps (init test m) s -> All s /\ Nd s.
Proof.
  intros R. split; [eapply reach_all; eauto|]. assert (X : Wf s /\ Clk1 s /\ Nd s); [|apply X].
  apply (steps_ind_inv shuffle dut delayers (fun s => Wf s /\ Clk1 s /\ Nd s) _ _) in R; auto; [|split; [apply init_wf|split; [apply init_clk1|apply init_nd]]].
  intros fire s0 [A [B D]]. split; [now apply step_wf|]. split; [now apply step_clk1|now apply step_nd].
Qed.
(** Every hook runs at most once, and only after it has been registered. *)
Theorem ran_once test m s : steps (init test m) s -> NoDup (ran s) /\ forall e, In e (ran s) -> e < List.length (evs s).
Proof. intros R. destruct (reach_nd test m s R) as [_ N]. destruct (nd_ran _ N) as [A B]. split; auto. rewrite Forall_forall in B. auto. Qed.
End Once.
