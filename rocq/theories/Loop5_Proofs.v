(** Executions without cancellation, up to the end of the test. *)
From Coq Require Import List Bool Arith ZArith Lia.
From Verif Require Import Py Prio_Model Loop_Model Loop_Spec Loop_Proofs Loop2_Proofs Loop3_Proofs Loop4_Proofs.
Import ListNotations.
Open Scope nat_scope.

Section NC.
Context {mem : Type}.
Notation prog := (@prog mem). Notation state := (@state mem). Notation body := (@body mem). Notation task := (@task mem).
Notation fut := (@fut mem). Notation kind := (@kind mem).
Implicit Types (s : state) (F : list fut).
Context (shuffle : list id -> list id) (dut delayers : mem -> mem).
Notation step := (step shuffle dut delayers). Notation steps := (steps shuffle dut delayers).
Notation CE := (Exn CancelledError).

(** Only RuntimeError is thrown into tasks. *)
Definition Thr (c : @core mem) : Prop := forall t e, In (HThrow t e) (snd (fst c)) -> e = RuntimeError.
Lemma m1_thr N S (c c1 : @core mem) : m1 N S c c1 -> Thr c -> Thr c1.
Proof.
  intros H A x e Hx. unfold Thr in A. destruct H; cbn [fst snd] in *; try (eapply A; eauto; fail); try (apply in_app_or in Hx as [Hx|Hx]; [eapply A; eauto; fail|]).
  - apply in_map_iff in Hx as [y [E _]]. destruct y; discriminate.
  - destruct Hx as [E|[]]. subst h. contradiction.
  - destruct Hx as [E|[]]. discriminate.
  - destruct Hx as [E|[]]. subst h. destruct H0 as [E|E]; [discriminate|]. now injection E as _ ->.
  - apply in_map_iff in Hx as [y [E _]]. destruct y; discriminate.
  - eapply A. right. exact Hx.
  - eapply A. right. exact Hx.
Qed.
Lemma step_thr fire s : Wf s -> Thr (coreof s) -> Thr (coreof (step fire s)).
Proof. intros [I K] T. apply (mstar_inv _ _ Thr _ _ (m1_thr _ _) (True_ms_kin shuffle dut delayers fire s I K) T). Qed.

Definition okst (st : fstate) : Prop := st <> Canc /\ st <> Finished CE.
Definition okfut (fu : fut) : Prop :=
  okst (f_st fu) /\ match f_kind fu with KTask k => k_must k = false | _ => forall e, f_st fu <> Finished (Exn e) end.
Definition okF F : Prop := forall f fu, nth_error F f = Some fu -> okfut fu.
Lemma m1_ok N (S : @perm mem) (c c1 : @core mem) : (forall k st, is_task k = false -> S k st -> st <> Canc /\ forall e, st <> Finished (Exn e)) ->
  (forall tk st, k_must tk = false -> S (KTask tk) st -> okst st) -> m1 N S c c1 -> okF (snd c) -> okF (snd c1).
Proof.
  intros S1 S2 H A. destruct H; cbn [snd] in *; auto; intros x fu E.
  - rewrite (put_nth_get _ _ _ _ x H) in E. destruct (Nat.eqb x f); [|eauto]. injection E as <-. destruct (S1 k st' H1 H3) as [X Y]. split; [split; auto|].
    simpl. destruct k; auto. discriminate.
  - rewrite (put_nth_get _ _ _ _ x H) in E. destruct (Nat.eqb x t); [|eauto]. injection E as <-. destruct (A t _ H) as [X Y]. simpl in Y. split; auto. simpl.
    destruct m'; auto. exfalso. apply (proj1 (S2 (mk_task k w m) Canc Y (H0 eq_refl))). reflexivity.
  - rewrite (put_nth_get _ _ _ _ x H) in E. destruct (Nat.eqb x f); [|eauto]. injection E as <-. destruct (A f _ H) as [X Y]. split; auto.
  - rewrite (put_nth_get _ _ _ _ x H) in E. destruct (Nat.eqb x f); [|eauto]. injection E as <-. destruct (A f _ H) as [X Y]. split; auto. simpl in *. destruct k, k'; simpl in *; auto; contradiction.
  - rewrite nth_app_new in E. destruct (Nat.eqb x (List.length F)); [|eauto]. injection E as <-. unfold okfut, okst. simpl.
    destruct H0 as [->| ->]; (split; [split; discriminate|]); destruct k; discriminate.
  - rewrite nth_app_new in E. destruct (Nat.eqb x (List.length F)); [|eauto]. injection E as <-. repeat split; discriminate.
  - rewrite (put_nth_get _ _ _ _ x H) in E. destruct (Nat.eqb x t); [|eauto]. injection E as <-. destruct (A t _ H) as [X Y]. split; auto.
  - assert (E1 : nth_error (put_nth t (mkt st cbs k (Some f) m) F) f = Some (mk_fut Pending cbs' kd)).
    { rewrite (put_nth_get _ _ _ _ f H). destruct (Nat.eqb_spec f t); [congruence|assumption]. }
    rewrite (put_nth_get _ _ _ _ x E1) in E. destruct (Nat.eqb x f).
    + injection E as <-. destruct (A f _ H0) as [X Y]. split; auto.
    + rewrite (put_nth_get _ _ _ _ x H) in E. destruct (Nat.eqb x t); [|eauto]. injection E as <-. destruct (A t _ H) as [X Y]. split; auto.
  - rewrite (put_nth_get _ _ _ _ x H) in E. destruct (Nat.eqb x t); [|eauto]. injection E as <-. destruct (A t _ H) as [X Y]. split; auto. simpl. eapply S2; eauto. exact Y.
  - rewrite (put_nth_get _ _ _ _ x H0) in E. destruct (Nat.eqb x t); [|eauto]. injection E as <-. destruct (A t _ H0) as [X Y]. split; auto. reflexivity.
Qed.

Fixpoint ncb (b : body) : Prop :=
  match b with
  | BProg p | BMain p | BTest p => nocancel p
  | BHook p _ todo _ => nocancel p /\ Forall (fun x => nocancel (fst x)) todo
  | BClk (CPass todo _) => Forall (fun x => nocancel (fst x)) todo
  | BClk CCancel => False
  | BClk _ => True
  | BEv _ _ r k | BGet _ _ r k => r <> CE /\ forall r, r <> CE -> ncb (k r)
  end.
Definition nck (k : res lval -> body) : Prop := forall r, r <> CE -> ncb (k r).
Record NC s : Prop := mk_nc
  { n_ok : okF (futs s);
    n_conts : conts nck (futs s);
    n_cur : forall t b, cur s = Some (t, b) -> ncb b;
    n_prio : Forall (fun p => nocancel (pt_coro p)) (prio s);
    n_get : forall t q f r k, cur s = Some (t, BGet q f r k) -> exists v, r = Ok v }.

Lemma nc_op_inv (o : @op mem prog) k : nocancel (Op o k) -> match o with OCancel _ => False | OMem f => forall m, snd (f m) <> CE | _ => True end /\
  (forall p, part o p -> nocancel p) /\ (forall r, r <> CE -> nocancel (k r)).
Proof. intros H. inversion H; subst. auto. Qed.
Lemma nc_nocancels s : NC s -> ~ cancels s.
Proof.
  intros [O C U P G] [[t [tk [T M]]]|H].
  - destruct (tget_fut _ _ _ T) as [st [cbs E]]. destruct (O t _ E) as [_ Y]. simpl in Y. congruence.
  - destruct (cur s) as [[t b]|] eqn:Hc; auto. specialize (U t b eq_refl).
    destruct b as [[v|e|o kk]|[v|e|o kk] ev todo sb|c|e f r kk|q f [v|e] kk|test|[v|e|o kk]]; auto; simpl in U.
    + apply nc_op_inv in U as [U _]. destruct o; auto.
    + destruct U as [U _]. apply nc_op_inv in U as [U _]. destruct o; auto.
    + destruct c; auto.
    + destruct (G t q f (Exn e) kk eq_refl). discriminate.
    + apply nc_op_inv in U as [U _]. destruct o; auto.
Qed.
Lemma start_nck (b : body) : ncb b -> nck (start b).
Proof. intros H [v|e] Hr; simpl; auto. constructor. congruence. Qed.
Lemma nc_opstores (o : @op mem prog) k kk : nocancel (Op o k) -> nck kk -> opstores (fun _ => nck) o kk.
Proof.
  intros H1 H2. apply nc_op_inv in H1 as [H1 [H3 H4]]. destruct o; simpl; auto.
  - apply start_nck. apply H3. constructor.
  - intros f r Hr. simpl. auto.
  - intros f r Hr. simpl. auto.
  - apply start_nck. exact I.
Qed.
Lemma nc_stores (b : body) : ncb b -> stores (fun _ => nck) b.
Proof.
  destruct b as [[v|e|o kk]|[v|e|o kk] ev todo sb|[]|e f r kk|q f [v|e] kk|test|[v|e|o kk]]; simpl; intros H; auto; try (apply start_nck; exact I).
  - eapply nc_opstores; eauto. intros r Hr. simpl. apply nc_op_inv in H. now apply H.
  - destruct H as [H1 H2]. eapply nc_opstores; eauto. intros r Hr. simpl. split; auto. apply nc_op_inv in H1. now apply H1.
  - contradiction.
  - intros g r Hr. simpl. split; auto. apply H.
  - intros f r Hr. simpl. split; auto. intros [w|e] He; constructor. congruence.
  - eapply nc_opstores; eauto. intros r Hr. simpl. apply nc_op_inv in H. now apply H.
Qed.
Lemma opres_ok s o k r : okF (futs s) -> nocancel (Op o k) -> opres s o r -> r <> CE.
Proof.
  intros O H1 R. apply nc_op_inv in H1 as [H1 _]. destruct o as [f|m|fl| |p|f|f| |e|e|e| |q v|q|q| |h z [|]|l| |]; simpl in *; try (subst r; discriminate); try contradiction.
  - subst r. apply H1.
  - destruct (fget s f) as [fu|] eqn:E; [|subst; discriminate]. destruct (nameable (f_kind fu)); [|subst; discriminate]. destruct R as [Hp ->].
    destruct (O f fu E) as [[X Y] _]. unfold outcome, pending in *. destruct (f_st fu); congruence.
  - destruct (nth_error (evs s) e) as [ev|]; [destruct (e_priv ev)|]; subst; discriminate.
  - destruct (nth_error (evs s) e) as [ev|]; [destruct (e_priv ev)|]; subst; discriminate.
  - destruct (nth_error (evs s) e) as [ev|]; [destruct R as [_ R]|]; subst; discriminate.
  - destruct (nth_error (qs s) q) as [ev|]; subst; discriminate.
  - destruct (nth_error (qs s) q) as [ev|]; [destruct R as [x [_ R]]|]; subst; discriminate.
  - destruct (nth_error (qs s) q) as [ev|]; subst; discriminate.
  - destruct (clock s); subst; discriminate.
Qed.
Lemma hres_ok s h t : okF (futs s) -> Thr (coreof s) -> Wf s -> In h (ready s) -> owner h = Some t -> hres (futs s) h <> CE.
Proof.
  intros O T [I K] Hh Ho. destruct h as [x|x e|x f|g| |f]; simpl in *; try discriminate.
  - rewrite (T x e Hh). discriminate.
  - destruct (i_wake _ I x f Hh) as [_ [fu [E P]]]. cbn [snd coreof] in E. rewrite E. destruct (O f fu E) as [[X Y] _]. unfold outcome, pending in *. destruct (f_st fu); try discriminate; congruence.
Qed.
Lemma step_nc fire s : Wf s -> Linked s -> Thr (coreof s) -> (forall c, cur s = Some (c, BClk CTail) -> tdone s <> Some true) -> NC s -> NC (step fire s).
Proof.
  intros W L T TD N0. pose proof (nc_nocancels s N0) as NX. destruct N0 as [O C U P G]. pose proof W as [I K].
  assert (M : mstar (fun _ => nck) (Sof s) (coreof s) (coreof (step fire s))).
  { apply step_core; auto. intros t b Hc. apply nc_stores. eauto. }
  assert (CU : forall t' b', cur (step fire s) = Some (t', b') -> ncb b' /\ forall q f r k, b' = BGet q f r k -> exists v, r = Ok v).
  { intros t' b' Hc'. destruct (step_cur shuffle dut delayers fire s t' b' W Hc') as [[b [Hc Hn]]|[Hc [h [r [n [st [cbs [k [w [m [Hr [Hb [Ho [E ->]]]]]]]]]]]]]].
    - specialize (U _ _ Hc). pose proof (proj2 L _ _ Hc) as CF.
      assert (PL : forall b : body, plainb b = true -> forall q f r k, b = BGet q f r k -> exists v, r = Ok v) by (intros [] X q0 f0 r0 k0 Y; subst; discriminate).
      destruct b as [[v|e|o kk]|[v|e|o kk] ev todo sb|c|e f r kk|q f [v|e] kk|test|[v|e|o kk]]; cbn [nextb ncb] in *; try contradiction.
      + destruct Hn as [r [R ->]]. split; [|now apply PL]. simpl. pose proof (opres_ok s o kk r O U R). apply nc_op_inv in U. now apply U.
      + subst b'. split; [|now apply PL]. simpl. apply U.
      + subst b'. split; [|now apply PL]. simpl. destruct U as [U _]. exact U.
      + destruct Hn as [r [R ->]]. split; [|now apply PL]. simpl. destruct U as [U1 U2]. split; auto. pose proof (opres_ok s o kk r O U1 R). apply nc_op_inv in U1. now apply U1.
      + destruct c as [| | |[|[h ev] todo] sb| | | |last]; try contradiction.
        * subst b'. split; [exact Logic.I|now apply PL].
        * destruct Hn as [->|[_ [_ ->]]]; (split; [|now apply PL]); [exact Logic.I|]. simpl. apply Forall_forall. intros x Hx. apply in_map_iff in Hx as [p [<- Hp]].
          apply sorted_In in Hp. revert p Hp. apply Forall_forall. exact P.
        * subst b'. destruct sb; (split; [exact Logic.I|now apply PL]).
        * subst b'. split; [|now apply PL]. inversion U; subst. simpl. auto.
        * specialize (TD _ Hc). subst b'. destruct (tdone s) as [[|]|]; try congruence; (split; [exact Logic.I|now apply PL]).
        * subst b'. split; [exact Logic.I|now apply PL].
      + subst b'. split; [|apply PL; apply CF]. apply U. destruct U as [U _]. destruct r; congruence.
      + destruct Hn as [r [R ->]]. split; [|apply PL; apply CF]. apply U. simpl in R. destruct (nth_error (qs s) q); [destruct R as [x [_ R]]|]; congruence.
      + subst b'. split; [|apply PL; apply CF]. apply U. apply U.
      + subst b'. split; [exact U|now apply PL].
      + destruct Hn as [r [R ->]]. split; [|now apply PL]. simpl. destruct r; constructor. unfold opres in R. destruct (nth_error (evs s) 0); [destruct R as [_ R]|]; congruence.
      + destruct Hn as [r [R ->]]. split; [|now apply PL]. simpl. pose proof (opres_ok s o kk r O U R). apply nc_op_inv in U. now apply U.
    - assert (Hin : In h (ready s)) by (rewrite Hr; now left). destruct (O t' _ E) as [_ Om]. simpl in Om. subst m. pose proof (hres_ok s h t' O T W Hin Ho) as HR.
      split; [apply (C _ _ _ _ _ _ E); auto|]. intros q f r0 k0 Ek. destruct (handle_live _ I h t' Hin Ho) as [cbs' [k' [w' [m' E']]]]. cbn [snd coreof] in E'. rewrite E in E'. injection E' as -> <- <- <- <-.
      assert (Hcn : forall b, cur s <> Some (t', b)) by congruence. pose proof (proj1 L t' _ _ _ _ E Hcn) as L1. assert (WW : waitof (futs s) t' = Some w) by (apply (waitof_task _ _ _ _ _ _ _ E)).
      destruct w as [f'|]; [|specialize (L1 (hres (futs s) h)); rewrite Ek in L1; discriminate L1]. destruct L1 as [kd [fu [Ef [Kr Fi]]]]. cbn [snd coreof] in Ef.
      destruct kd; simpl in Fi; try (specialize (Fi (hres (futs s) h)); rewrite Ek in Fi; discriminate Fi).
      { destruct Fi as [kk [-> _]]. discriminate Ek. }
      destruct Fi as [kk [-> _]]. injection Ek as <- <- <- <-. destruct (f_kind fu) eqn:Kf; simpl in Kr; try contradiction.
      destruct h as [x|x e|x f''|g| |f'']; simpl in Ho; try discriminate; injection Ho as ->.
      + pose proof (i_step _ I t' Hin) as X. cbn [snd coreof] in X. congruence.
      + pose proof (i_throw _ I t' e Hin) as X. cbn [snd coreof] in X. congruence.
      + destruct (i_wake _ I t' f'' Hin) as [X [fu' [X1 X2]]]. cbn [snd coreof] in X, X1. assert (f'' = f') by congruence. subst f''. rewrite Ef in X1. injection X1 as <-.
        simpl. rewrite Ef. destruct (O f' fu Ef) as [[Y1 Y2] Y3]. rewrite Kf in Y3. unfold outcome, pending in *. destruct (f_st fu) as [|[v|e]|]; try discriminate; eauto; try congruence; exfalso; now apply (Y3 e). }
  constructor.
  - assert (OK : okF (snd (coreof (step fire s)))); [|exact OK]. eapply (mstar_inv _ _ (fun c => okF (snd c))); [|exact M|exact O].
    intros c0 c1 H1. eapply m1_ok; [| |exact H1].
    + intros k st Hk [[X _]|[[_ ->]|X]]; [contradiction|split; discriminate|]. destruct k; try (subst; split; discriminate); try contradiction; try discriminate; destruct X as [_ ->]; split; discriminate.
    + intros tk st Hm [[X _]|[[_ ->]|X]]; [contradiction|split; discriminate|]. unfold finals in X. destruct (cur s) as [[t b]|] eqn:Hc; [|contradiction]. specialize (U t b eq_refl).
      destruct b as [[v|e|o kk]|[v|e|o kk] ev todo sb|c|e f r kk|q f [v|e] kk|test|[v|e|o kk]]; try contradiction; subst st; unfold final, okst; rewrite ?Hm; try (split; discriminate);
        inversion U; subst; destruct e; try congruence; split; congruence.
  - exact (mstar_conts _ _ _ _ M C).
  - intros t b Hb. apply (CU t b Hb).
  - rewrite (fr_prio _ _ (step_fr shuffle dut delayers fire s)). unfold seff. destruct (cur s) as [[t b]|] eqn:Hc; auto. specialize (U t b eq_refl).
    assert (Q : forall o k, nocancel (Op o k) -> Forall (fun p => nocancel (pt_coro p)) (prio (oeff s t o))).
    { intros o k A. apply nc_op_inv in A as [A1 [A2 A3]]. destruct o as [f|m|fl| |p|f|f| |e|e|e| |q v|q|q| |h z d|l| |]; auto.
      - destruct d; simpl; apply Forall_app; split; auto; constructor; auto; simpl; apply A2; constructor.
      - simpl. destruct (clock s); auto. }
    destruct b as [[v|e|o kk]|[v|e|o kk] ev todo sb|c|e f r kk|q f [v|e] kk|test|[v|e|o kk]]; auto; try (eapply Q; eauto; fail); try (eapply Q; apply U; fail).
    + destruct ev; auto.
    + destruct c as [| | |[]| | | |]; auto. constructor.
  - intros t q f r k Hb. destruct (CU _ _ Hb) as [_ X]. eapply X; eauto.
Qed.

(** The test starts once. *)
Fixpoint nomain (b : body) : Prop := match b with BMain _ => False | BEv _ _ _ k | BGet _ _ _ k => forall r, nomain (k r) | _ => True end.
Definition nomaink (k : res lval -> body) : Prop := forall r, nomain (k r).
Definition Started s : Prop := linked (fun _ => nomaink) (coreof s) /\ forall t b, cur s = Some (t, b) -> nomain b.
Definition Once (test : prog) s : Prop :=
  (cur s = None /\ tdone s = None /\ ready s = [HStep 0] /\ futs s = [mkt Pending [CbStop] (start (BMain test)) None false]) \/
  (cur s = Some (0, BMain test) /\ tdone s = None /\ linked (fun _ => nomaink) (coreof s)) \/
  Started s.
Lemma nomain_stores (b : body) : nomain b -> stores (fun _ => nomaink) b.
Proof.
  assert (S0 : forall b, nomain b -> nomaink (start b)) by (intros b0 H [|]; simpl; auto).
  assert (O : forall o k, nomaink k -> opstores (fun _ => nomaink) o k).
  { intros o k H. destruct o; simpl; auto; try (apply S0; exact I); try (intros f r; exact H). }
  destruct b as [[v|e|o kk]|[v|e|o kk] ev todo sb|[]|e f r kk|q f [v|e] kk|test|[v|e|o kk]]; simpl; intros H; auto; try (apply S0; exact I); try (apply O; intros r; exact I).
  - intros g r. exact H.
  - intros f r. simpl. intros _. exact I.
Qed.
Lemma step_started fire s : Wf s -> Started s -> Started (step fire s).
Proof.
  intros W [L1 L2]. pose proof W as [I K]. split.
  - eapply mstar_linked; [|exact L1]. apply (step_core shuffle dut delayers (fun _ => nomaink)); auto. intros t b Hc. apply nomain_stores. eauto.
  - intros t' b' Hc'. destruct (step_cur shuffle dut delayers fire s t' b' W Hc') as [[b [Hc Hn]]|[Hc [h [r [n [st [cbs [k [w [m [Hr [Hb [Ho [E ->]]]]]]]]]]]]]].
    + specialize (L2 _ _ Hc). destruct b as [[v|e|o kk]|[v|e|o kk] ev todo sb|c|e f r kk|q f [v|e] kk|test|[v|e|o kk]]; cbn [nextb nomain] in *; try contradiction; try (subst b'; exact Logic.I);
        try (destruct Hn as [r [_ ->]]; exact Logic.I).
      * destruct c as [| | |[|[h ev] todo] sb| | | |last]; try contradiction; try (subst b'; exact Logic.I). destruct Hn as [->|[_ [_ ->]]]; exact Logic.I.
      * subst b'. apply L2.
      * destruct Hn as [r [_ ->]]. apply L2.
      * subst b'. apply L2.
    + assert (Hin : In h (ready s)) by (rewrite Hr; now left). destruct (handle_live _ I h t' Hin Ho) as [cbs' [k' [w' [m' E']]]]. cbn [snd coreof] in E'. rewrite E in E'. injection E' as -> <- <- <- <-.
      assert (Hcn : forall b, cur s <> Some (t', b)) by congruence. specialize (L1 t' _ _ _ _ E Hcn). destruct w as [f|]; [destruct L1 as [kd [fu [_ [_ L1]]]]|]; apply L1.
Qed.
Lemma step_once test fire s : Wf s -> Once test s -> Once test (step fire s).
Proof.
  intros W [[Hc [Ht [Hr Hf]]]|[[Hc [Ht L]]|H]].
  - unfold Loop_Model.step. rewrite Hc. destruct (batch s) as [|n].
    + left. destruct (stopping s); [auto|]. assert (E : fold_left fire1 fire s = s); [|rewrite E; simpl; auto].
      clear W Hc Ht Hr. induction fire as [|f fire IH]; [reflexivity|]. simpl. replace (fire1 s f) with s; auto. unfold fire1, fget. rewrite Hf. destruct f as [|[|f]]; reflexivity.
    + right. left. rewrite Hr. cbn [run_handle]. unfold resume, tget, fget. simpl. rewrite Hf. simpl. split; [reflexivity|]. split; [unfold tput, fget; simpl; rewrite Hf; exact Ht|].
      intros t cbs k w m E Hb. cbn [fst snd coreof go cur futs set_cur] in *. unfold tput, fget in E. simpl in E. rewrite Hf in E. destruct t as [|t]; [exfalso; eapply Hb; reflexivity|].
      simpl in E. rewrite Hf in E. destruct t; discriminate E.
  - right. right. unfold Loop_Model.step. rewrite Hc. cbn [exec_body]. split.
    + intros t cbs k w m E Hb. apply (L t cbs k w m E). intros b X. apply (Hb (BTest test)). simpl in *. rewrite Hc in X. injection X as -> _. reflexivity.
    + intros t b E. injection E as <- <-. exact I.
  - right. right. now apply step_started.
Qed.
Lemma init_once test m : Once test (init test m : state).
Proof. left. repeat split; reflexivity. Qed.
(** Once the test has ended it stays ended. *)
Lemma once_cur test s t b : Once test s -> cur s = Some (t, b) -> tdone s <> None -> nomain b.
Proof. intros [[Hc _]|[[Hc [Ht _]]|[_ H]]] Hb Hd; [congruence|congruence|eauto]. Qed.
Lemma step_tdone test fire s : Once test s -> tdone s = Some true -> tdone (step fire s) = Some true.
Proof.
  intros H T. rewrite (fr_tdone _ _ (step_fr shuffle dut delayers fire s)). unfold seff. destruct (cur s) as [[t b]|] eqn:Hc; auto.
  assert (NM : nomain b) by (eapply once_cur; eauto; congruence).
  destruct b as [[v|e|o kk]|[v|e|o kk] ev todo sb|c|e f r kk|q f [v|e] kk|tst|[v|e|o kk]]; simpl in NM; auto; try contradiction.
  - destruct o; auto; simpl; [destruct done; auto|destruct (clock s); auto].
  - destruct ev; auto.
  - destruct o; auto; simpl; [destruct done; auto|destruct (clock s); auto].
  - destruct c as [| | |[]| | | |]; auto.
  - destruct o; auto; simpl; [destruct done; auto|destruct (clock s); auto].
Qed.
Definition Calmx test s : Prop := Wf s /\ Linked s /\ Thr (coreof s) /\ Once test s /\ (tdone s = Some true \/ NC s).
Lemma reach_nc test m s : nocancel test -> steps (init test m) s -> Calmx test s.
Proof.
  intros T R. apply (steps_ind_inv shuffle dut delayers (Calmx test) _ _) in R; auto.
  - intros fire s0 [W0 [L0 [T0 [O0 N0]]]]. split; [now apply step_wf|]. split; [now apply step_linked|]. split; [now apply step_thr|]. split; [now apply step_once|].
    destruct (tdone s0) as [[|]|] eqn:D.
    + left. eapply step_tdone; eauto.
    + destruct N0 as [N0|N0]; [discriminate|]. right. apply step_nc; auto. intros c _. congruence.
    + destruct N0 as [N0|N0]; [discriminate|]. right. apply step_nc; auto. intros c _. congruence.
  - split; [apply init_wf|]. split; [apply init_linked|]. split; [intros x e [X|[]]; discriminate|]. split; [apply init_once|]. right. constructor; try discriminate.
    + intros [|[|f]] fu E; simpl in E; try discriminate. injection E as <-. repeat split; discriminate.
    + intros [|[|t]] st cbs k w mu E; simpl in E; try discriminate. injection E as _ _ <- _ _. now apply start_nck.
    + constructor.
Qed.
(** dut.Step outside the last cycle comes before the end of the test. *)
Lemma cycle_tdone test m s c : tame test -> steps (init test m) s -> at_cycle s c -> tdone s <> Some true.
Proof.
  intros T R. remember (init test m) as i eqn:Ei. destruct R as [a|a s1 fire R]; subst a; [discriminate|]. intros Hc'. destruct (reach_p33 shuffle dut delayers test m s1 T R) as [W [_ [P1 P2 _]]].
  rewrite (fr_tdone _ _ (step_fr shuffle dut delayers fire s1)).
  assert (NP : forall b : body, parkedb b -> b <> BClk (CStep false)) by (intros b Hb ->; exact Hb).
  destruct (step_cur shuffle dut delayers fire s1 c _ W Hc') as [[b [Hc Hn]]|[Hc [h [r [n [st [cbs [k [w [mu [Hr [Hb [Ho [E E']]]]]]]]]]]]]].
  - specialize (P2 _ _ Hc). destruct b as [[v|e|o kk]|[v|e|o kk] ev todo sb|cl|e f r kk|q f [v|e] kk|tst|[v|e|o kk]]; cbn [nextb curp] in *; try contradiction; try discriminate;
      try (destruct Hn as [r [_ Hn]]; discriminate).
    + destruct cl as [| | |[|[h ev] todo] sb| | | |last]; try contradiction; try discriminate.
      * destruct Hn as [Hn|[_ [_ Hn]]]; discriminate.
      * destruct sb; discriminate.
      * unfold seff. rewrite Hc. destruct (tdone s1) as [[|]|]; discriminate.
    + exfalso. eapply NP; [|symmetry; exact Hn]. apply P2.
    + destruct Hn as [r [_ Hn]]. exfalso. eapply NP; [|symmetry; exact Hn]. apply P2.
    + exfalso. eapply NP; [|symmetry; exact Hn]. apply P2.
  - exfalso. eapply NP; [|symmetry; exact E']. exact (P1 _ _ _ _ _ _ E _).
Qed.
End NC.
