(** Queues: as long as a getter waits there are at least as many woken getters as items. *)
From Coq Require Import List Bool Arith ZArith Lia.
From Verif Require Import Py Prio_Model Loop_Model Loop_Spec Loop_Proofs Loop2_Proofs Loop3_Proofs Loop4_Proofs Loop7_Proofs Loop8_Proofs Loop9_Proofs Loop10_Proofs Loop11_Proofs.
Import ListNotations.
Open Scope nat_scope.

Section Woken.
Context {mem : Type}.
Notation prog := (@prog mem). Notation state := (@state mem). Notation body := (@body mem). Notation task := (@task mem).
Notation fut := (@fut mem). Notation kind := (@kind mem).
Implicit Types (s : state) (F : list fut).
Context (shuffle : list id -> list id) (dut delayers : mem -> mem).
Notation step := (step shuffle dut delayers). Notation steps := (steps shuffle dut delayers).

Definition woke F (q f : id) : bool :=
  match nth_error F f with Some fu => match f_st fu, f_kind fu with Finished _, KQueue q' => Nat.eqb q' q | _, _ => false end | None => false end.
Definition wq F (q : id) (h : handle) : bool := match h with HWake _ f => woke F q f | _ => false end.
Definition wr F (r : list handle) (q : id) : nat := List.length (filter (wq F q) r).
Definition wc s (q : id) : nat := match cur s with Some (_, BGet q' f _ _) => if Nat.eqb q' q && woke (futs s) q f then 1 else 0 | _ => 0 end.
Lemma woke_fut F q f : woke F q f = true -> exists fu v, nth_error F f = Some fu /\ f_kind fu = KQueue q /\ f_st fu = Finished v.
Proof.
  unfold woke. destruct (nth_error F f) as [[[|v|] cbs kd]|]; try discriminate. simpl. destruct kd; try discriminate. intros H. apply Nat.eqb_eq in H. subst. eexists _, _. split; [reflexivity|split; reflexivity].
Qed.
Lemma fut_woke F q f fu v : nth_error F f = Some fu -> f_kind fu = KQueue q -> f_st fu = Finished v -> woke F q f = true.
Proof. intros E K P. unfold woke. rewrite E, K, P. apply Nat.eqb_refl. Qed.
Definition wkeep F F' : Prop := forall q f, woke F q f = true -> woke F' q f = true.
Lemma wr_mono F F' r l q : wkeep F F' -> wr F r q + wr F' l q <= wr F' (r ++ l) q.
Proof.
  intros H. unfold wr. rewrite filter_app, app_length. apply Nat.add_le_mono_r. induction r as [|h r IH]; simpl; auto.
  destruct (wq F q h) eqn:E; simpl; [|destruct (wq F' q h); simpl; lia]. assert (X : wq F' q h = true) by (destruct h; simpl in *; try discriminate; auto). rewrite X. simpl. lia.
Qed.
Lemma evolve_woke S F F' : (forall f fu, nth_error F f = Some fu -> inner (f_kind fu) = true -> exists fu', nth_error F' f = Some fu' /\ f_kind fu' = f_kind fu /\ evolves S (f_kind fu) (f_st fu) (f_st fu')) -> wkeep F F'.
Proof.
  intros H q f X. destruct (woke_fut _ _ _ X) as [fu [v [E [K P]]]]. destruct (H f fu E) as [fu' [E' [K' [P'|[P' _]]]]]; [now rewrite K| |congruence].
  apply (fut_woke _ _ _ fu' v); auto; congruence.
Qed.
Lemma m1_wr N S q (c c1 : @core mem) : ~ resumes S -> m1 N S c c1 -> wr (snd c) (snd (fst c)) q <= wr (snd c1) (snd (fst c1)) q.
Proof.
  intros NR H. assert (K : wkeep (snd c) (snd c1)) by (apply (evolve_woke S); intros f fu E IN; exact (m1_evolve _ _ _ _ _ _ H E IN)).
  assert (Z : exists l, snd (fst c1) = snd (fst c) ++ l) by (destruct H; cbn [fst snd]; try (exists []; now rewrite app_nil_r); try contradiction; eexists; reflexivity).
  destruct Z as [l ->]. pose proof (wr_mono _ _ (snd (fst c)) l q K). lia.
Qed.
Lemma mstar_wr N S q (c c1 : @core mem) : ~ resumes S -> mstar N S c c1 -> wr (snd c) (snd (fst c)) q <= wr (snd c1) (snd (fst c1)) q.
Proof. intros NR. induction 1 as [|c c1 c2 H H1 IH]; auto. pose proof (m1_wr _ _ q _ _ NR H). lia. Qed.
Lemma mstar_wkeep N S (c c1 : @core mem) : mstar N S c c1 -> wkeep (snd c) (snd c1).
Proof. intros H. apply (evolve_woke S). intros f fu E IN. exact (mstar_evolve _ _ _ _ _ H fu E IN). Qed.

Lemma wake_wr s q l f fu : (forall g, In g l -> kindof (futs s) g = Some (KQueue q)) -> Icb s -> In f l -> nth_error (futs s) f = Some fu -> f_st fu = Pending ->
  S (wr (futs s) (ready s) q) <= wr (futs (fst (wake_next s l))) (ready (fst (wake_next s l))) q.
Proof.
  intros HK IC. induction l as [|g l IH]; intros Hf E P; [destruct Hf|]. simpl. destruct (fpending s g) eqn:Pg.
  - unfold fpending in Pg. destruct (fget s g) as [fg|] eqn:Eg; [|discriminate]. pose proof (HK g (or_introl eq_refl)) as K. unfold kindof, fget in *. rewrite Eg in K. simpl in K. injection K as K.
    assert (Pf : f_st fg = Pending) by (unfold pending in Pg; destruct (f_st fg); congruence). destruct (IC g fg Eg) as [t Ht]; [now rewrite K|auto|].
    simpl. unfold settle, fget. rewrite Eg, K. cbn [is_task]. unfold conclude, fget. rewrite Eg, Pg. cbn [futs ready push set_ready fput set_futs]. rewrite K.
    set (F' := put_nth g _ _). assert (E' : nth_error F' g = Some (mk_fut (Finished (Ok VNone)) [] (KQueue q))) by (unfold F'; rewrite (put_nth_get _ _ _ _ g Eg), Nat.eqb_refl; reflexivity).
    assert (WK : wkeep (futs s) F').
    { intros q' x X. destruct (woke_fut _ _ _ X) as [fx [v [Ex [Kx Px]]]]. apply (fut_woke _ _ _ fx v); auto. unfold F'. rewrite (put_nth_get _ _ _ _ x Eg). destruct (Nat.eqb_spec x g) as [->|]; auto. congruence. }
    pose proof (wr_mono _ _ (ready s) (map (sched g) (f_cbs fg)) q WK) as M. assert (L : 1 <= wr F' (map (sched g) (f_cbs fg)) q); [|lia].
    unfold wr. apply (in_map (sched g)) in Ht. simpl in Ht. assert (Hi : In (HWake t g) (filter (wq F' q) (map (sched g) (f_cbs fg)))) by (apply filter_In; split; auto; simpl; eapply fut_woke; eauto; reflexivity).
    destruct (filter _ _); [destruct Hi|simpl; lia].
  - destruct Hf as [->|Hf]; [unfold fpending, fget in Pg; rewrite E in Pg; unfold pending in Pg; rewrite P in Pg; discriminate|]. apply IH; auto. intros x Hx. apply HK. now right.
Qed.

Definition QI s : Prop := forall q qu f fu, nth_error (qs s) q = Some qu -> nth_error (futs s) f = Some fu -> f_kind fu = KQueue q -> f_st fu = Pending ->
  List.length (q_items qu) <= wr (futs s) (ready s) q + wc s q.

Lemma step_qi fire s : Evi s -> Icb s -> QReg s -> QI s -> QI (step fire s).
Proof.
  intros V IC QR H q qu' f fu' Eq' E' K' P'. pose proof (v_wf _ V) as W. pose proof W as [I K]. assert (M := True_ms_kin shuffle dut delayers fire s I K).
  assert (IN : inner (f_kind fu') = true) by (rewrite K'; reflexivity).
  destruct (mstar_fresh _ _ f fu' _ _ M E' IN) as [[fu [E Kd]]|[Lf Sp]].
  - cbn [snd coreof] in E. rewrite K' in Kd. destruct (mstar_cbs _ _ f _ _ M fu fu' E E' P') as [P _]. destruct (QR f fu q E Kd P) as [qu [Eq Hf]]. specialize (H q qu f fu Eq E Kd P).
    destruct (cur s) as [[t b]|] eqn:Hc.
    + assert (MR : wr (futs s) (ready s) q <= wr (futs (step fire s)) (ready (step fire s)) q) by (apply (mstar_wr _ _ q _ _) in M; [exact M|simpl; congruence]).
      assert (SAME : qu' = qu -> wc s q = 0 -> List.length (q_items qu') <= wr (futs (step fire s)) (ready (step fire s)) q + wc (step fire s) q) by (intros ->; lia).
      rewrite step_qs in Eq'. unfold qafter in Eq'. rewrite Hc in Eq'.
      assert (QG : forall x, nth_error (qget s x) q = Some qu' -> (x <> q -> qu' = qu) /\ (x = q -> List.length (q_items qu') = List.length (q_items qu) - 1)).
      { intros x X. unfold qget in X. destruct (nth_error (qs s) x) as [qx|] eqn:Ex; [|split; intros; [congruence|subst x; congruence]]. destruct (q_items qx) as [|v l] eqn:Ei; rewrite (put_nth_get _ _ _ _ q Ex) in X.
        - destruct (Nat.eqb_spec q x) as [->|Hn]; [|split; intros; [|subst x]; congruence]. split; [congruence|intros _]. rewrite Eq in Ex. injection Ex as <-. injection X as <-. rewrite Ei. reflexivity.
        - destruct (Nat.eqb_spec q x) as [->|Hn]; [|split; intros; [|subst x]; congruence]. split; [congruence|intros _]. rewrite Eq in Ex. injection Ex as <-. injection X as <-. rewrite Ei. simpl. lia. }
      assert (QO : forall o k, wc s q = 0 -> nth_error (qop s o) q = Some qu' -> step fire s = exec_op s t o k -> List.length (q_items qu') <= wr (futs (step fire s)) (ready (step fire s)) q + wc (step fire s) q).
      { intros o k W0 X HS. unfold qop in X. destruct o as [f0|m|fl| |p|f0|f0| |e|e|e| |x v|x|x| |h z [|]|l| |]; try (apply SAME; congruence).
        - rewrite nth_error_app1 in X by (apply nth_error_Some; congruence). apply SAME; congruence.
        - destruct (nth_error (qs s) x) as [qx|] eqn:Ex; [|apply SAME; congruence]. rewrite (put_nth_get _ _ _ _ q Ex) in X. destruct (Nat.eqb_spec q x) as [->|]; [|apply SAME; congruence].
          rewrite Eq in Ex. injection Ex as <-. injection X as <-. cbn [q_items]. rewrite app_length. simpl.
          rewrite HS. cbn [exec_op]. rewrite Eq. set (s1 := qput s x (mk_queue (q_items qu ++ [v]) (q_getters qu))).
          assert (Y : forall y, futs (go y t (k (Ok VNone))) = futs y /\ ready (go y t (k (Ok VNone))) = ready y) by (intros; split; reflexivity). destruct (Y (q_wake s1 x)) as [-> ->].
          unfold q_wake. assert (Q1 : nth_error (qs s1) x = Some (mk_queue (q_items qu ++ [v]) (q_getters qu))) by (unfold s1; cbn [qs qput set_qs]; rewrite (put_nth_get _ _ _ _ x Eq), Nat.eqb_refl; reflexivity).
          rewrite Q1. cbn [q_getters q_items]. pose proof (wake_wr s1 x (q_getters qu) f fu (fun g Hg => k_qu _ K x qu g Eq Hg) IC Hf E P) as WW. change (futs s1) with (futs s) in WW at 1. change (ready s1) with (ready s) in WW at 1.
          destruct (wake_next s1 (q_getters qu)) as [s2 l2]. cbn [fst futs ready qput set_qs] in *. lia.
        - destruct (QG x X) as [Q1 Q2]. destruct (Nat.eq_dec x q) as [Hx|Hx]; [rewrite (Q2 Hx); lia|apply SAME; auto]. }
      assert (WC : wc s q = match b with BGet q' f _ _ => if Nat.eqb q' q && woke (futs s) q f then 1 else 0 | _ => 0 end) by (unfold wc; rewrite Hc; reflexivity).
      destruct b as [[v|x|o kk]|[v|x|o kk] evh todo sb|c|x g r kk|x g [v|e] kk|test|[v|x|o kk]];
        cbv beta iota in Eq'; try (apply SAME; [congruence|exact WC]); try (eapply (QO o _ WC Eq'); unfold Loop_Model.step; rewrite Hc; reflexivity).
      * destruct (QG x Eq') as [Q1 Q2]. destruct (Nat.eq_dec x q) as [Hx|Hx].
        -- rewrite (Q2 Hx). destruct (Nat.eqb x q && woke (futs s) q g); lia.
        -- apply SAME; auto. rewrite WC. destruct (Nat.eqb_spec x q); [contradiction|reflexivity].
      * assert (IT : q_items qu' = q_items qu).
        { unfold qexn in Eq'. destruct (nth_error (qs s) x) as [qx|] eqn:Ex; [|congruence].
          assert (Z : forall l, nth_error (put_nth x (mk_queue (q_items qx) l) (qs s)) q = Some qu' -> q_items qu' = q_items qu).
          { intros l Y. rewrite (put_nth_get _ _ _ _ q Ex) in Y. destruct (Nat.eqb_spec q x) as [->|]; [|congruence]. injection Y as <-. simpl. congruence. }
          destruct (q_items qx) as [|i0 il]; [eapply Z; eauto|]. destruct (fget (settle s g Canc) g) as [[[|r0|] cb0 kd0]|]; eapply Z; eauto. }
        rewrite IT. destruct (Nat.eqb x q && woke (futs s) q g) eqn:WW; [|lia]. apply andb_prop in WW as [Hx WG]. apply Nat.eqb_eq in Hx. subst x.
        destruct (q_items qu) as [|i0 il] eqn:Ei; [simpl; lia|]. rewrite WC in H.
        destruct (woke_fut _ _ _ WG) as [fg [vg [Eg [Kg Pg]]]]. assert (SG : settle s g Canc = s). { unfold settle, fget. rewrite Eg. destruct (is_task _); auto. unfold conclude, fget. rewrite Eg. unfold pending. now rewrite Pg. }
        assert (HS : step fire s = exec_body shuffle dut delayers s t (BGet q g (Exn e) kk)) by (unfold Loop_Model.step; now rewrite Hc). rewrite HS. cbn [exec_body]. rewrite SG, Eq.
        cbn [qs qput set_qs]. rewrite (put_nth_get _ _ _ _ q Eq), Nat.eqb_refl. set (s2 := qput s q (mk_queue (q_items qu) (remove1 g (q_getters qu)))). change (fget s2 g) with (nth_error (futs s) g). rewrite Eg. cbn [q_items]. rewrite Ei, Pg.
        assert (Y : forall y, futs (go y t (kk (Exn e))) = futs y /\ ready (go y t (kk (Exn e))) = ready y) by (intros; split; reflexivity). destruct (Y (q_wake s2 q)) as [-> ->].
        unfold q_wake. assert (Q1 : nth_error (qs s2) q = Some (mk_queue (q_items qu) (remove1 g (q_getters qu)))) by (unfold s2; cbn [qs qput set_qs]; rewrite (put_nth_get _ _ _ _ q Eq), Nat.eqb_refl; reflexivity).
        rewrite Q1. cbn [q_getters q_items]. assert (Hf2 : In f (remove1 g (q_getters qu))) by (apply filter_In; split; auto; destruct (Nat.eqb_spec g f) as [->|]; [congruence|reflexivity]).
        assert (HK : forall y, In y (remove1 g (q_getters qu)) -> kindof (futs s2) y = Some (KQueue q)) by (intros y Hy; apply filter_In in Hy as [Hy _]; exact (k_qu _ K q qu y Eq Hy)).
        pose proof (wake_wr s2 q _ f fu HK IC Hf2 E P) as WW. change (futs s2) with (futs s) in WW at 1. change (ready s2) with (ready s) in WW at 1.
        destruct (wake_next s2 (remove1 g (q_getters qu))) as [s3 l2]. cbn [fst futs ready qput set_qs] in *. simpl in *. lia.
    + assert (EQ : qu' = qu) by (rewrite step_qs in Eq'; unfold qafter in Eq'; rewrite Hc in Eq'; congruence). subst qu'. assert (W0 : wc s q = 0) by (unfold wc; now rewrite Hc).
      enough (X : wr (futs s) (ready s) q <= wr (futs (step fire s)) (ready (step fire s)) q + wc (step fire s) q) by lia.
      assert (G : forall s', mstar (fun _ _ => True) (mk_perm (fun _ _ => True) False) (coreof s) (coreof s') -> wr (futs s) (ready s) q <= wr (futs s') (ready s') q + wc s' q).
      { intros s' X. apply (mstar_wr _ _ q _ _) in X; [cbn [fst snd coreof] in X; lia|exact (fun x => x)]. }
      clear M E' Eq'. unfold Loop_Model.step. rewrite Hc. destruct (batch s) as [|n].
      * destruct (stopping s); [lia|]. apply (G (set_batch (fold_left fire1 fire s) _)). change (mstar (fun _ _ => True) (mk_perm (fun _ _ => True) False) (coreof s) (coreof (fold_left fire1 fire s))). apply L_fold. intros. apply fire1_ms. right. exact Logic.I.
      * destruct (ready s) as [|h r] eqn:Hr; [unfold wr; simpl; lia|]. set (s0 := set_batch (set_ready s r) n).
        assert (G0 : forall s', mstar (fun _ _ => True) (mk_perm (fun _ _ => True) False) (coreof s0) (coreof s') -> wq (futs s) q h = false -> wr (futs s) (h :: r) q <= wr (futs s') (ready s') q + wc s' q).
        { intros s' X Hh. apply (mstar_wr _ _ q _ _) in X; [|exact (fun x => x)]. cbn [fst snd coreof] in X. unfold wr at 1. simpl. rewrite Hh. unfold wr in *. simpl in X. lia. }
        assert (X : forall x y, owner h = Some x -> y = hres (futs s) h -> wr (futs s) (h :: r) q <= wr (futs (resume s0 x y)) (ready (resume s0 x y)) q + wc (resume s0 x y) q).
        { intros x y Ho ->. assert (Hin : In h (snd (fst (coreof s)))) by (simpl; rewrite Hr; now left).
          destruct (handle_live _ I h x Hin Ho) as [cb [kk [w' [mu Ex]]]]. cbn [snd coreof] in Ex. set (s1 := go (fput s0 x (mkt Pending cb kk None false)) x (kk (if mu then Exn CancelledError else hres (futs s) h))).
          assert (RE : resume s0 x (hres (futs s) h) = s1) by (unfold resume, tput, tget; change (fget s0 x) with (nth_error (futs s) x); rewrite Ex; reflexivity). rewrite RE.
          set (F' := put_nth x (mkt Pending cb kk None false) (futs s)). change (futs s1) with F'. change (ready s1) with r. assert (WK : wkeep (futs s) F').
          { intros q' z X. destruct (woke_fut _ _ _ X) as [fx [v [Ez [Kz Pz]]]]. apply (fut_woke _ _ _ fx v); auto. unfold F'. rewrite (put_nth_get _ _ _ _ z Ex). destruct (Nat.eqb_spec z x) as [->|]; auto. rewrite Ex in Ez. injection Ez as <-. discriminate. }
          pose proof (wr_mono _ _ r [] q WK) as WM. rewrite app_nil_r in WM. unfold wr at 1. simpl. fold (wr (futs s) r q). destruct (wq (futs s) q h) eqn:WH; [|fold (wr (futs s) r q); change (wr F' [] q) with 0 in WM; lia].
          simpl. fold (wr (futs s) r q). enough (wc s1 q = 1) by (change (wr F' [] q) with 0 in WM; lia). clear RE.
          destruct h as [x'|x' e|x' g|g| |g]; try discriminate WH. injection Ho as ->. cbn [wq] in WH. destruct (woke_fut _ _ _ WH) as [fg [vg [Eg [Kg Pg]]]].
          destruct (i_wake _ I x g Hin) as [Wt _]. cbn [snd coreof] in Wt. rewrite (waitof_task _ _ _ _ _ _ _ Ex) in Wt. injection Wt as ->.
          assert (Hn : forall b, fst (fst (coreof s)) <> Some (x, b)) by (intros b; cbn [fst coreof]; congruence).
          destruct (proj1 (v_linked _ V) x _ _ _ _ Ex Hn) as [kd [fx [Ef [KR FT]]]]. cbn [snd coreof] in Ef. rewrite Eg in Ef. injection Ef as <-. rewrite Kg in KR. destruct kd; simpl in KR; try contradiction; try discriminate. subst q0.
          cbn [fits] in FT. destruct FT as [k2 [-> _]]. unfold wc, s1. cbn [cur go set_cur]. rewrite Nat.eqb_refl. cbn [andb].
          change (futs (go (fput s0 x (mkt Pending cb (fun r0 : res lval => BGet q g r0 k2) None false)) x (BGet q g (if mu then Exn CancelledError else hres (futs s) (HWake x g)) k2))) with F'. rewrite (WK _ _ WH). reflexivity. }
        destruct h as [x|x e|x g|g| |g]; cbn [run_handle].
        -- now apply X.
        -- now apply X.
        -- now apply X.
        -- apply G0; [|reflexivity]. destruct (fget s0 g) as [[st cb []]|] eqn:Eg; try constructor. destruct need as [|n']; [constructor|].
           set (s1 := fput s0 g (mk_fut st cb (KGather n'))).
           assert (M : mstar (fun _ _ => True) (mk_perm (fun _ _ => True) False) (coreof s0) (coreof s1)) by (apply mstar_one; unfold coreof; simpl; eapply m_kind; [exact Eg|exact Logic.I|right; exact Logic.I]).
           destruct n'; [|exact M]. eapply mstar_trans; [exact M|]. apply L_settle; [discriminate|]. intros; exact Logic.I.
        -- apply G0; [constructor|reflexivity].
        -- apply G0; [|reflexivity]. apply L_settle; [discriminate|]. intros; exact Logic.I.
  - cbn [snd coreof] in *. rewrite K' in Sp. destruct Sp as [[_ X]|[[Sp _]|X]]; try discriminate.
    assert (Lf' : f < List.length (futs (step fire s))) by (apply nth_error_Some; congruence).
    assert (Q : forall t k, f < List.length (futs (q_get s t q k)) -> nth_error (qget s q) q = Some qu' -> q_items qu' = []).
    { intros t k L X. destruct (len_q_get s t q k f Lf L) as [qu [Eq [Vq _]]]. unfold qget in X. rewrite Eq, Vq, (put_nth_get _ _ _ _ q Eq), Nat.eqb_refl in X. now injection X as <-. }
    enough (Z : q_items qu' = []) by (rewrite Z; simpl; lia).
    rewrite step_qs in Eq'. unfold Loop_Model.step in Lf'. unfold qafter in Eq'. unfold creates in Sp. destruct (cur s) as [[t b]|] eqn:Hc; [|contradiction].
    destruct b as [[v|x|o kk]|[v|x|o kk] evh todo sb|[]|x g r kk|x g [v|e] kk|test|[v|x|o kk]]; try contradiction; cbn [exec_body] in Lf'; simpl in Sp; try discriminate; try (subst o; eapply Q; eauto; fail).
    injection Sp as <-. eapply Q; eauto.
Qed.

Record Qall s : Prop := mk_qall { q_evi : Evi s; q_icb : Icb s; q_reg : QReg s; q_cnt : QI s }.
Lemma reach_qall test m s : steps (init test m) s -> Qall s.
Proof.
  intros R. apply (steps_ind_inv shuffle dut delayers Qall _ _) in R; auto.
  - intros fire s0 [A B C D]. pose proof (v_wf _ A) as W. constructor; [now apply step_evi|now apply step_icb|apply step_qreg; auto; apply A|now apply step_qi].
  - constructor; [apply (reach_evi shuffle dut delayers test m), steps_refl| | |]; intros [|[|f]] fu; simpl; try discriminate.
    + intros X. injection X as <-. discriminate.
    + intros q X. injection X as <-. discriminate.
Qed.
End Woken.
