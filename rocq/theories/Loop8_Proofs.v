(** What a step does to a task that is not running and to the futures of events and queues; waiters of events are registered. *)
From Coq Require Import List Bool Arith ZArith Lia.
From Verif Require Import Py Prio_Model Loop_Model Loop_Spec Loop_Proofs Loop2_Proofs Loop3_Proofs Loop4_Proofs Loop7_Proofs.
Import ListNotations.
Open Scope nat_scope.

Section Track.
Context {mem : Type}.
Notation prog := (@prog mem). Notation state := (@state mem). Notation body := (@body mem). Notation task := (@task mem).
Notation fut := (@fut mem). Notation kind := (@kind mem).
Implicit Types (s : state) (F : list fut).
Context (shuffle : list id -> list id) (dut delayers : mem -> mem).
Notation step := (step shuffle dut delayers). Notation steps := (steps shuffle dut delayers).

(** * A task that is not running *)
Definition keepat (t : id) (k : res lval -> body) (w : option id) (c : @core mem) : Prop :=
  (forall b, fst (fst c) <> Some (t, b)) /\ exists cbs m, nth_error (snd c) t = Some (mkt Pending cbs k w m).
Lemma m1_keep N S t k w (c c1 : @core mem) : ~ resumes S -> m1 N S c c1 -> keepat t k w c -> keepat t k w c1.
Proof.
  intros NR H [A [cbs0 [m0 E]]]. destruct H; cbn [fst snd] in *.
  - split; auto. exists cbs0, m0. cbn [snd]. rewrite (put_nth_get _ _ _ _ t H). destruct (Nat.eqb_spec t f) as [->|]; auto. rewrite E in H. injection H as <- <- <-. discriminate.
  - split; auto. cbn [snd]. rewrite (put_nth_get _ _ _ _ t H). destruct (Nat.eqb_spec t t0) as [->|]; eauto. rewrite E in H. injection H as <- <- <- <- <-. unfold mkt. eauto.
  - split; auto. cbn [snd]. rewrite (put_nth_get _ _ _ _ t H). destruct (Nat.eqb_spec t f) as [->|]; eauto. rewrite E in H. injection H as <- <-. unfold mkt. eauto.
  - split; eauto.
  - split; auto. cbn [snd]. rewrite (put_nth_get _ _ _ _ t H). destruct (Nat.eqb_spec t f) as [->|]; eauto. rewrite E in H. injection H as <- <- <-. contradiction.
  - split; auto. cbn [snd]. rewrite nth_app_new. destruct (Nat.eqb_spec t (List.length F)) as [->|]; eauto. assert (X : nth_error F (List.length F) = None) by now apply nth_error_None. congruence.
  - split; auto. cbn [snd]. rewrite nth_app_new. destruct (Nat.eqb_spec t (List.length F)) as [->|]; eauto. assert (X : nth_error F (List.length F) = None) by now apply nth_error_None. congruence.
  - split; eauto. intros b0 X. injection X as -> _. eapply A; reflexivity.
  - assert (t <> t0) by (intros ->; eapply A; reflexivity). split; [discriminate|]. cbn [snd]. rewrite (put_nth_get _ _ _ _ t H). destruct (Nat.eqb_spec t t0); [contradiction|eauto].
  - assert (t <> t0) by (intros ->; eapply A; reflexivity). split; [discriminate|]. cbn [snd].
    assert (E1 : nth_error (put_nth t0 (mkt st cbs k1 (Some f) m) F) f = Some (mk_fut Pending cbs' kd)).
    { rewrite (put_nth_get _ _ _ _ f H). destruct (Nat.eqb_spec f t0); [congruence|assumption]. }
    rewrite (put_nth_get _ _ _ _ t E1). destruct (Nat.eqb_spec t f) as [->|].
    + rewrite E in H0. injection H0 as <- <-. unfold mkt. eauto.
    + rewrite (put_nth_get _ _ _ _ t H). destruct (Nat.eqb_spec t t0); [contradiction|eauto].
  - assert (t <> t0) by (intros ->; eapply A; reflexivity). split; [discriminate|]. cbn [snd]. rewrite (put_nth_get _ _ _ _ t H). destruct (Nat.eqb_spec t t0); [contradiction|eauto].
  - contradiction.
  - contradiction.
Qed.
Lemma mstar_keep N S t k w (c c1 : @core mem) : ~ resumes S -> mstar N S c c1 -> keepat t k w c -> keepat t k w c1.
Proof. intros NR. induction 1; auto. intros. apply IHmstar. eapply m1_keep; eauto. Qed.
Lemma step_task fire s t cbs k w m : Wf s -> (forall b, cur s <> Some (t, b)) -> nth_error (futs s) t = Some (mkt Pending cbs k w m) ->
  ((forall b, cur (step fire s) <> Some (t, b)) /\ exists cbs' m', nth_error (futs (step fire s)) t = Some (mkt Pending cbs' k w m')) \/
  (cur s = None /\ exists h r n, ready s = h :: r /\ batch s = Datatypes.S n /\ owner h = Some t /\ cur (step fire s) = Some (t, k (if m then Exn CancelledError else hres (futs s) h)) /\
     futs (step fire s) = put_nth t (mkt Pending cbs k None false) (futs s)).
Proof.
  intros W Hc E. pose proof W as [I K]. assert (KA : keepat t k w (coreof s)) by (split; cbn [coreof fst snd]; eauto).
  assert (G : forall s' : state, keepat t k w (coreof s') -> (forall b, cur s' <> Some (t, b)) /\ exists cbs' m', nth_error (futs s') t = Some (mkt Pending cbs' k w m')) by (intros s' X; exact X).
  destruct (cur s) as [[t0 b]|] eqn:Hc0.
  - left. apply G. eapply mstar_keep; [|exact (True_ms_kin shuffle dut delayers fire s I K)|exact KA]. simpl. congruence.
  - unfold Loop_Model.step. rewrite Hc0. destruct (batch s) as [|n].
    + left. apply G. destruct (stopping s); auto. change (keepat t k w (coreof (fold_left fire1 fire s))).
      eapply (mstar_keep (fun _ _ => True) (mk_perm (fun _ _ => True) False)); [exact (fun x => x)| |exact KA]. apply L_fold. intros. apply fire1_ms. right. exact Logic.I.
    + destruct (ready s) as [|h r] eqn:Hr; [left; apply G; auto|]. set (s0 := set_batch (set_ready s r) n).
      assert (KA0 : keepat t k w (coreof s0)) by exact KA.
      assert (X : forall x y, owner h = Some x -> y = hres (futs s) h ->
        ((forall b, cur (resume s0 x y) <> Some (t, b)) /\ exists cbs' m', nth_error (futs (resume s0 x y)) t = Some (mkt Pending cbs' k w m')) \/
        (None = @None (id * body) /\ exists h0 r0 n0, h :: r = h0 :: r0 /\ Datatypes.S n = Datatypes.S n0 /\ owner h0 = Some t /\ cur (resume s0 x y) = Some (t, k (if m then Exn CancelledError else hres (futs s) h0)) /\
          futs (resume s0 x y) = put_nth t (mkt Pending cbs k None false) (futs s))).
      { intros x y Ho ->. assert (Hin : In h (snd (fst (coreof s)))) by (simpl; rewrite Hr; now left).
        destruct (handle_live _ I h x Hin Ho) as [cb [kk [w' [mu Ex]]]]. cbn [snd coreof] in Ex. unfold resume, tget, fget, s0. simpl. rewrite Ex. simpl.
        unfold tput, fget. simpl. rewrite Ex. simpl. destruct (Nat.eq_dec x t) as [->|Hn].
        - right. split; auto. rewrite E in Ex. injection Ex as <- <- <- <-. exists h, r, n. auto.
        - left. split; [congruence|]. rewrite (put_nth_get _ _ _ _ t Ex). destruct (Nat.eqb_spec t x); [congruence|eauto]. }
      destruct h as [x|x e|x f|g| |f]; cbn [run_handle].
      * now apply X.
      * now apply X.
      * now apply X.
      * left. apply G. destruct (fget s0 g) as [[st cb []]|] eqn:Eg; auto. destruct need as [|n']; auto.
        set (s1 := fput s0 g (mk_fut st cb (KGather n'))).
        assert (M : mstar (fun _ _ => True) (mk_perm (fun _ _ => True) False) (coreof s0) (coreof s1)) by (apply mstar_one; unfold coreof; simpl; eapply m_kind; [exact Eg|exact Logic.I|right; exact Logic.I]).
        eapply (mstar_keep (fun _ _ => True) (mk_perm (fun _ _ => True) False)); [exact (fun x => x)| |exact KA0].
        destruct n'; [|exact M]. eapply mstar_trans; [exact M|]. apply L_settle; [discriminate|]. intros; exact Logic.I.
      * left. apply G. exact KA0.
      * left. apply G. eapply (mstar_keep (fun _ _ => True) (mk_perm (fun _ _ => True) False)); [exact (fun x => x)| |exact KA0]. apply L_settle; [discriminate|]. intros; exact Logic.I.
Qed.

(** * Futures inside Event.wait and Queue.get *)
Definition inner (k : kind) : bool := match k with KEv _ | KQueue _ => true | _ => false end.
Lemma inner_rel (k k' : kind) : inner k = true -> kindrel k k' -> k' = k.
Proof. destruct k, k'; simpl; intros; try discriminate; try contradiction; congruence. Qed.
Lemma inner_fixed (k : kind) : inner k = true -> fixedk k = true. Proof. now destruct k. Qed.
Definition evolves (S : @perm mem) (kd : kind) (st st' : fstate) : Prop := st' = st \/ (st = Pending /\ st' <> Pending /\ S kd st').
Lemma evolves_trans S kd a b c : evolves S kd a b -> evolves S kd b c -> evolves S kd a c.
Proof. unfold evolves. intros [->|[-> [H1 H2]]] [->|[H3 H4]]; auto; subst; try contradiction; congruence. Qed.
Lemma m1_evolve N S f fu (c c1 : @core mem) : m1 N S c c1 -> nth_error (snd c) f = Some fu -> inner (f_kind fu) = true ->
  exists fu', nth_error (snd c1) f = Some fu' /\ f_kind fu' = f_kind fu /\ evolves S (f_kind fu) (f_st fu) (f_st fu').
Proof.
  intros H E IN. pose proof (m1_ext _ _ _ _ H) as X. destruct (X f fu E) as [fu' [E' [KR _]]]. exists fu'. split; auto. apply inner_rel in KR; auto. split; auto. clear X.
  unfold evolves. destruct H; cbn [fst snd] in *; try (rewrite E in E'; injection E' as <-; auto; fail).
  - rewrite (put_nth_get _ _ _ _ f H) in E'. destruct (Nat.eqb_spec f f0) as [->|]; [|rewrite E in E'; injection E' as <-; auto]. injection E' as <-. rewrite E in H. injection H as ->. simpl in *. auto.
  - rewrite (put_nth_get _ _ _ _ f H) in E'. destruct (Nat.eqb_spec f t) as [->|]; [|rewrite E in E'; injection E' as <-; auto]. rewrite E in H. injection H as ->. discriminate.
  - rewrite (put_nth_get _ _ _ _ f H) in E'. destruct (Nat.eqb_spec f f0) as [->|]; [|rewrite E in E'; injection E' as <-; auto]. injection E' as <-. rewrite E in H. injection H as ->. auto.
  - rewrite (put_nth_get _ _ _ _ f H) in E'. destruct (Nat.eqb_spec f f0) as [->|]; [|rewrite E in E'; injection E' as <-; auto]. injection E' as <-. rewrite E in H. injection H as ->. auto.
  - rewrite nth_app_new in E'. destruct (Nat.eqb_spec f (List.length F)) as [->|]; [assert (Y : nth_error F (List.length F) = None) by (now apply nth_error_None); congruence|]. rewrite E in E'. injection E' as <-. auto.
  - rewrite nth_app_new in E'. destruct (Nat.eqb_spec f (List.length F)) as [->|]; [assert (Y : nth_error F (List.length F) = None) by (now apply nth_error_None); congruence|]. rewrite E in E'. injection E' as <-. auto.
  - rewrite (put_nth_get _ _ _ _ f H) in E'. destruct (Nat.eqb_spec f t) as [->|]; [|rewrite E in E'; injection E' as <-; auto]. rewrite E in H. injection H as ->. discriminate.
  - assert (E1 : nth_error (put_nth t (mkt st cbs k (Some f0) m) F) f0 = Some (mk_fut Pending cbs' kd)).
    { rewrite (put_nth_get _ _ _ _ f0 H). destruct (Nat.eqb_spec f0 t); [congruence|assumption]. }
    rewrite (put_nth_get _ _ _ _ f E1) in E'. destruct (Nat.eqb_spec f f0) as [->|].
    + injection E' as <-. rewrite E in H0. injection H0 as ->. auto.
    + rewrite (put_nth_get _ _ _ _ f H) in E'. destruct (Nat.eqb_spec f t) as [->|]; [|rewrite E in E'; injection E' as <-; auto]. rewrite E in H. injection H as ->. discriminate.
  - rewrite (put_nth_get _ _ _ _ f H) in E'. destruct (Nat.eqb_spec f t) as [->|]; [|rewrite E in E'; injection E' as <-; auto]. rewrite E in H. injection H as ->. discriminate.
  - rewrite (put_nth_get _ _ _ _ f H0) in E'. destruct (Nat.eqb_spec f t) as [->|]; [|rewrite E in E'; injection E' as <-; auto]. rewrite E in H0. injection H0 as ->. discriminate.
Qed.
Lemma mstar_evolve N S f (c c1 : @core mem) : mstar N S c c1 -> forall fu, nth_error (snd c) f = Some fu -> inner (f_kind fu) = true ->
  exists fu', nth_error (snd c1) f = Some fu' /\ f_kind fu' = f_kind fu /\ evolves S (f_kind fu) (f_st fu) (f_st fu').
Proof.
  induction 1 as [|c c1 c2 H H1 IH]; intros fu E IN; [exists fu; repeat split; auto; now left|].
  destruct (m1_evolve _ _ _ _ _ _ H E IN) as [fu1 [E1 [K1 V1]]]. rewrite <- K1 in IN. destruct (IH fu1 E1 IN) as [fu2 [E2 [K2 V2]]].
  exists fu2. split; auto. split; [congruence|]. rewrite K1 in V2. eapply evolves_trans; eauto.
Qed.
(** New ones. *)
Lemma m1_fresh N S f fu' (c c1 : @core mem) : m1 N S c c1 -> nth_error (snd c1) f = Some fu' -> inner (f_kind fu') = true ->
  (exists fu, nth_error (snd c) f = Some fu /\ f_kind fu = f_kind fu') \/ (List.length (snd c) <= f /\ S (f_kind fu') Pending).
Proof.
  intros H E IN. destruct (nth_error (snd c) f) as [fu|] eqn:E0.
  - left. exists fu. split; auto. destruct (m1_ext _ _ _ _ H f fu E0) as [fu2 [E2 [KR _]]]. rewrite E in E2. injection E2 as <-.
    destruct (f_kind fu), (f_kind fu'); simpl in *; try discriminate; try contradiction; congruence.
  - right. split; [now apply nth_error_None|]. destruct H; cbn [fst snd] in *; try congruence;
      try (rewrite (put_nth_get _ _ _ _ f H) in E; match type of E with (if Nat.eqb f ?x then _ else _) = _ => destruct (Nat.eqb_spec f x) as [->|] end; congruence).
    + rewrite nth_app_new in E. destruct (Nat.eqb_spec f (List.length F)) as [->|]; [injection E as <-; exact H1|congruence].
    + rewrite nth_app_new in E. destruct (Nat.eqb_spec f (List.length F)) as [->|]; [injection E as <-; discriminate|congruence].
    + assert (E1 : nth_error (put_nth t (mkt st cbs k (Some f0) m) F) f0 = Some (mk_fut Pending cbs' kd)).
      { rewrite (put_nth_get _ _ _ _ f0 H). destruct (Nat.eqb_spec f0 t); [congruence|assumption]. }
      rewrite (put_nth_get _ _ _ _ f E1) in E. destruct (Nat.eqb_spec f f0) as [->|]; [congruence|]. rewrite (put_nth_get _ _ _ _ f H) in E. destruct (Nat.eqb_spec f t) as [->|]; congruence.
    + rewrite (put_nth_get _ _ _ _ f H0) in E. destruct (Nat.eqb_spec f t) as [->|]; congruence.
Qed.
Lemma m1_length N S (c c1 : @core mem) : m1 N S c c1 -> List.length (snd c) <= List.length (snd c1).
Proof. intros H. destruct H; cbn [snd]; rewrite ?put_nth_length, ?app_length; simpl; lia. Qed.
Lemma mstar_fresh N S f fu' (c c1 : @core mem) : mstar N S c c1 -> nth_error (snd c1) f = Some fu' -> inner (f_kind fu') = true ->
  (exists fu, nth_error (snd c) f = Some fu /\ f_kind fu = f_kind fu') \/ (List.length (snd c) <= f /\ S (f_kind fu') Pending).
Proof.
  induction 1 as [|c c1 c2 H H1 IH]; intros E IN; [left; eauto|]. destruct (IH E IN) as [[fu1 [E1 K1]]|[L P]].
  - rewrite <- K1 in IN. destruct (m1_fresh _ _ _ _ _ _ H E1 IN) as [[fu [E0 K0]]|[L P]]; [left; exists fu; split; congruence|right; split; congruence].
  - right. split; auto. pose proof (m1_length _ _ _ _ H). lia.
Qed.

(** * Lengths *)
Lemma len_tput s t k : List.length (futs (tput s t k)) = List.length (futs s).
Proof. unfold tput. destruct (fget s t); simpl; rewrite ?put_nth_length; reflexivity. Qed.
Lemma len_settle s f st : List.length (futs (settle s f st)) = List.length (futs s).
Proof. unfold settle, conclude. destruct (fget s f) as [fu|]; auto. destruct (is_task _); auto. destruct (pending fu); simpl; rewrite ?put_nth_length; reflexivity. Qed.
Lemma len_on_done s f c : List.length (futs (on_done s f c)) = List.length (futs s).
Proof. unfold on_done. destruct (fget s f) as [fu|]; auto. destruct (pending fu); simpl; rewrite ?put_nth_length; reflexivity. Qed.
Lemma len_cancel n : forall s f, List.length (futs (fst (cancel n s f))) = List.length (futs s).
Proof.
  induction n as [|n IH]; intros s f; simpl; destruct (fget s f) as [fu|]; auto; destruct (pending fu); auto; destruct (f_kind fu); simpl; try apply len_settle; auto.
  - destruct (k_wait t); simpl; apply len_tput.
  - destruct (k_wait t) as [g|]; [|apply len_tput]. specialize (IH s g). destruct (cancel n s g) as [s1 []]; simpl in *; auto. apply len_tput.
Qed.
Lemma len_suspend s t f k : List.length (futs (suspend s t f k)) = List.length (futs s).
Proof.
  unfold suspend. destruct (tget s t) as [tk|]; auto. destruct (Nat.eqb t f); [simpl; apply len_tput|]. 
  set (s1 := set_cur _ None). assert (L1 : List.length (futs s1) = List.length (futs s)) by (unfold s1; simpl; rewrite len_on_done; apply len_tput).
  destruct (k_must tk); auto. pose proof (len_cancel (List.length (futs s1)) s1 f) as L. destruct (cancel _ s1 f) as [s2 []]; cbn [fst] in L; [|rewrite L; exact L1].
  destruct (tget s2 t); rewrite ?len_tput; rewrite L; exact L1.
Qed.

(** * Event.set settles all waiters *)
Lemma settle_done s f st fu : st <> Pending -> fget s f = Some fu -> is_task (f_kind fu) = false -> exists fu', fget (settle s f st) f = Some fu' /\ pending fu' = false.
Proof.
  intros Hs E T. unfold settle. rewrite E, T. unfold conclude. rewrite E. destruct (pending fu) eqn:P; [|eauto]. unfold fget in *. simpl. rewrite (put_nth_get _ _ _ _ f E), Nat.eqb_refl.
  eexists. split; [reflexivity|]. unfold pending. simpl. destruct st; congruence.
Qed.
Lemma settle_other s f st g fu : fget s g = Some fu -> exists fu', fget (settle s f st) g = Some fu' /\ f_kind fu' = f_kind fu /\ (pending fu = false -> fu' = fu).
Proof.
  intros E. unfold settle. destruct (fget s f) as [fx|] eqn:Ex; [|eauto]. destruct (is_task (f_kind fx)); [eauto|]. unfold conclude. rewrite Ex. destruct (pending fx) eqn:P; [|eauto].
  unfold fget in *. simpl. rewrite (put_nth_get _ _ _ _ g Ex). destruct (Nat.eqb_spec g f) as [->|]; [|eauto]. eexists. split; [reflexivity|]. rewrite E in Ex. injection Ex as ->. split; auto. congruence.
Qed.
Lemma settles_keep st l : forall s g fu, fget s g = Some fu -> exists fu', fget (fold_left (fun s f => settle s f st) l s) g = Some fu' /\ f_kind fu' = f_kind fu /\ (pending fu = false -> fu' = fu).
Proof.
  induction l as [|f l IH]; intros s g fu E; simpl; [eauto|]. destruct (settle_other s f st g fu E) as [fu1 [E1 [K1 P1]]]. destruct (IH _ g fu1 E1) as [fu2 [E2 [K2 P2]]].
  exists fu2. split; auto. split; [congruence|]. intros P. rewrite (P1 P) in P2. rewrite P2; auto.
Qed.
Lemma settles_done st l : st <> Pending -> forall s g fu, In g l -> fget s g = Some fu -> is_task (f_kind fu) = false ->
  exists fu', fget (fold_left (fun s f => settle s f st) l s) g = Some fu' /\ pending fu' = false.
Proof.
  intros Hs. induction l as [|f l IH]; intros s g fu H E T; [destruct H|]. simpl. destruct (Nat.eq_dec f g) as [->|Hn].
  - destruct (settle_done s g st fu Hs E T) as [fu1 [E1 P1]]. destruct (settles_keep st l _ g fu1 E1) as [fu2 [E2 [_ P2]]]. exists fu2. split; auto. now rewrite P2.
  - destruct H as [H|H]; [congruence|]. destruct (settle_other s f st g fu E) as [fu1 [E1 [K1 _]]]. apply (IH _ g fu1 H E1). congruence.
Qed.
Lemma ev_set_done s e ev f fu : nth_error (evs s) e = Some ev -> e_val ev = false -> In f (e_waiters ev) -> fget s f = Some fu -> is_task (f_kind fu) = false ->
  exists fu', fget (ev_set s e) f = Some fu' /\ pending fu' = false.
Proof. intros E V H Ef T. unfold ev_set. rewrite E, V. eapply settles_done; eauto. discriminate. Qed.
End Track.
