(** Queues: waiters are registered, and as long as a getter waits there are as many woken getters as items. *)
From Coq Require Import List Bool Arith ZArith Lia.
From Verif Require Import Py Prio_Model Loop_Model Loop_Spec Loop_Proofs Loop2_Proofs Loop3_Proofs Loop4_Proofs Loop7_Proofs Loop8_Proofs Loop9_Proofs Loop10_Proofs.
Import ListNotations.
Open Scope nat_scope.

Section Queues.
Context {mem : Type}.
Notation prog := (@prog mem). Notation state := (@state mem). Notation body := (@body mem). Notation task := (@task mem).
Notation fut := (@fut mem). Notation kind := (@kind mem).
Implicit Types (s : state) (F : list fut).
Context (shuffle : list id -> list id) (dut delayers : mem -> mem).
Notation step := (step shuffle dut delayers). Notation steps := (steps shuffle dut delayers).

(** * Suspending on a new inner future *)
Lemma suspend_new s t f k kd cbs k0 w m : fget s t = Some (mkt Pending cbs k0 w m) -> fget s f = Some (mk_fut Pending [] kd) -> inner kd = true -> t <> f ->
  fget (suspend s t f k) f = Some (if m then mk_fut Canc [] kd else mk_fut Pending [CbWake t] kd).
Proof.
  intros E1 F1 IN Hn. unfold suspend, tget. rewrite E1. cbn [mkt]. destruct (Nat.eqb_spec t f) as [X|_]; [contradiction|]. set (s2 := tput s t _).
  assert (F2 : fget s2 f = Some (mk_fut Pending [] kd)). { unfold s2, tput. rewrite E1. unfold fget. cbn [futs fput set_futs]. rewrite (put_nth_get _ _ _ _ f E1). destruct (Nat.eqb_spec f t); [congruence|exact F1]. }
  assert (E2 : fget s2 t = Some (mkt Pending cbs k (Some f) m)). { unfold s2, tput. rewrite E1. unfold fget. cbn [futs fput set_futs]. rewrite (put_nth_get _ _ _ _ t E1), Nat.eqb_refl. reflexivity. }
  assert (OD : on_done s2 f (CbWake t) = fput s2 f (mk_fut Pending [CbWake t] kd)) by (unfold on_done; rewrite F2; reflexivity). rewrite OD. set (s3 := fput s2 f _).
  assert (F3 : fget s3 f = Some (mk_fut Pending [CbWake t] kd)) by (unfold s3, fget; cbn [futs fput set_futs]; rewrite (put_nth_get _ _ _ _ f F2), Nat.eqb_refl; reflexivity).
  assert (E3 : fget s3 t = Some (mkt Pending cbs k (Some f) m)) by (unfold s3, fget; cbn [futs fput set_futs]; rewrite (put_nth_get _ _ _ _ t F2); destruct (Nat.eqb_spec t f); [congruence|exact E2]).
  cbn [k_must]. destruct m; [|exact F3]. cbn [futs set_cur].
  assert (L3 : exists n, List.length (futs s3) = S n). { destruct (futs s3) eqn:X; [|eexists; reflexivity]. unfold fget in F3. rewrite X in F3. destruct f; discriminate. }
  destruct L3 as [n L3]. rewrite L3. cbn [cancel]. change (fget (set_cur s3 None) f) with (fget s3 f). rewrite F3. cbn [pending f_st f_kind].
  assert (SE : settle (set_cur s3 None) f Canc = push (fput (set_cur s3 None) f (mk_fut Canc [] kd)) (map (sched f) [CbWake t])).
  { unfold settle. change (fget (set_cur s3 None) f) with (fget s3 f). rewrite F3. cbn [f_kind]. destruct kd; try discriminate; cbn [is_task]; unfold conclude; change (fget (set_cur s3 None) f) with (fget s3 f); rewrite F3; reflexivity. }
  rewrite SE. set (s4 := push _ _). assert (F4 : fget s4 f = Some (mk_fut Canc [] kd)) by (unfold s4, fget; cbn [futs push set_ready fput set_futs set_cur]; rewrite (put_nth_get _ _ _ _ f F3), Nat.eqb_refl; reflexivity).
  assert (E4 : fget s4 t = Some (mkt Pending cbs k (Some f) true)) by (unfold s4, fget; cbn [futs push set_ready fput set_futs set_cur]; rewrite (put_nth_get _ _ _ _ t F3); destruct (Nat.eqb_spec t f); [congruence|exact E3]).
  destruct kd; try discriminate; cbv beta iota zeta; unfold tget; rewrite E4; cbn [mkt]; unfold tput; rewrite E4; unfold fget; cbn [futs fput set_futs]; rewrite (put_nth_get _ _ _ _ f E4); (destruct (Nat.eqb_spec f t); [congruence|exact F4]).
Qed.

(** * A pending inner future has a waiting task *)
Lemma m1_cbs N S f fu fu' (c c1 : @core mem) : m1 N S c c1 -> nth_error (snd c) f = Some fu -> nth_error (snd c1) f = Some fu' -> f_st fu' = Pending -> f_st fu = Pending /\ incl (f_cbs fu) (f_cbs fu').
Proof.
  intros H E E' P. assert (Z : fu' = fu -> f_st fu = Pending /\ incl (f_cbs fu) (f_cbs fu')) by (intros ->; split; auto; apply incl_refl).
  destruct H; cbn [fst snd] in *; try (apply Z; congruence).
  - rewrite (put_nth_get _ _ _ _ f H) in E'. destruct (Nat.eqb_spec f f0) as [->|]; [|apply Z; congruence]. injection E' as <-. contradiction.
  - rewrite (put_nth_get _ _ _ _ f H) in E'. destruct (Nat.eqb_spec f t) as [->|]; [|apply Z; congruence]. rewrite E in H. injection H as ->. injection E' as <-. split; auto. apply incl_refl.
  - rewrite (put_nth_get _ _ _ _ f H) in E'. destruct (Nat.eqb_spec f f0) as [->|]; [|apply Z; congruence]. rewrite E in H. injection H as ->. injection E' as <-. split; auto. now apply incl_appl, incl_refl.
  - rewrite (put_nth_get _ _ _ _ f H) in E'. destruct (Nat.eqb_spec f f0) as [->|]; [|apply Z; congruence]. rewrite E in H. injection H as ->. injection E' as <-. split; auto. apply incl_refl.
  - apply Z. rewrite nth_app_new in E'. destruct (Nat.eqb_spec f (List.length F)) as [->|]; [|congruence]. assert (X : nth_error F (List.length F) = None) by now apply nth_error_None. congruence.
  - apply Z. rewrite nth_app_new in E'. destruct (Nat.eqb_spec f (List.length F)) as [->|]; [|congruence]. assert (X : nth_error F (List.length F) = None) by now apply nth_error_None. congruence.
  - rewrite (put_nth_get _ _ _ _ f H) in E'. destruct (Nat.eqb_spec f t) as [->|]; [|apply Z; congruence]. rewrite E in H. injection H as ->. injection E' as <-. split; auto. apply incl_refl.
  - assert (E1 : nth_error (put_nth t (mkt st cbs k (Some f0) m) F) f0 = Some (mk_fut Pending cbs' kd)).
    { rewrite (put_nth_get _ _ _ _ f0 H). destruct (Nat.eqb_spec f0 t); [congruence|assumption]. }
    rewrite (put_nth_get _ _ _ _ f E1) in E'. destruct (Nat.eqb_spec f f0) as [->|].
    + rewrite E in H0. injection H0 as ->. injection E' as <-. split; auto. now apply incl_appl, incl_refl.
    + rewrite (put_nth_get _ _ _ _ f H) in E'. destruct (Nat.eqb_spec f t) as [->|]; [|apply Z; congruence]. rewrite E in H. injection H as ->. injection E' as <-. split; auto. apply incl_refl.
  - rewrite (put_nth_get _ _ _ _ f H) in E'. destruct (Nat.eqb_spec f t) as [->|]; [|apply Z; congruence]. injection E' as <-. contradiction.
  - rewrite (put_nth_get _ _ _ _ f H0) in E'. destruct (Nat.eqb_spec f t) as [->|]; [|apply Z; congruence]. rewrite E in H0. injection H0 as ->. injection E' as <-. split; auto. apply incl_refl.
Qed.
Lemma mstar_cbs N S f (c c1 : @core mem) : mstar N S c c1 -> forall fu fu', nth_error (snd c) f = Some fu -> nth_error (snd c1) f = Some fu' -> f_st fu' = Pending -> f_st fu = Pending /\ incl (f_cbs fu) (f_cbs fu').
Proof.
  induction 1 as [c|c c1 c2 H H0 IH]; intros fu fu' E E' P; [rewrite E in E'; injection E' as ->; split; auto; apply incl_refl|].
  destruct (m1_ext _ _ _ _ H f fu E) as [fu1 [E1 _]]. destruct (IH fu1 fu' E1 E' P) as [P1 I1]. destruct (m1_cbs N S f fu fu1 c c1 H E E1 P1) as [P0 I0]. split; auto. eapply incl_tran; eauto.
Qed.
Definition Icb s : Prop := forall f fu, nth_error (futs s) f = Some fu -> inner (f_kind fu) = true -> f_st fu = Pending -> exists t, In (CbWake t) (f_cbs fu).
Lemma evwait_new s t e k cbs k0 m f fu : fget s t = Some (mkt Pending cbs k0 None m) -> List.length (futs s) <= f -> fget (exec_op s t (OEvWait e) k) f = Some fu -> f_st fu = Pending -> exists t, In (CbWake t) (f_cbs fu).
Proof.
  intros E L Ef P. assert (Lf : f < List.length (futs (exec_op s t (OEvWait e) k))) by (apply nth_error_Some; unfold fget in Ef; congruence).
  destruct (len_evwait s t e k f L Lf) as [ev [Ee [V ->]]]. unfold exec_op in Ef. rewrite Ee, V in Ef. assert (Lt : t < List.length (futs s)) by (apply nth_error_Some; unfold fget in E; congruence).
  set (s1 := eput _ _ _) in Ef. assert (E1 : fget s1 t = Some (mkt Pending cbs k0 None m)) by (unfold fget; simpl; rewrite nth_app_new; destruct (Nat.eqb_spec t (List.length (futs s))); [lia|exact E]).
  assert (F1 : fget s1 (List.length (futs s)) = Some (mk_fut Pending [] (KEv e))) by (unfold fget; simpl; rewrite nth_app_new, Nat.eqb_refl; reflexivity).
  rewrite (suspend_new s1 t _ _ _ _ _ _ _ E1 F1) in Ef; auto; [|lia]. injection Ef as <-. destruct m; [discriminate|]. exists t. now left.
Qed.
Lemma len_q_get s t q k f : List.length (futs s) <= f -> f < List.length (futs (q_get s t q k)) -> exists qu, nth_error (qs s) q = Some qu /\ q_items qu = [] /\ f = List.length (futs s).
Proof.
  unfold q_get. destruct (nth_error (qs s) q) as [qu|]; [|simpl; lia]. destruct (q_items qu) eqn:V; [|simpl; lia]. rewrite len_suspend. simpl. rewrite app_length. simpl. intros. exists qu. repeat split; auto. lia.
Qed.
Lemma q_get_new s t q k cbs k0 m f fu : fget s t = Some (mkt Pending cbs k0 None m) -> List.length (futs s) <= f -> fget (q_get s t q k) f = Some fu -> f_st fu = Pending -> exists t, In (CbWake t) (f_cbs fu).
Proof.
  intros E L Ef P. assert (Lf : f < List.length (futs (q_get s t q k))) by (apply nth_error_Some; unfold fget in Ef; congruence).
  destruct (len_q_get s t q k f L Lf) as [qu [Ee [V ->]]]. unfold q_get in Ef. rewrite Ee, V in Ef. assert (Lt : t < List.length (futs s)) by (apply nth_error_Some; unfold fget in E; congruence).
  set (s1 := qput _ _ _) in Ef. assert (E1 : fget s1 t = Some (mkt Pending cbs k0 None m)) by (unfold fget; simpl; rewrite nth_app_new; destruct (Nat.eqb_spec t (List.length (futs s))); [lia|exact E]).
  assert (F1 : fget s1 (List.length (futs s)) = Some (mk_fut Pending [] (KQueue q))) by (unfold fget; simpl; rewrite nth_app_new, Nat.eqb_refl; reflexivity).
  rewrite (suspend_new s1 t _ _ _ _ _ _ _ E1 F1) in Ef; auto; [|lia]. injection Ef as <-. destruct m; [discriminate|]. exists t. now left.
Qed.
Lemma step_icb fire s : Wf s -> Icb s -> Icb (step fire s).
Proof.
  intros W IC f fu' E' IN P'. pose proof W as [I K]. assert (M := True_ms_kin shuffle dut delayers fire s I K).
  destruct (mstar_fresh _ _ f fu' _ _ M E' IN) as [[fu [E Kd]]|[Lf Sp]].
  - destruct (mstar_cbs _ _ f _ _ M fu fu' E E' P') as [P0 I0]. destruct (IC f fu E) as [t Ht]; [now rewrite Kd|auto|]. exists t. now apply I0.
  - cbn [snd coreof] in *. assert (Cr : creates s (f_kind fu')). { destruct Sp as [[_ X]|[[X _]|X]]; [discriminate|exact X|]. destruct (f_kind fu'); try discriminate; destruct X as [_ X]; discriminate. }
    unfold creates in Cr. unfold Loop_Model.step in E'. destruct (cur s) as [[t b]|] eqn:Hc; [|contradiction]. destruct (cur_live _ I t b Hc) as [cbs [k [m Et]]]. cbn [snd coreof] in Et.
    assert (Q : forall o k, opcreates o (f_kind fu') -> nth_error (futs (exec_op s t o k)) f = Some fu' -> exists t, In (CbWake t) (f_cbs fu')).
    { intros o k1 HO Ef. unfold opcreates in HO. destruct (f_kind fu'); try discriminate; subst o; [eapply evwait_new; eauto|]. cbn [exec_op] in Ef. eapply q_get_new; eauto. }
    destruct b as [[v|x|o kk]|[v|x|o kk] evh todo sb|[]|x g r kk|q g [v|x] kk|test|[v|x|o kk]]; try contradiction; cbn [exec_body] in E'; try (eapply Q; eauto; fail).
    + destruct (f_kind fu'); simpl in Cr; try contradiction; discriminate.
    + eapply q_get_new; eauto.
    + destruct (clock s); [exact (evwait_new (set_tdone s (Some true)) t 0 _ cbs k m f fu' Et Lf E' P')|]. exfalso.
      assert (X : f < List.length (futs (finish (set_tdone s (Some true)) t (Ok v)))) by (apply nth_error_Some; congruence).
      unfold finish, conclude in X. destruct (fget (set_tdone s (Some true)) t) as [fx|]; [destruct (pending fx)|]; simpl in X; rewrite ?put_nth_length in X; lia.
Qed.

(** * Getters are registered *)
Definition QReg s : Prop := forall f fu q, nth_error (futs s) f = Some fu -> f_kind fu = KQueue q -> f_st fu = Pending ->
  exists qu, nth_error (qs s) q = Some qu /\ In f (q_getters qu).
Lemma wake_snd s l f : In f l -> In f (snd (wake_next s l)) \/ fpending s f = false \/ fpending (fst (wake_next s l)) f = false \/ (exists fu, fget s f = Some fu /\ is_task (f_kind fu) = true).
Proof.
  induction l as [|g l IH]; simpl; intros H; [contradiction|]. destruct (fpending s g) eqn:P; simpl.
  - destruct H as [->|H]; auto. right. right. unfold fpending in P. destruct (fget s f) as [fu|] eqn:E; [|discriminate]. destruct (is_task (f_kind fu)) eqn:T; eauto. left.
    destruct (settle_done s f (Finished (Ok VNone)) fu ltac:(discriminate) E T) as [fu' [E' P']]. unfold fpending. now rewrite E'.
  - destruct H as [->|H]; auto.
Qed.
Lemma step_qreg fire s : Wf s -> CurDone s -> QReg s -> QReg (step fire s).
Proof.
  intros W CD QR f fu' q E' K' P'. pose proof W as [I K].
  assert (M := True_ms_kin shuffle dut delayers fire s I K).
  assert (IN : inner (f_kind fu') = true) by (rewrite K'; reflexivity).
  destruct (mstar_fresh _ _ f fu' _ _ M E' IN) as [[fu [E Kd]]|[Lf Sp]].
  - cbn [snd coreof] in E. rewrite K' in Kd. destruct (mstar_cbs _ _ f _ _ M fu fu' E E' P') as [P _]. destruct (QR f fu q E Kd P) as [qu [Eq Hf]].
    assert (Q0 : exists qu, nth_error (qs s) q = Some qu /\ In f (q_getters qu)) by eauto.
    assert (QG : forall x, exists qu, nth_error (qget s x) q = Some qu /\ In f (q_getters qu)).
    { intros x. unfold qget. destruct (nth_error (qs s) x) as [qx|] eqn:Ex; auto. destruct (q_items qx) as [|v l]; rewrite (put_nth_get _ _ _ _ q Ex); destruct (Nat.eqb_spec q x) as [->|]; auto; rewrite Eq in Ex; injection Ex as <-; eexists; (split; [reflexivity|]); simpl; auto. apply in_or_app. now left. }
    assert (QO : forall t o k, (forall r, cur (step fire s) = Some (t, k r) -> True) -> futs (step fire s) = futs (exec_op s t o k) -> exists qu, nth_error (qop s o) q = Some qu /\ In f (q_getters qu)).
    { intros t o k _ HF. unfold qop. destruct o as [f0|m|fl| |p|f0|f0| |e|e|e| |x v|x|x| |h z [|]|l| |]; auto.
      - exists qu. split; auto. rewrite nth_error_app1; auto. apply nth_error_Some. congruence.
      - destruct (nth_error (qs s) x) as [qx|] eqn:Ex; auto. rewrite (put_nth_get _ _ _ _ q Ex). destruct (Nat.eqb_spec q x) as [->|]; auto. rewrite Eq in Ex. injection Ex as <-. eexists. split; [reflexivity|]. cbn [q_getters].
        destruct (wake_snd s (q_getters qu) f Hf) as [X|[X|[X|[fx [X1 X2]]]]]; auto; exfalso.
        + unfold fpending, fget in X. rewrite E in X. unfold pending in X. rewrite P in X. discriminate.
        + rewrite HF in E'. cbn [exec_op] in E'. rewrite Eq in E'. cbn [go futs set_cur] in E'. unfold q_wake in E'. cbn [qs qput set_qs] in E'. rewrite (put_nth_get _ _ _ _ x Eq), Nat.eqb_refl in E'. cbn [q_getters q_items] in E'.
          set (s1 := qput s x (mk_queue (q_items qu ++ [v]) (q_getters qu))) in *. assert (WX : futs (fst (wake_next s1 (q_getters qu))) = futs (fst (wake_next s (q_getters qu)))).
          { clear. generalize (q_getters qu). intros l. induction l as [|g l IH]; simpl; auto. change (fpending s1 g) with (fpending s g). destruct (fpending s g); auto.
            simpl. unfold settle, conclude. change (fget s1 g) with (fget s g). destruct (fget s g) as [fu0|]; auto. destruct (is_task (f_kind fu0)); auto. destruct (pending fu0); auto. }
          destruct (wake_next s1 (q_getters qu)) as [s2 l2] eqn:Ew. cbn [fst qput futs set_qs] in *. unfold fpending, fget in X. rewrite <- WX in X. rewrite E' in X. unfold pending in X. rewrite P' in X. discriminate.
        + unfold fget in X1. rewrite E in X1. injection X1 as <-. rewrite Kd in X2. discriminate. }
    rewrite step_qs. unfold qafter. unfold Loop_Model.step in QO. destruct (cur s) as [[t b]|] eqn:Hc; auto.
    destruct b as [[v|x|o kk]|[v|x|o kk] evh todo sb|c|x g r kk|x g [v|e] kk|test|[v|x|o kk]]; auto; try (eapply QO; [|reflexivity]; auto; fail).
    unfold qexn. set (s1 := settle s g Canc). destruct (nth_error (qs s) x) as [qx|] eqn:Ex; auto.
    assert (NG : f <> g). { intros ->. destruct (CD _ _ Hc) as [fu3 [E3 [P3 _]]]. rewrite E in E3. injection E3 as <-. unfold pending in P3. rewrite P in P3. discriminate. }
    assert (RM : forall l, In f l -> In f (remove1 g l)) by (intros l Hl; apply filter_In; split; auto; destruct (Nat.eqb_spec g f); [congruence|reflexivity]).
    assert (D : exists qu0, nth_error (put_nth x (mk_queue (q_items qx) (remove1 g (q_getters qx))) (qs s)) q = Some qu0 /\ In f (q_getters qu0)).
    { rewrite (put_nth_get _ _ _ _ q Ex). destruct (Nat.eqb_spec q x) as [->|]; auto. rewrite Eq in Ex. injection Ex as <-. eexists. split; [reflexivity|]. simpl. auto. }
    destruct (q_items qx) as [|i0 il] eqn:Ei; auto. destruct (fget s1 g) as [[[|r0|] cb0 kd0]|] eqn:Eg; auto.
    rewrite (put_nth_get _ _ _ _ q Ex). destruct (Nat.eqb_spec q x) as [->|]; auto. rewrite Eq in Ex. injection Ex as <-. eexists. split; [reflexivity|]. cbn [q_getters].
    assert (Q1 : qs s1 = qs s) by (apply rest_qs, rest_settle).
    assert (F1 : fget s1 f = Some fu). { unfold s1, settle. destruct (fget s g) as [fg|] eqn:Eg0; auto. destruct (is_task _); auto. unfold conclude. rewrite Eg0. destruct (pending fg); auto. unfold fget in *. simpl. rewrite (put_nth_get _ _ _ _ f Eg0). destruct (Nat.eqb_spec f g); [contradiction|auto]. }
    destruct (wake_snd s1 (remove1 g (q_getters qu)) f (RM _ Hf)) as [X|[X|[X|[fx [X1 X2]]]]]; auto; exfalso.
    + unfold fpending in X. rewrite F1 in X. unfold pending in X. rewrite P in X. discriminate.
    + unfold Loop_Model.step in E'. rewrite Hc in E'. cbn [exec_body] in E'. fold s1 in E'. rewrite Q1, Eq in E'. cbn [qs qput set_qs] in E'. rewrite Q1, (put_nth_get _ _ _ _ x Eq), Nat.eqb_refl in E'. cbn [q_items] in E'.
      change (fget (qput s1 x (mk_queue (q_items qu) (remove1 g (q_getters qu)))) g) with (fget s1 g) in E'. rewrite Eg, Ei in E'. cbn [f_st] in E'. cbn [go futs set_cur] in E'.
      unfold q_wake in E'. cbn [qs qput set_qs] in E'. rewrite Q1, (put_nth_get _ _ _ _ x Eq), Nat.eqb_refl in E'. cbn [q_getters q_items] in E'.
      set (s2 := qput s1 x (mk_queue (i0 :: il) (remove1 g (q_getters qu)))) in *. assert (WX : futs (fst (wake_next s2 (remove1 g (q_getters qu)))) = futs (fst (wake_next s1 (remove1 g (q_getters qu))))).
      { assert (WW : forall l, futs (fst (wake_next s2 l)) = futs (fst (wake_next s1 l))); [|apply WW]. intros l. induction l as [|h l IH]; simpl; auto. change (fpending s2 h) with (fpending s1 h). destruct (fpending s1 h); auto.
        simpl. unfold settle, conclude. change (fget s2 h) with (fget s1 h). destruct (fget s1 h) as [fu0|]; auto. destruct (is_task (f_kind fu0)); auto. destruct (pending fu0); auto. }
      destruct (wake_next s2 (remove1 g (q_getters qu))) as [s3 l2] eqn:Ew. cbn [fst qput futs set_qs] in *. unfold fpending, fget in X. rewrite <- WX in X. rewrite E' in X. unfold pending in X. rewrite P' in X. discriminate.
    + rewrite F1 in X1. injection X1 as <-. rewrite Kd in X2. discriminate.
  - cbn [snd coreof] in *. rewrite K' in Sp. destruct Sp as [[_ X]|[[Sp _]|X]]; try discriminate.
    assert (Lf' : f < List.length (futs (step fire s))) by (apply nth_error_Some; congruence).
    assert (Q : forall t k, f < List.length (futs (q_get s t q k)) -> exists qu, nth_error (qget s q) q = Some qu /\ In f (q_getters qu)).
    { intros t k L. destruct (len_q_get s t q k f Lf L) as [qu [Eq [V ->]]]. unfold qget. rewrite Eq, V, (put_nth_get _ _ _ _ q Eq), Nat.eqb_refl. eexists. split; [reflexivity|]. simpl. apply in_or_app. right. now left. }
    rewrite step_qs. unfold Loop_Model.step in Lf'. unfold qafter. unfold creates in Sp. destruct (cur s) as [[t b]|] eqn:Hc; [|contradiction].
    destruct b as [[v|x|o kk]|[v|x|o kk] evh todo sb|[]|x g r kk|x g [v|e] kk|test|[v|x|o kk]]; try contradiction; cbn [exec_body] in Lf'; simpl in Sp; try discriminate; try (subst o; eapply Q; eauto; fail).
    injection Sp as <-. eapply Q; eauto.
Qed.
End Queues.
