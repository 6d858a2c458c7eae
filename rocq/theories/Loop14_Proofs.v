(** The events of hooks: set only when the hook has run, and every hook runs at most once. *)
From Coq Require Import List Bool Arith ZArith Lia Permutation.
From Verif Require Import Py Prio_Model Loop_Model Loop_Spec Loop_Proofs Loop2_Proofs Loop3_Proofs Loop4_Proofs Loop7_Proofs Loop8_Proofs Loop9_Proofs Loop10_Proofs Loop13_Proofs.
Import ListNotations.
Open Scope nat_scope.

Section Ran.
Context {mem : Type}.
Notation prog := (@prog mem). Notation state := (@state mem). Notation body := (@body mem). Notation task := (@task mem).
Notation fut := (@fut mem). Notation kind := (@kind mem).
Implicit Types (s : state) (F : list fut).
Context (shuffle : list id -> list id) (dut delayers : mem -> mem).
Notation step := (step shuffle dut delayers). Notation steps := (steps shuffle dut delayers).

(** * One event after a step *)
Definition after_ev s (e : id) (ev' : event) : Prop :=
  (exists ev, nth_error (evs s) e = Some ev /\ e_priv ev' = e_priv ev /\ (e_val ev' = true -> e_val ev = true \/ sets s = Some e)) \/
  (List.length (evs s) <= e /\ e_val ev' = false).
Lemma evset_inv E e e' ev' : nth_error (evset E e) e' = Some ev' -> exists ev, nth_error E e' = Some ev /\ e_priv ev' = e_priv ev /\ (e_val ev' = true -> e_val ev = true \/ e = e').
Proof.
  unfold evset. destruct (nth_error E e) as [x|] eqn:Ex; [|intros H; exists ev'; auto]. destruct (e_val x); [intros H; exists ev'; auto|]. rewrite (put_nth_get _ _ _ _ e' Ex).
  destruct (Nat.eqb_spec e' e) as [->|]; intros H; [injection H as <-; exists x; auto|exists ev'; auto].
Qed.
Lemma evclear_inv E e e' ev' : nth_error (evclear E e) e' = Some ev' -> exists ev, nth_error E e' = Some ev /\ e_priv ev' = e_priv ev /\ (e_val ev' = true -> e_val ev = true /\ e <> e').
Proof.
  unfold evclear. destruct (nth_error E e) as [x|] eqn:Ex; [|intros H; exists ev'; split; auto; split; auto; intros V; split; auto; intros ->; congruence]. rewrite (put_nth_get _ _ _ _ e' Ex).
  destruct (Nat.eqb_spec e' e) as [->|]; intros H; [injection H as <-; exists x; split; auto; split; auto; discriminate|exists ev'; auto].
Qed.
Lemma put_inv (E : list event) e x w e' ev' : nth_error E e = Some x -> nth_error (put_nth e (mk_event (e_val x) w (e_priv x)) E) e' = Some ev' ->
  exists ev, nth_error E e' = Some ev /\ e_priv ev' = e_priv ev /\ (e_val ev' = true -> e_val ev = true).
Proof. intros Ex. rewrite (put_nth_get _ _ _ _ e' Ex). destruct (Nat.eqb_spec e' e) as [->|]; intros H; [injection H as <-; exists x; auto|exists ev'; auto]. Qed.
Lemma app_inv (E : list event) b e' ev' : nth_error (E ++ [mk_event false [] b]) e' = Some ev' -> nth_error E e' = Some ev' \/ (List.length E <= e' /\ e_val ev' = false).
Proof. rewrite nth_app_new. destruct (Nat.eqb_spec e' (List.length E)) as [->|]; auto. intros H. injection H as <-. auto. Qed.
Lemma step_ev fire s e ev' : nth_error (evs (step fire s)) e = Some ev' -> after_ev s e ev'.
Proof.
  rewrite step_evs. intros H. assert (SAME : nth_error (evs s) e = Some ev' -> after_ev s e ev') by (intros X; left; exists ev'; auto).
  assert (Q : forall o, nth_error (evop s o) e = Some ev' -> (forall ev, nth_error (evs s) e = Some ev -> opsets s o = Some e -> sets s = Some e) -> after_ev s e ev').
  { intros o HO HS. unfold evop in HO. destruct o as [f0|m|fl| |p|f0|f0| |e0|e0|e0| |q v|q|q| |h z [|]|l| |]; auto.
    - apply app_inv in HO as [HO|HO]; [auto|now right].
    - destruct (nth_error (evs s) e0) as [ev0|] eqn:E0; auto. destruct (e_priv ev0) eqn:P0; auto. apply evset_inv in HO as [ev [A [B C]]]. left. exists ev. split; auto. split; auto. intros V. destruct (C V) as [V1| ->]; auto. right. apply (HS ev A). simpl. now rewrite E0, P0.
    - destruct (nth_error (evs s) e0) as [ev0|] eqn:E0; auto. destruct (e_priv ev0) eqn:P0; auto. apply evclear_inv in HO as [ev [A [B C]]]. left. exists ev. split; auto. split; auto. intros V. destruct (C V); auto.
    - destruct (nth_error (evs s) e0) as [ev0|] eqn:E0; auto. destruct (e_val ev0) eqn:V0; auto. rewrite <- V0 in HO. apply (put_inv _ _ _ _ _ _ E0) in HO as [ev [A [B C]]]. left. exists ev. split; auto.
    - apply app_inv in HO as [HO|HO]; [auto|now right]. }
  unfold evafter in H. destruct (cur s) as [[t b]|] eqn:Hc; auto. destruct b as [[v|x|o kk]|[v|x|o kk] evh todo sb|c|x g r kk|q g [v|x] kk|test|[v|x|o kk]]; auto.
  - apply (Q o); auto. intros ev _ X. unfold sets. now rewrite Hc.
  - destruct evh as [x|]; auto. apply evset_inv in H as [ev [A [B C]]]. left. exists ev. split; auto. split; auto. intros V. destruct (C V) as [V1| ->]; auto. right. unfold sets. now rewrite Hc.
  - apply (Q o); auto. intros ev _ X. unfold sets. now rewrite Hc.
  - destruct c as [| | |todo sb| | | |last]; auto. apply evclear_inv in H as [ev [A [B C]]]. apply evset_inv in A as [ev1 [A [B1 C1]]]. left. exists ev1. split; auto. split; [congruence|]. intros V. destruct (C V) as [V1 V2]. destruct (C1 V1); auto.
  - destruct (nth_error (evs s) x) as [ev0|] eqn:E0; auto. apply (put_inv _ _ _ _ _ _ E0) in H as [ev [A [B C]]]. left. exists ev. split; auto.
  - destruct (clock s); auto. apply (Q (OEvWait 0)); auto. intros ev _ X. discriminate.
  - apply (Q o); auto. intros ev _ X. unfold sets. now rewrite Hc.
Qed.
Lemma len_evs fire s : List.length (evs s) <= List.length (evs (step fire s)).
Proof.
  rewrite step_evs. assert (Q1 : forall E e, List.length (evset E e) = List.length E) by (intros; unfold evset; destruct (nth_error E e) as [x|]; auto; destruct (e_val x); auto; apply put_nth_length).
  assert (Q2 : forall E e, List.length (evclear E e) = List.length E) by (intros; unfold evclear; destruct (nth_error E e) as [x|]; auto; apply put_nth_length).
  assert (Q : forall o, List.length (evs s) <= List.length (evop s o)).
  { intros o. unfold evop. destruct o as [f0|m|fl| |p|f0|f0| |e0|e0|e0| |q v|q|q| |h z [|]|l| |]; auto; rewrite ?app_length; try lia; destruct (nth_error (evs s) e0) as [x|]; auto; [destruct (e_priv x)|destruct (e_priv x)|destruct (e_val x)]; rewrite ?Q1, ?Q2, ?put_nth_length; auto. }
  unfold evafter. destruct (cur s) as [[t b]|] eqn:Hc; auto. destruct b as [[v|x|o kk]|[v|x|o kk] evh todo sb|c|x g r kk|q g [v|x] kk|test|[v|x|o kk]]; auto.
  - destruct evh; rewrite ?Q1; auto.
  - destruct c; rewrite ?Q2, ?Q1; auto.
  - destruct (nth_error (evs s) x); rewrite ?put_nth_length; auto.
  - destruct (clock s); auto.
Qed.
Lemma ran_step fire s : ran (step fire s) = ran s ++ match cur s with Some (_, BHook (Ret _) (Some e) _ _) => [e] | _ => [] end.
Proof.
  rewrite (fr_ran _ _ (step_fr shuffle dut delayers fire s)). unfold seff. destruct (cur s) as [[t b]|]; [|now rewrite app_nil_r].
  assert (Q : forall o, ran (oeff s t o) = ran s ++ []).
  { intros o. rewrite app_nil_r. destruct o as [f|m|fl| |p|f|f| |e|e|e| |q v|q|q| |h z d|l| |]; auto; [destruct d; auto|]. simpl. destruct (clock s); auto. }
  destruct b as [[v|e|o kk]|[v|e|o kk] ev todo sb|c0|e f r kk|q f [v|e] kk|test|[v|e|o kk]]; auto; try (now rewrite app_nil_r); [destruct ev; auto; now rewrite app_nil_r|]. destruct c0 as [| | |[]| | | |]; simpl; now rewrite app_nil_r.
Qed.
Lemma ran_grows s s' : steps s s' -> incl (ran s) (ran s').
Proof. intros R. induction R as [s|s s1 fire R IH]; [apply incl_refl|]. rewrite ran_step. apply incl_appl. exact IH. Qed.

(** * The future of a new wait *)
Lemma evwait_new s t e kb cbs k w m ev : nth_error (futs s) t = Some (mkt Pending cbs k w m) -> nth_error (evs s) e = Some ev -> e_val ev = false ->
  exists cbs', nth_error (futs (exec_op s t (OEvWait e) kb)) (List.length (futs s)) = Some (mk_fut Pending cbs' (KEv e)) \/ nth_error (futs (exec_op s t (OEvWait e) kb)) (List.length (futs s)) = Some (mk_fut Canc cbs' (KEv e)).
Proof.
  intros E Z V. unfold exec_op. rewrite Z, V. set (f := List.length (futs s)). set (s1 := eput _ _ _).
  assert (Lt : t < f) by (apply nth_error_Some; congruence).
  assert (E1 : fget s1 t = Some (mkt Pending cbs k w m)). { unfold fget. simpl. rewrite nth_app_new. destruct (Nat.eqb_spec t (List.length (futs s))); [lia|exact E]. }
  assert (F1 : fget s1 f = Some (mk_fut Pending [] (KEv e))). { unfold fget. simpl. rewrite nth_app_new. unfold f. now rewrite Nat.eqb_refl. }
  unfold suspend. unfold tget. rewrite E1. cbn [mkt]. destruct (Nat.eqb_spec t f) as [X|_]; [lia|].
  set (s2 := tput s1 t _).
  assert (E2 : fget s2 t = Some (mkt Pending cbs (fun r => BEv e f r kb) (Some f) m)). { unfold s2, tput. rewrite E1. unfold fget. simpl. rewrite (put_nth_get _ _ _ _ t E1), Nat.eqb_refl. reflexivity. }
  assert (F2 : fget s2 f = Some (mk_fut Pending [] (KEv e))). { unfold s2, tput. rewrite E1. unfold fget. simpl. rewrite (put_nth_get _ _ _ _ f E1). destruct (Nat.eqb_spec f t); [lia|exact F1]. }
  assert (OD : on_done s2 f (CbWake t) = fput s2 f (mk_fut Pending [CbWake t] (KEv e))) by (unfold on_done; rewrite F2; reflexivity). rewrite OD. set (s3 := fput s2 f _).
  assert (F3 : fget s3 f = Some (mk_fut Pending [CbWake t] (KEv e))) by (unfold s3, fget; simpl; rewrite (put_nth_get _ _ _ _ f F2), Nat.eqb_refl; reflexivity).
  assert (E3 : fget s3 t = Some (mkt Pending cbs (fun r => BEv e f r kb) (Some f) m)) by (unfold s3, fget; simpl; rewrite (put_nth_get _ _ _ _ t F2); destruct (Nat.eqb_spec t f); [lia|exact E2]).
  cbn [k_must]. destruct m.
  - cbn [futs set_cur].
    assert (L3 : exists n, List.length (futs s3) = S n). { destruct (futs s3) eqn:X; [|eexists; reflexivity]. unfold fget in F3. rewrite X in F3. destruct f; discriminate. }
    destruct L3 as [n L3]. rewrite L3. cbn [cancel]. change (fget (set_cur s3 None) f) with (fget s3 f). rewrite F3. cbn [pending f_st f_kind].
    unfold settle. change (fget (set_cur s3 None) f) with (fget s3 f). rewrite F3. cbn [is_task f_kind]. unfold conclude. change (fget (set_cur s3 None) f) with (fget s3 f). rewrite F3. cbn [pending f_st f_kind f_cbs].
    set (s4 := push _ _). assert (F4 : fget s4 f = Some (mk_fut Canc [] (KEv e))) by (unfold s4, fget; simpl; rewrite (put_nth_get _ _ _ _ f F3), Nat.eqb_refl; reflexivity).
    assert (E4 : fget s4 t = Some (mkt Pending cbs (fun r => BEv e f r kb) (Some f) true)) by (unfold s4, fget; cbn [futs push set_ready fput set_futs set_cur]; rewrite (put_nth_get _ _ _ _ t F3); destruct (Nat.eqb_spec t f); [lia|exact E3]).
    rewrite E4. cbn [k_cont k_wait mkt]. set (s5 := tput s4 t _).
    assert (F5 : fget s5 f = Some (mk_fut Canc [] (KEv e))). { unfold s5, tput. rewrite E4. unfold fget. cbn [futs fput set_futs]. rewrite (put_nth_get _ _ _ _ f E4). destruct (Nat.eqb_spec f t); [lia|exact F4]. }
    assert (E5 : fget s5 t = Some (mkt Pending cbs (fun r => BEv e f r kb) (Some f) false)). { unfold s5, tput. rewrite E4. unfold fget. cbn [futs fput set_futs]. rewrite (put_nth_get _ _ _ _ t E4), Nat.eqb_refl. reflexivity. }
    exists []. right. exact F5.
  - exists [CbWake t]. left. exact F3.
Qed.
Lemma new_kev fire s f fu' e : Wf s -> nth_error (futs (step fire s)) f = Some fu' -> f_kind fu' = KEv e -> List.length (futs s) <= f ->
  e < List.length (evs s) /\ (f_st fu' = Pending \/ f_st fu' = Canc).
Proof.
  intros W E' K' Lf. pose proof W as [I K]. assert (M := True_ms_kin shuffle dut delayers fire s I K). assert (IN : inner (f_kind fu') = true) by (rewrite K'; reflexivity).
  destruct (mstar_fresh _ _ f fu' _ _ M E' IN) as [[fu [E _]]|[_ Sp]]; [apply nth_error_None in Lf; cbn [snd coreof] in *; congruence|].
  rewrite K' in Sp. destruct Sp as [[_ X]|[[Sp _]|[_ X]]]; try discriminate.
  assert (Lf' : f < List.length (futs (step fire s))) by (apply nth_error_Some; congruence).
  assert (Q : forall s0 t k b, futs s0 = futs s -> evs s0 = evs s -> cur s = Some (t, b) -> step fire s = exec_op s0 t (OEvWait e) k -> e < List.length (evs s) /\ (f_st fu' = Pending \/ f_st fu' = Canc)).
  { intros s0 t k b HF HE Hc HS. rewrite HS in Lf', E'. rewrite <- HF in Lf. destruct (len_evwait s0 t e k f Lf Lf') as [ev [Ee [V ->]]].
    split; [rewrite <- HE; apply nth_error_Some; congruence|]. destruct (cur_live _ I t b Hc) as [cbs [k0 [mu Et]]]. cbn [snd coreof] in Et. rewrite <- HF in Et.
    destruct (evwait_new s0 t e k _ _ _ _ _ Et Ee V) as [cbs' [X|X]]; rewrite X in E'; injection E' as <-; auto. }
  unfold creates in Sp. destruct (cur s) as [[t b]|] eqn:Hc; [|contradiction].
  assert (HS : step fire s = exec_body shuffle dut delayers s t b) by (unfold Loop_Model.step; now rewrite Hc).
  destruct b as [[v|x|o kk]|[v|x|o kk] evh todo sb|[]|x g r kk|q g [v|x] kk|test|[v|x|o kk]]; try contradiction; cbn [exec_body] in HS; simpl in Sp; try discriminate.
  - subst o. eapply Q; eauto.
  - subst o. eapply Q; eauto.
  - injection Sp as ->. destruct (clock s) eqn:Cl.
    + eapply (Q (set_tdone s (Some true))); eauto.
    + exfalso. rewrite HS in Lf'. unfold finish, conclude in Lf'. destruct (fget (set_tdone s (Some true)) t) as [fx|]; [destruct (pending fx)|]; simpl in Lf'; rewrite ?put_nth_length in Lf'; lia.
  - subst o. eapply Q; eauto.
Qed.

(** * A hook's event that is set, or a future in its wait that is done: the hook has run *)
Record Ran s : Prop := mk_ran
  { r_set : forall e ev, nth_error (evs s) e = Some ev -> e <> 0 -> e_priv ev = true -> e_val ev = true -> In e (ran s);
    r_fut : forall f fu e ev r, nth_error (futs s) f = Some fu -> f_kind fu = KEv e -> e <> 0 -> nth_error (evs s) e = Some ev -> e_priv ev = true -> f_st fu = Finished r -> In e (ran s);
    r_lt : forall f fu e, nth_error (futs s) f = Some fu -> f_kind fu = KEv e -> e < List.length (evs s) }.
Lemma sets_ran fire s e ev : sets s = Some e -> e <> 0 -> nth_error (evs s) e = Some ev -> e_priv ev = true -> In e (ran (step fire s)).
Proof.
  intros H Hn E P. rewrite ran_step. apply in_or_app. unfold sets in H. destruct (cur s) as [[t b]|]; [|discriminate].
  assert (Q : forall o, opsets s o <> Some e) by (intros o X; unfold opsets in X; destruct o; try discriminate; destruct (nth_error (evs s) e0) as [ev0|] eqn:E0; [|discriminate]; destruct (e_priv ev0) eqn:P0; [discriminate|]; injection X as ->; congruence).
  destruct b as [[v|x|o kk]|[v|x|o kk] evh todo sb|[]|x g r kk|q g [v|x] kk|test|[v|x|o kk]]; try discriminate; try (now apply Q in H); [|injection H as <-; contradiction]. subst evh. right. now left.
Qed.
Lemma step_ran fire s : Wf s -> Ran s -> Ran (step fire s).
Proof.
  intros W [R1 R2 R3]. pose proof W as [I K]. assert (M := True_ms_kin shuffle dut delayers fire s I K). constructor.
  - intros e ev E Hn P V. destruct (step_ev fire s e ev E) as [[ev0 [E0 [P0 V0]]]|[_ X]]; [|congruence]. rewrite P in P0. destruct (V0 V) as [V1|V1].
    + rewrite ran_step. apply in_or_app. left. eauto.
    + eapply sets_ran; eauto.
  - intros f fu' e ev r E' K' Hn E P St. assert (IN : inner (f_kind fu') = true) by (rewrite K'; reflexivity). destruct (nth_error (futs s) f) as [fu|] eqn:E0.
    + destruct (mstar_fresh _ _ f fu' _ _ M E' IN) as [[fu0 [E1 Kd]]|[Lf _]]; cbn [snd coreof] in *; [|apply nth_error_None in Lf; congruence]. rewrite E0 in E1. injection E1 as <-. rewrite K' in Kd.
      assert (IN0 : inner (f_kind fu) = true) by (rewrite Kd; reflexivity). destruct (mstar_evolve _ _ f _ _ M fu E0 IN0) as [fu2 [E2 [_ V2]]]. cbn [snd coreof] in E2. rewrite E' in E2. injection E2 as <-.
      pose proof (R3 f fu e E0 Kd) as Lt. destruct (nth_error (evs s) e) as [ev0|] eqn:Ee; [|apply nth_error_None in Ee; lia].
      assert (P0 : e_priv ev0 = true). { destruct (step_ev fire s e ev E) as [[ev1 [E1 [P1 _]]]|[X _]]; [congruence|lia]. }
      destruct V2 as [V2|[V2 [_ V3]]].
      * rewrite ran_step. apply in_or_app. left. apply (R2 f fu e ev0 r); auto. congruence.
      * rewrite Kd, St in V3. destruct V3 as [[_ X]|[[_ X]|[X _]]]; try discriminate. eapply sets_ran; eauto.
    + apply nth_error_None in E0. destruct (new_kev fire s f fu' e W E' K' E0) as [_ [X|X]]; congruence.
  - intros f fu' e E' K'. assert (IN : inner (f_kind fu') = true) by (rewrite K'; reflexivity). pose proof (len_evs fire s). destruct (nth_error (futs s) f) as [fu|] eqn:E0.
    + destruct (mstar_fresh _ _ f fu' _ _ M E' IN) as [[fu0 [E1 Kd]]|[Lf _]]; cbn [snd coreof] in *; [|apply nth_error_None in Lf; congruence]. rewrite K' in Kd. specialize (R3 f fu0 e E1 Kd). lia.
    + apply nth_error_None in E0. destruct (new_kev fire s f fu' e W E' K' E0). lia.
Qed.
Lemma init_ran test m : Ran (init test m : state).
Proof.
  constructor.
  - intros [|[|e]] ev E Hn; simpl in E; try discriminate. contradiction.
  - intros [|[|f]] fu e ev r E Kd; simpl in E; try discriminate. injection E as <-. discriminate.
  - intros [|[|f]] fu e E Kd; simpl in E; try discriminate. injection E as <-. discriminate.
Qed.
Lemma reach_ran test m s : steps (init test m) s -> Ran s.
Proof.
  intros R. assert (X : Wf s /\ Ran s); [|apply X].
  apply (steps_ind_inv shuffle dut delayers (fun s => Wf s /\ Ran s) _ _) in R; auto; [|split; [apply init_wf|apply init_ran]]. intros fire s0 [A B]. split; [now apply step_wf|now apply step_ran].
Qed.
End Ran.
