(** Following a driver call through the event loop. *)
From Coq Require Import List Bool Arith ZArith Lia.
From Verif Require Import Py Prio_Model Loop_Model Loop_Spec Loop2_Spec LoopProg_Model Mon_Model Loop_Proofs Loop2_Proofs Loop3_Proofs Loop4_Proofs Loop9_Proofs Loop10_Proofs Loop13_Proofs Loop14_Proofs Loop15_Proofs Bind_Spec Loop16_Proofs Loop17_Proofs Loop18_Proofs LoopRun_Model LoopRun_Proofs P_Loop P_Loop2 P_Loop3 P_Loop4 Drv_Model Drv_Spec.
From Verif Require P_Mon.
Import ListNotations.
Open Scope nat_scope.

Section Drv.
Context {mem : Type} (shuffle : list id -> list id) (dut delayers : mem -> mem).
Notation steps := (steps shuffle dut delayers). Notation step := (step shuffle dut delayers). Notation prog := (@prog mem). Notation state := (@state mem). Notation body := (@body mem).
Notation hook := (@hook mem).
Implicit Types (s : state).
Notation enrols := (@enrols mem). Notation hook_ran := (hook_ran shuffle dut delayers).

Lemma one_step s fire : steps s (step fire s). Proof. apply steps_step, steps_refl. Qed.
Lemma steps_cons s fire s' : steps (step fire s) s' -> steps s s'. Proof. intros H. eapply steps_trans; [apply one_step|exact H]. Qed.
Lemma evs_le s s' : steps s s' -> List.length (evs s) <= List.length (evs s').
Proof. intros R. induction R; auto. pose proof (len_evs shuffle dut delayers fire s1). lia. Qed.

Lemma qs_len fire s : List.length (qs s) <= List.length (qs (step fire s)).
Proof. exact (P_Mon.len_qs shuffle dut delayers fire s). Qed.
Lemma qs_le s s' : steps s s' -> List.length (qs s) <= List.length (qs s').
Proof. intros R. induction R; auto. pose proof (qs_len fire s1). lia. Qed.

(** [h] was registered by [t] between [s] and [s1]. *)
Notation enrolled := (registered shuffle dut delayers).
Lemma enrolled_mono s0 s s1 s2 t z h e : steps s0 s -> steps s1 s2 -> enrolled s s1 t z h e -> enrolled s0 s2 t z h e.
Proof. intros A B [x [fire [C [D E]]]]. exists x, fire. split; [eapply steps_trans; eauto|]. split; auto. eapply steps_trans; eauto. Qed.
Lemma Forall2_imp {A B} (P Q : A -> B -> Prop) l l' : (forall a b, P a b -> Q a b) -> Forall2 P l l' -> Forall2 Q l l'.
Proof. intros H F. induction F; constructor; auto. Qed.

(** One registration. *)
Lemma reg_track d h W s s' t k kx : h_coro h = false -> wrap W -> cur s = Some (t, W (reg d h k kx)) -> steps s s' ->
  (exists s1, steps s s1 /\ steps s1 s' /\ cur s1 = Some (t, W (k (List.length (evs s)))) /\ enrolled s s1 t (priority (d_prio d (mm s))) h (List.length (evs s)) /\ mm s1 = mm s /\ List.length (evs s1) = Datatypes.S (List.length (evs s))) \/
  s' = s \/ cur s' = Some (t, W (enroll h (priority (d_prio d (mm s)) h) k kx)).
Proof.
  intros NCo HW Hc R. unfold reg in Hc. rewrite NCo in Hc. destruct (steps_first _ _ _ _ _ R) as [->|[fire R1]]; auto. assert (HS := step_op shuffle dut delayers W fire s t _ _ HW Hc). cbn [exec_op] in HS.
  fold (priority (d_prio d (mm s)) h) in HS. set (z := priority (d_prio d (mm s)) h) in *. set (s1 := step fire s) in *. assert (Hc1 : cur s1 = Some (t, W (enroll h z k kx))) by now rewrite HS.
  destruct (steps_first _ _ _ _ _ R1) as [->|[fire2 R2]]; auto. left. assert (HS2 := step_op shuffle dut delayers W fire2 s1 t _ _ HW Hc1).
  assert (EV : evs s1 = evs s) by (rewrite HS; reflexivity). assert (MM : mm s1 = mm s) by (rewrite HS; reflexivity). exists (step fire2 s1).
  split; [eapply steps_cons; apply one_step|]. split; auto. cbn [exec_op] in HS2. split; [rewrite HS2, EV; reflexivity|]. split; [|split; [rewrite HS2; exact MM|rewrite HS2; cbn; rewrite app_length, EV; simpl; lia]].
  exists s1, fire2. split; [apply one_step|]. split; [|apply steps_refl]. split; [|now rewrite EV]. eexists. apply runs_wrap. exists W. split; auto. exact Hc1.
Qed.
Lemma choose_track d h W s s' t k1 k2 kx : wrap W -> cur s = Some (t, W (choose d h k1 k2 kx)) -> steps s s' ->
  s' = s \/ exists fire, steps (step fire s) s' /\ cur (step fire s) = Some (t, W (if model_first (d_order d (mm s)) h then k1 else k2)) /\ mm (step fire s) = mm s /\ evs (step fire s) = evs s.
Proof.
  intros HW Hc R. destruct (steps_first _ _ _ _ _ R) as [->|[fire R1]]; auto. right. exists fire. split; auto. rewrite (step_op shuffle dut delayers W fire s t _ _ HW Hc). cbn [exec_op].
  split; [|split; reflexivity]. cbn [cur go set_cur]. unfold model_first. destruct (d_order d (mm s)) as [[|]|], (h_first h); reflexivity.
Qed.
Lemma put_track u W s s' t k kx : wrap W -> cur s = Some (t, W (port_put u k kx)) -> steps s s' ->
  (exists s1, steps s s1 /\ steps s1 s' /\ cur s1 = Some (t, W k) /\ mm s1 = mm s /\ evs s1 = evs s /\ delivered shuffle dut delayers s s1 t u) \/
  (exists s1 e, steps s s1 /\ steps s1 s' /\ cur s1 = Some (t, W (kx e)) /\ mm s1 = mm s /\ (u_msg u = Exn e \/ List.length (qs s) <= u_q u)) \/
  s' = s \/ (exists v, cur s' = Some (t, W (put_now (u_q u) v k kx))) \/ cur s' = Some (t, W (flagged k)).
Proof.
  intros HW Hc R. unfold port_put in Hc. destruct (u_msg u) as [v|e] eqn:EM; [|right; left; exists s, e; split; [apply steps_refl|]; auto 6].
  destruct (steps_first _ _ _ _ _ R) as [->|[fire R1]]; auto. assert (HS := step_op shuffle dut delayers W fire s t _ _ HW Hc). cbn [exec_op] in HS. set (s1 := step fire s) in *.
  destruct (nth_error (qs s) (u_q u)) as [qu|] eqn:EQ.
  2: { right; left. exists s1, TypeError. split; [apply one_step|]. split; auto. rewrite HS. split; [reflexivity|]. split; [reflexivity|]. right. now apply nth_error_None. }
  cbn [go] in HS. destruct ((u_max u <=? Z.of_nat (List.length (q_items qu)))%Z && negb (u_max u =? -1)%Z) eqn:EF.
  { left. exists s1. split; [apply one_step|]. split; auto. split; [now rewrite HS|]. split; [now rewrite HS|]. split; [now rewrite HS|]. exists s, fire, v. split; [apply steps_refl|]. split; [apply steps_refl|]. split; auto. right. split; [eexists; apply runs_wrap; exists W; split; [exact HW|exact Hc]|].
    apply andb_prop in EF. destruct EF as [F1 F2]. split; [intros X; rewrite X in F2; discriminate|]. unfold items. rewrite EQ. now apply Z.leb_le. }
  assert (Hc1 : cur s1 = Some (t, W (put_now (u_q u) v k kx))) by now rewrite HS. destruct (steps_first _ _ _ _ _ R1) as [->|[fire2 R2]]; [right; right; right; left; eauto|].
  assert (HS2 := step_op shuffle dut delayers W fire2 s1 t _ _ HW Hc1). set (s2 := step fire2 s1) in *. assert (A12 : steps s s2) by (eapply steps_cons; apply one_step).
  assert (FR : mm s2 = mm s1 /\ evs s2 = evs s1).
  { clear EQ. rewrite HS2. cbn [exec_op]. destruct (nth_error (qs s1) (u_q u)) as [qx|]; [|split; reflexivity]. cbn [mm evs go set_cur]. unfold q_wake. cbn [qs qput set_qs]. destruct (nth_error _ _) as [qy|]; [|split; reflexivity].
    assert (X : forall l y, mm (fst (wake_next y l)) = mm y /\ evs (fst (wake_next y l)) = evs (y : state)).
    { induction l as [|f l IH]; intros y; [split; reflexivity|]. cbn [wake_next]. destruct (fpending y f); [|apply IH]. cbn [fst]. unfold settle, conclude. destruct (fget y f) as [fu|]; [|split; reflexivity]. destruct (is_task (f_kind fu)), (pending fu); split; reflexivity. }
    specialize (X (q_getters qy) (qput s1 (u_q u) (mk_queue (q_items qx ++ [v]) (q_getters qx)))). unfold qput in *. destruct (wake_next _ _) as [s3 l]. exact X. }
  assert (Q1 : nth_error (qs s1) (u_q u) = Some qu) by (rewrite HS; exact EQ).
  assert (Hc2 : cur s2 = Some (t, W (flagged k))) by (rewrite HS2; cbn [exec_op]; rewrite Q1; reflexivity). destruct (steps_first _ _ _ _ _ R2) as [->|[fire3 R3]]; auto.
  assert (HS3 := step_op shuffle dut delayers W fire3 s2 t _ _ HW Hc2). cbn [exec_op] in HS3. left. exists (step fire3 s2). split; [eapply steps_trans; [exact A12|apply one_step]|]. split; auto.
  split; [now rewrite HS3|]. split; [rewrite HS3; cbn [mm evs go set_cur set_flag]; destruct FR as [-> _]; now rewrite HS|]. split; [rewrite HS3; cbn [mm evs go set_cur set_flag]; destruct FR as [_ ->]; now rewrite HS|].
  exists s1, fire2, v. split; [apply one_step|]. split; [apply one_step|]. split; auto. left. eexists. apply runs_wrap. exists W. split; [exact HW|exact Hc1].
Qed.

(** The hooks among the items. *)
Definition ihook (x : @item mem) : list hook := match x with IDrv h | IAgt h => [h] | IPut _ => [] end.
Definition dhook (x : @item mem) : list hook := match x with IDrv h => [h] | _ => [] end.
Definition ahook (x : @item mem) : list hook := match x with IAgt h => [h] | _ => [] end.
Definition firsts o (l : list (@item mem)) : list hook := filter (model_first o) (flat_map ihook l).
(** The duties of the items. *)
Definition duty_of (x : @item mem) : duty := match x with IPut u => Deliver u | IDrv h | IAgt h => Ask h end.
Definition good o (x : @item mem) : Prop := possible o (duty_of x).
Definition stops (n : nat) o (x : @item mem) (e : exn) : Prop := raises o (duty_of x) e \/ match x with IPut u => n <= u_q u | _ => False end.
Definition lates o (l : list hook) : list hook := filter (fun h => negb (model_first o h)) l.

Section Setup.
Context (d : @drv mem) (k : list id -> list hook -> list hook -> prog) (kx : exn -> prog).
Definition block (s s1 : state) (t : id) (hs : list hook) (es : list id) : Prop :=
  Forall2 (enrolled s s1 t (priority (d_prio d (mm s)))) hs es /\ NoDup es /\ Forall (fun e => List.length (evs s) <= e < List.length (evs s1)) es.
Lemma block_nil s s1 t : block s s1 t [] []. Proof. repeat split; constructor. Qed.
Lemma block_pre s0 s s1 t hs es : steps s0 s -> mm s = mm s0 -> evs s = evs s0 -> block s s1 t hs es -> block s0 s1 t hs es.
Proof.
  intros R M E [A [B C]]. repeat split; auto; [|rewrite <- E; exact C]. rewrite <- M. eapply Forall2_imp; [|exact A]. intros h e. apply enrolled_mono; auto. apply steps_refl.
Qed.
Lemma block_cons s s1 s2 t h hs es : steps s s1 -> steps s1 s2 -> mm s1 = mm s -> enrolled s s1 t (priority (d_prio d (mm s))) h (List.length (evs s)) -> List.length (evs s1) = Datatypes.S (List.length (evs s)) ->
  block s1 s2 t hs es -> block s s2 t (h :: hs) (List.length (evs s) :: es).
Proof.
  intros R1 R2 M H L [A [B C]]. pose proof (evs_le _ _ R2). repeat split.
  - constructor; [eapply enrolled_mono; [apply steps_refl|exact R2|exact H]|]. rewrite <- M. eapply Forall2_imp; [|exact A]. intros x e. apply enrolled_mono; auto. apply steps_refl.
  - constructor; auto. intros X. rewrite Forall_forall in C. specialize (C _ X). lia.
  - constructor; [lia|]. eapply Forall_impl; [|exact C]. simpl. intros. lia.
Qed.
Definition done_ (s s1 : state) (t : id) (x : @item mem) : Prop := match x with IPut u => delivered shuffle dut delayers s s1 t u | _ => True end.
Lemma done_mono s0 s s1 s2 t x : steps s0 s -> steps s1 s2 -> done_ s s1 t x -> done_ s0 s2 t x.
Proof. intros A B. destruct x as [u|h|h]; auto. intros [y [fi [v [C [D E]]]]]. exists y, fi, v. split; [eapply steps_trans; eauto|]. split; auto. eapply steps_trans; eauto. Qed.
Lemma done_all s0 s s1 t l : steps s0 s -> Forall (done_ s s1 t) l -> Forall (done_ s0 s1 t) l.
Proof. intros A. apply Forall_impl. intros x. apply done_mono; auto. apply steps_refl. Qed.
(** The call has raised [e] at one of the items [l]. *)
Definition stopped (s s1 s' : state) (t : id) (W : prog -> body) (l : list (@item mem)) (e : exn) : Prop :=
  exists l1 x l2 es', l = l1 ++ x :: l2 /\ Forall (good (d_order d (mm s))) l1 /\ stops (List.length (qs s)) (d_order d (mm s)) x e /\
    steps s s1 /\ steps s1 s' /\ cur s1 = Some (t, W (kx e)) /\ block s s1 t (firsts (d_order d (mm s)) l1) es' /\ Forall (done_ s s1 t) l1.
Lemma setup_track_full W l : forall s s' t es ld la, wrap W -> cur s = Some (t, W (setup d l es ld la k kx)) -> steps s s' ->
  (exists s1 es', steps s s1 /\ steps s1 s' /\ cur s1 = Some (t, W (k (es ++ es') (ld ++ lates (d_order d (mm s)) (flat_map dhook l)) (la ++ lates (d_order d (mm s)) (flat_map ahook l)))) /\
     block s s1 t (firsts (d_order d (mm s)) l) es' /\ mm s1 = mm s /\ Forall (good (d_order d (mm s))) l /\ Forall (done_ s s1 t) l) \/
  (exists s1 e, stopped s s1 s' t W l e) \/
  (exists q, cur s' = Some (t, W q) /\ preparing d k kx q).
Proof.
  induction l as [|x l IH]; intros s s' t es ld la HW Hc R.
  - left. exists s, []. cbn. rewrite !app_nil_r. split; [apply steps_refl|]. split; auto. split; auto. split; [apply block_nil|auto].
  - (* what has been stopped later *)
    assert (LATER : forall s0 s1 e, steps s s0 -> mm s0 = mm s -> evs s0 = evs s -> firsts (d_order d (mm s)) [x] = [] -> good (d_order d (mm s)) x -> done_ s s0 t x -> stopped s0 s1 s' t W l e -> stopped s s1 s' t W (x :: l) e).
    { intros s0 s1 e R0 M E F G DX [l1 [y [l2 [es' [Y1 [Y2 [Y3 [Y4 [Y5 [Y6 [Y7 Y8]]]]]]]]]]]. rewrite M in *. exists (x :: l1), y, l2, es'. split; [now rewrite Y1|]. split; [now constructor|]. split; [destruct Y3 as [Y3|Y3]; [now left|right]; destruct y; auto; pose proof (qs_le _ _ R0); lia|].
      split; [eapply steps_trans; eauto|]. split; auto. split; auto. split; [|constructor; [eapply done_mono; [apply steps_refl|exact Y4|exact DX]|eapply done_all; eauto]]. apply (block_pre s s0); auto. unfold firsts in *. cbn [flat_map]. rewrite filter_app. cbn [flat_map] in F. rewrite app_nil_r in F. rewrite F. exact Y7. }
    assert (HK : forall h ld1 la1, ihook x = [h] -> duty_of x = Ask h -> cur s = Some (t, W (choose d h (reg d h (fun e => setup d l (es ++ [e]) ld la k kx) kx) (setup d l es ld1 la1 k kx) kx)) ->
      (model_first (d_order d (mm s)) h = false -> ld1 ++ lates (d_order d (mm s)) (flat_map dhook l) = ld ++ lates (d_order d (mm s)) (flat_map dhook (x :: l)) /\ la1 ++ lates (d_order d (mm s)) (flat_map ahook l) = la ++ lates (d_order d (mm s)) (flat_map ahook (x :: l))) ->
      (model_first (d_order d (mm s)) h = true -> lates (d_order d (mm s)) (flat_map dhook l) = lates (d_order d (mm s)) (flat_map dhook (x :: l)) /\ lates (d_order d (mm s)) (flat_map ahook l) = lates (d_order d (mm s)) (flat_map ahook (x :: l))) ->
      (exists q, W q = W (choose d h (reg d h (fun e => setup d l (es ++ [e]) ld la k kx) kx) (setup d l es ld1 la1 k kx) kx) /\ preparing d k kx q) ->
      (exists s1 es', steps s s1 /\ steps s1 s' /\ cur s1 = Some (t, W (k (es ++ es') (ld ++ lates (d_order d (mm s)) (flat_map dhook (x :: l))) (la ++ lates (d_order d (mm s)) (flat_map ahook (x :: l))))) /\
         block s s1 t (firsts (d_order d (mm s)) (x :: l)) es' /\ mm s1 = mm s /\ Forall (good (d_order d (mm s))) (x :: l) /\ Forall (done_ s s1 t) (x :: l)) \/
      (exists s1 e, stopped s s1 s' t W (x :: l) e) \/ (exists q, cur s' = Some (t, W q) /\ preparing d k kx q)).
    { intros h ld1 la1 HI HD Hch HF HT [q0 [Q1 Q2]]. assert (DX : forall s1, done_ s s1 t x) by (intros s1; destruct x; [discriminate HD|exact Logic.I|exact Logic.I]). destruct (choose_track d h W s s' t _ _ kx HW Hch R) as [->|[fire [R1 [Hc1 [M1 E1]]]]]; [right; right; exists q0; rewrite Q1; auto|]. set (s1 := step fire s) in *.
      assert (FS : forall l, firsts (d_order d (mm s)) (x :: l) = if model_first (d_order d (mm s)) h then h :: firsts (d_order d (mm s)) l else firsts (d_order d (mm s)) l) by (intros l0; unfold firsts; cbn [flat_map]; rewrite HI; cbn [app filter]; reflexivity).
      rewrite FS. destruct (model_first (d_order d (mm s)) h) eqn:MF.
      - destruct (HT eq_refl) as [<- <-]. destruct (h_coro h) eqn:CO.
        { right; left. exists s1, AssertionError. exists [], x, l, []. split; auto. split; [constructor|]. split; [left; rewrite HD; cbn; auto|]. split; [apply one_step|]. split; auto. split; [|split; [apply block_nil|constructor]]. rewrite Hc1. unfold reg. now rewrite CO. }
        assert (GX : good (d_order d (mm s)) x) by (unfold good; rewrite HD; cbn; auto).
        destruct (reg_track d h W s1 s' t _ kx CO HW Hc1 R1) as [[s2 [A [B [C [D [M2 L2]]]]]]|[->|X]].
        + assert (M20 : mm s2 = mm s) by congruence. assert (R02 : steps s s2) by (eapply steps_trans; [apply one_step|exact A]).
          assert (BC : forall s3 hs es', steps s2 s3 -> block s2 s3 t hs es' -> block s s3 t (h :: hs) (List.length (evs s1) :: es')) by (intros s3 hs es' X1 X4; apply (block_pre s s1); auto; [apply one_step|]; apply (block_cons s1 s2); auto).
          destruct (IH s2 s' t (es ++ [List.length (evs s1)]) ld la HW C B) as [[s3 [es' [X1 [X2 [X3 [X4 [X5 [X6 X7]]]]]]]]|[[s3 [e [l1 [y [l2 [es' [Y1 [Y2 [Y3 [Y4 [Y5 [Y6 [Y7 Y8]]]]]]]]]]]]]|X]]; [| |right; right; exact X]; rewrite M20 in *.
          * left. exists s3, (List.length (evs s1) :: es'). split; [eapply steps_trans; eauto|]. split; auto. rewrite <- app_assoc in X3. split; [exact X3|]. split; [apply BC; auto|]. split; [congruence|]. split; [constructor; auto|constructor; [apply DX|eapply done_all; eauto]].
          * right; left. exists s3, e. exists (x :: l1), y, l2, (List.length (evs s1) :: es'). split; [now rewrite Y1|]. split; [now constructor|]. split; [destruct Y3 as [Y3|Y3]; [now left|right]; destruct y; auto; pose proof (qs_le _ _ R02); lia|].
            split; [eapply steps_trans; eauto|]. split; auto. split; auto. rewrite FS. split; [apply BC; auto|constructor; [apply DX|eapply done_all; eauto]].
        + right; right. eexists. split; [exact Hc1|]. now constructor.
        + right; right. eexists. split; [exact X|]. constructor.
      - destruct (HF eq_refl) as [<- <-]. assert (GX : good (d_order d (mm s)) x) by (unfold good; rewrite HD; cbn; congruence). destruct (IH s1 s' t es ld1 la1 HW Hc1 R1) as [[s3 [es' [X1 [X2 [X3 [X4 [X5 [X6 X7]]]]]]]]|[[s3 [e X]]|X]]; [| |right; right; exact X].
        + left. exists s3, es'. split; [eapply steps_cons; exact X1|]. split; auto. rewrite M1 in X3, X6. split; [exact X3|]. split; [|split; [congruence|split; [constructor; auto|constructor; [apply DX|eapply done_all; [apply one_step|exact X7]]]]]. apply (block_pre s s1); auto; [apply one_step|]. rewrite M1 in X4. exact X4.
        + right; left. exists s3, e. apply (LATER s1 s3 e (one_step _ _) M1 E1); auto. rewrite FS. reflexivity. }
    destruct x as [u|h|h].
    + cbn [setup] in Hc. destruct (put_track u W s s' t _ kx HW Hc R) as [[s1 [A [B [C [M [E G]]]]]]|[[s1 [e [X1 [X2 [X3 [X4 X5]]]]]]|[->|[[v X]|X]]]].
      * assert (GX : good (d_order d (mm s)) (IPut u)) by (destruct G as [? [? [v0 [_ [_ [G _]]]]]]; exists v0; exact G). destruct (IH s1 s' t es ld la HW C B) as [[s3 [es' [X1 [X2 [X3 [X4 [X5 [X6 X7]]]]]]]]|[[s3 [e X]]|X]]; [| |right; right; exact X].
        -- left. exists s3, es'. split; [eapply steps_trans; eauto|]. split; auto. rewrite M in X3, X4, X6. split; [exact X3|]. split; [|split; [congruence|split; [constructor; auto|constructor; [eapply (done_mono s s s1 s3 t (IPut u)); [apply steps_refl|exact X1|exact G]|eapply done_all; eauto]]]]. apply (block_pre s s1); auto.
        -- right; left. exists s3, e. apply (LATER s1 s3 e A M E); auto.
      * right; left. exists s1, e. exists [], (IPut u), l, []. split; auto. split; [constructor|]. split; [destruct X5 as [X5|X5]; [left; exact X5|right; exact X5]|]. split; auto. split; auto. split; auto. split; [apply block_nil|constructor].
      * right; right. eexists. split; [exact Hc|]. exact (pr_setup d k kx (IPut u) l es ld la).
      * right; right. eexists. split; [exact X|]. constructor.
      * right; right. eexists. split; [exact X|]. constructor.
    + apply (HK h (ld ++ [h]) la eq_refl); auto.
      * intros MF. unfold lates at 2 4. cbn [flat_map dhook ahook app filter]. rewrite MF. cbn [negb]. rewrite <- app_assoc. split; reflexivity.
      * intros MF. unfold lates at 2 4. cbn [flat_map dhook ahook app filter]. rewrite MF. split; reflexivity.
      * eexists. split; [reflexivity|]. exact (pr_setup d k kx (IDrv h) l es ld la).
    + apply (HK h ld (la ++ [h]) eq_refl); auto.
      * intros MF. unfold lates at 2 4. cbn [flat_map dhook ahook app filter]. rewrite MF. cbn [negb]. rewrite <- app_assoc. split; reflexivity.
      * intros MF. unfold lates at 2 4. cbn [flat_map dhook ahook app filter]. rewrite MF. split; reflexivity.
      * eexists. split; [reflexivity|]. exact (pr_setup d k kx (IAgt h) l es ld la).
Qed.
Lemma setup_track W l : forall s s' t es ld la, wrap W -> cur s = Some (t, W (setup d l es ld la k kx)) -> steps s s' ->
  (exists s1 es', steps s s1 /\ steps s1 s' /\ cur s1 = Some (t, W (k (es ++ es') (ld ++ lates (d_order d (mm s)) (flat_map dhook l)) (la ++ lates (d_order d (mm s)) (flat_map ahook l)))) /\
     block s s1 t (firsts (d_order d (mm s)) l) es' /\ mm s1 = mm s) \/
  (exists s1 e, steps s s1 /\ steps s1 s' /\ cur s1 = Some (t, W (kx e))) \/
  (exists q, cur s' = Some (t, W q) /\ preparing d k kx q).
Proof.
  intros s s' t es ld la HW Hc R. destruct (setup_track_full W l s s' t es ld la HW Hc R) as [[s1 [es' [A [B [C [D [E _]]]]]]]|[[s1 [e [l1 [x [l2 [es' [_ [_ [_ [A [B [C _]]]]]]]]]]]]|X]]; [left; exists s1, es'; auto|right; left; exists s1, e; auto|auto].
Qed.
End Setup.
Lemma reg_all_track d k kx W l : forall s s' t es, wrap W -> cur s = Some (t, W (reg_all d l es k kx)) -> steps s s' ->
  (exists s1 es', steps s s1 /\ steps s1 s' /\ cur s1 = Some (t, W (k (es ++ es'))) /\ block d s s1 t l es' /\ mm s1 = mm s /\ Forall (fun h => h_coro h = false) l) \/
  (exists s1 l1 h l2 es', l = l1 ++ h :: l2 /\ Forall (fun h => h_coro h = false) l1 /\ h_coro h = true /\ steps s s1 /\ steps s1 s' /\ cur s1 = Some (t, W (kx AssertionError)) /\ block d s s1 t l1 es') \/
  (exists q, cur s' = Some (t, W q) /\ registering d k kx q).
Proof.
  induction l as [|h l IH]; intros s s' t es HW Hc R.
  - left. exists s, []. cbn. rewrite !app_nil_r. split; [apply steps_refl|]. split; auto. split; auto. split; [apply block_nil|auto].
  - cbn [reg_all] in Hc. destruct (h_coro h) eqn:CO.
    { right; left. exists s, [], h, l, []. split; auto. split; [constructor|]. split; auto. split; [apply steps_refl|]. split; auto. split; [|apply block_nil]. rewrite Hc. unfold reg. now rewrite CO. }
    destruct (reg_track d h W s s' t _ kx CO HW Hc R) as [[s2 [A [B [C [D [M2 L2]]]]]]|[->|X]].
    + destruct (IH s2 s' t (es ++ [List.length (evs s)]) HW C B) as [[s3 [es' [X1 [X2 [X3 [X4 [X5 X6]]]]]]]|[[s3 [l1 [h1 [l2 [es' [Y1 [Y2 [Y3 [Y4 [Y5 [Y6 Y7]]]]]]]]]]]|X]]; [| |now right; right].
      * left. exists s3, (List.length (evs s) :: es'). split; [eapply steps_trans; eauto|]. split; auto. rewrite <- app_assoc in X3. split; [exact X3|]. split; [|split; [congruence|constructor; auto]]. apply (block_cons d s s2); auto.
      * right; left. exists s3, (h :: l1), h1, l2, (List.length (evs s) :: es'). split; [now rewrite Y1|]. split; [constructor; auto|]. split; auto. split; [eapply steps_trans; eauto|]. split; auto. split; auto. apply (block_cons d s s2); auto.
    + right; right. eexists. split; [exact Hc|]. exact (rg_reg d k kx h l es CO).
    + right; right. eexists. split; [exact X|]. constructor.
Qed.

(** * Waiting for the hooks *)
Lemma waited test m W s s2 s1 t z h e i v q : wrap W -> steps (init test m) s -> enrolled s s2 t z h e -> made_between shuffle dut delayers s2 s1 (event_wait e) i -> returned s1 i v -> cur s1 = Some (t, W q) -> hook_ran s s1 t z h e.
Proof.
  intros HW R0 [x [fire [A [[[k Hr] ->] B]]]] [y [C [D [Ho Hi]]]] Re Hc. apply runs_wrap in Hr as [W1 [HW1 Hx]]. assert (Rx : steps (init test m) x) by (eapply steps_trans; eauto).
  assert (Ry : steps (step fire x) y) by (eapply steps_trans; eauto). assert (Ry0 : steps (init test m) y) by (eapply steps_trans; [exact Rx|eapply steps_cons; exact Ry]).
  assert (Pr : private y (List.length (evs x))) by (eapply private_steps; [eapply reg_private; eauto|exact Ry]).
  destruct (steps_first _ _ _ _ _ D) as [->|[fi D1]]; [exfalso; unfold returned, state_of, fget in Re; rewrite Hi in Re; rewrite (proj2 (nth_error_None (futs y) (List.length (futs y)))) in Re by lia; discriminate|].
  assert (In1 := wait_child shuffle dut delayers test m y _ i fi s1 v Ry0 Ho Hi Pr D1 Re). assert (Rs1 : steps (step fire x) s1) by (eapply steps_trans; eauto).
  destruct (hook_begun shuffle dut delayers W1 test m x t _ _ _ fire s1 HW1 Rx Hx Rs1 In1) as [u [U1 [U2 [c [todo [sb U3]]]]]]. 
  assert (Ux : exists f2, steps (step f2 x) u) by (destruct (steps_first _ _ _ _ _ U1) as [->|X]; auto; exfalso; rewrite Hx in U3; destruct HW1 as [->| ->]; discriminate). destruct Ux as [f2 Ux].
  assert (Us : exists f3, steps (step f3 u) s1) by (destruct (steps_first _ _ _ _ _ U2) as [->|X]; auto; exfalso; rewrite Hc in U3; destruct HW as [->| ->]; discriminate). destruct Us as [f3 Us].
  exists x, f2, u, f3. split; auto. split; [split; [exists k; apply runs_wrap; eauto|reflexivity]|]. split; auto. split; [exists c, todo, sb; exact U3|]. split; [exact Us|exact In1].
Qed.
Lemma events_track test m W s s2 s' t z hs es k : wrap W -> steps (init test m) s -> steps s s2 -> Forall2 (enrolled s s2 t z) hs es -> cur s2 = Some (t, W (gather (map event_wait es) k)) -> steps s2 s' ->
  (exists s1 vs, steps s2 s1 /\ steps s1 s' /\ cur s1 = Some (t, W (k (Ok (VList vs)))) /\ Forall2 (hook_ran s s1 t z) hs es) \/
  (exists s1 e, steps s2 s1 /\ steps s1 s' /\ cur s1 = Some (t, W (k (Exn e)))) \/
  gathering s2 s' t (map event_wait es) k.
Proof.
  intros HW R0 R2 HE Hc R. assert (R02 : steps (init test m) s2) by (eapply steps_trans; eauto).
  destruct (gather_track shuffle dut delayers test m W k _ s2 s' t HW R02 Hc R) as [[s1 [vs [A [B [C [D E]]]]]]|[[s1 [i [e [vs [A [B [C _]]]]]]]|[[s1 [A [B [C _]]]]|[[i [A B]]|[i [vs [A [B [_ C]]]]]]]]].
  - left. exists s1, vs. split; auto. split; auto. split; auto. rewrite map_length in *. assert (C' : exists q, cur s1 = Some (t, W q)) by eauto. destruct C' as [q C']. clear C. set (is := seq (List.length (futs s2)) (List.length es)) in *. clearbody is. revert is vs D E. clear - HE HW R0 C'. induction HE as [|h e hs es H HE IH]; intros is vs D E; constructor.
    + cbn [map] in D. inversion D; subst. inversion E; subst. eapply (waited test m W); eauto.
    + cbn [map] in D. inversion D; subst. inversion E; subst. eapply IH; eauto.
  - right; left. exists s1, e. auto.
  - right; left. exists s1, CancelledError. auto.
  - right; right. left. eexists i, _. split; auto. apply runs_wrap. eauto.
  - right; right. right. exists i, vs. split; auto. destruct C as [C|C]; auto. left. apply runs_wrap. eauto.
Qed.
Lemma items_hooks mi : flat_map ihook (flat_map items_of mi) = flat_map (fun i => drv_hooks i ++ agt_hooks i) mi /\ flat_map dhook (flat_map items_of mi) = flat_map drv_hooks mi /\ flat_map ahook (flat_map items_of mi) = flat_map agt_hooks mi.
Proof.
  induction mi as [|i mi [A [B C]]]; [auto|]. cbn [flat_map]. rewrite !flat_map_app, A, B, C.
  assert (P : forall l : list put, flat_map ihook (map IPut l) = [] /\ flat_map dhook (map IPut l) = [] /\ flat_map ahook (map IPut l) = []) by (induction l; auto).
  assert (G : forall l : list hook, flat_map ihook (map IAgt l) = l /\ flat_map dhook (map IAgt l) = [] /\ flat_map ahook (map IAgt l) = l) by (induction l as [|h l [X1 [X2 X3]]]; cbn; auto; rewrite X1, X2, X3; auto).
  unfold items_of, drv_hooks, agt_hooks. destruct (P (mi_aports i)) as [P1 [P2 P3]]. destruct (G (mi_ahooks i)) as [G1 [G2 G3]].
  destruct (mi_dport i) as [u|]; [|destruct (mi_aports i) as [|u l]]; rewrite ?flat_map_app, ?P1, ?P2, ?P3, ?G1, ?G2, ?G3; cbn [opt flat_map app]; rewrite ?app_nil_r; [repeat split| |repeat split].
  destruct (mi_dhook i); cbn; repeat split; try reflexivity.
Qed.
End Drv.
