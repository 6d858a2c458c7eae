(** C105: process_requests and errors. *)
From Coq Require Import List Bool Arith Lia.
From Verif Require Import Py Req_Model Req_Spec P_Req ReqX_Model ReqX_Spec.
Import ListNotations.

Section Agree.
Context {mem data val : Type} (dut : mem -> mem) (assign : data -> mem -> mem).
Notation state := (@state mem data val). Notation dict := (@dict mem data val). Notation request := (@request mem data val).
Definition quiet (d : data) (m : mem) : mem * res unit := (assign d m, Ok tt).
Implicit Types (s : state).
Lemma map_put_nth {A B} (f : A -> B) n a l : map f (put_nth n a l) = put_nth n (f a) (map f l).
Proof. revert n. induction l as [|x l IH]; intros [|n]; simpl; auto. now rewrite IH. Qed.
Lemma lift_funcs fs c : forall m, run_funcs_x (map (option_map (fun (f : nat -> mem -> mem * val) (c : nat) (m : mem) => let (m', v) := f c m in (m', Ok v))) fs) c m = (let (m', l) := run_funcs (mem := mem) (val := val) fs c m in (m', Ok l)).
Proof.
  induction fs as [|[f|] fs IH]; intros m; simpl; auto.
  - destruct (f c m) as [m1 v]. rewrite IH. destruct (run_funcs fs c m1). auto.
  - rewrite IH. destruct (run_funcs fs c m). auto.
Qed.
Lemma lift_apply s i c : apply_x quiet (lift s) i c = (lift (apply_dict assign s i c), Ok tt).
Proof.
  unfold apply_x, apply_dict, lift. cbn [x_heap]. rewrite nth_error_map. destruct (nth_error (heap s) i) as [d|] eqn:E; simpl; auto. rewrite lift_funcs. destruct (run_funcs (d_funcs d) c (assign (d_data d) (mm s))) as [m2 fr].
  unfold wrote. simpl. rewrite map_put_nth. reflexivity.
Qed.
Lemma lift_try s i c : try_x quiet (lift s) i c = (lift (try_dict assign s i c), Ok tt).
Proof.
  unfold try_x, try_dict. cbn [lift x_heap]. rewrite nth_error_map. destruct (nth_error (heap s) i) as [d|] eqn:E; simpl; auto. destruct (d_cond d) as [f|] eqn:C; simpl.
  - destruct (f c (mm s)); [apply lift_apply|reflexivity].
  - apply lift_apply.
Qed.
Lemma lift_rise s c : sound s -> rise_x quiet (lift s) c = (lift (on_rise assign s c), Ok tt).
Proof.
  intros S. unfold rise_x, on_rise. cbn [lift x_heap x_blocked]. destruct (blocked s) as [i|] eqn:B.
  - destruct (S i B) as [d [E C]]. rewrite nth_error_map, E. simpl. destruct (d_cond d) as [f|]; [|contradiction]. simpl. destruct (f c (mm s)); [exact (lift_apply (unblock s) i c)|unfold lift; rewrite B; auto].
  - unfold next_x, next_request. cbn [lift x_queue]. destruct (queue s) as [|[|i|f] q] eqn:Q; simpl; rewrite ?B; auto.
    + exact (lift_try (mk_state (heap s) q None (mm s) (cyc s) (calls s) (assigned s)) i c).
    + destruct (f c (mm s)) as [m1 [d|]]; simpl; auto.
      pose proof (lift_try (mk_state (heap s ++ [d]) q None m1 (cyc s) (calls s) (assigned s)) (List.length (heap s)) c) as H. unfold lift in H. cbn [heap queue blocked mm cyc calls assigned] in H. rewrite map_app in H. rewrite map_length. exact H.
Qed.
Lemma sound_apply s i c : blocked s = None -> sound (apply_dict assign s i c).
Proof. intros B j. destruct (cyc_apply assign s i c) as [_ [_ [_ ->]]]. rewrite B. discriminate. Qed.
Lemma sound_try s i c : blocked s = None -> sound (try_dict assign s i c).
Proof.
  intros B. unfold try_dict. destruct (nth_error (heap s) i) as [d|] eqn:E; [|intros j H; congruence]. destruct (d_cond d) as [f|] eqn:C; [|now apply sound_apply]. destruct (f c (mm s)); [now apply sound_apply|].
  intros j H. cbn [blocked heap] in *. injection H as <-. exists d. split; auto. congruence.
Qed.
Lemma sound_rise s c : sound s -> sound (on_rise assign s c).
Proof.
  intros S. unfold on_rise. destruct (blocked s) as [i|] eqn:B.
  - destruct (nth_error (heap s) i) as [d|]; auto. destruct (match d_cond d with Some _ => _ | None => _ end); auto. now apply sound_apply.
  - unfold next_request. destruct (queue s) as [|[|i|f] q]; auto; try (intros j H; cbn [blocked] in H; congruence); try (now apply sound_try).
    destruct (f c (mm s)) as [m1 [d|]]; [now apply sound_try|intros j H; cbn [blocked] in H; congruence].
Qed.
Lemma lift_repeat n c : forall s, sound s -> repeat_x quiet n (lift s) c = (lift (repeat_call assign n s c), Ok tt) /\ sound (repeat_call assign n s c).
Proof. induction n as [|n IH]; intros s S; simpl; auto. rewrite lift_rise by auto. apply IH. now apply sound_rise. Qed.
Lemma lift_step s : sound s -> step_x dut quiet (lift s) = (lift (dstep dut assign s), Ok tt) /\ sound (dstep dut assign s).
Proof. intros So. unfold step_x, dstep. apply (lift_repeat (calls s) (S (cyc s)) (mk_state (heap s) (queue s) (blocked s) (dut (mm s)) (S (cyc s)) (calls s) (assigned s)) So). Qed.
Lemma lift_loop s s' : sound s -> loop dut assign s s' -> loop_x dut quiet (lift s) (lift s', Ok tt).
Proof.
  intros S L. revert S. induction L as [s Q|s s' Q L IH]; intros S; [apply lx_end; cbn; now rewrite Q|].
  destruct (lift_step s S) as [E S']. eapply lx_step; [|exact E|auto]. cbn. destruct (queue s); [contradiction|discriminate].
Qed.
Lemma loop_lift x r : loop_x dut quiet x r -> forall s, x = lift s -> sound s -> exists s', loop dut assign s s' /\ r = (lift s', Ok tt).
Proof.
  induction 1 as [x Q|x x1 u r Q E L IH|x x1 e Q E]; intros s -> S.
  - exists s. split; auto. apply loop_end. cbn in Q. destruct (queue s); [auto|discriminate].
  - destruct (lift_step s S) as [E' S']. rewrite E' in E. injection E as <- <-. destruct (IH _ eq_refl S') as [s' [L' ->]]. exists s'. split; auto. apply loop_step; auto. intros X. apply Q. cbn. now rewrite X.
  - destruct (lift_step s S) as [E' _]. rewrite E' in E. discriminate.
Qed.
Lemma lift_collect s rs : collect_x (lift s) (map lift_request rs) = collect s rs.
Proof.
  induction rs as [|[|i|f] rs IH]; simpl; auto. unfold collect_x, collect in *. cbn [lift x_heap] in *. rewrite IH. f_equal. rewrite nth_error_map. destruct (nth_error (heap s) i) as [d|]; simpl; auto.
Qed.
(** Where nothing can raise, the model with errors says what the model of C53, C54 and C55 says. *)
Theorem C105_agrees s rs r : sound s -> (process_x dut quiet (lift s) (map lift_request rs) r <-> exists s' o, process_requests dut assign s rs (s', o) /\ r = (lift s', o)).
Proof.
  intros S. assert (PA : put_all_x (lift s) (map lift_request rs) = lift (put_all s rs)) by (unfold put_all_x, put_all, lift; cbn; now rewrite map_app). assert (SP : sound (put_all s rs)) by exact S.
  assert (QE : x_queue (lift s) = [] <-> queue s = []) by (cbn; destruct (queue s); split; auto; discriminate). assert (RE : map lift_request rs = [] <-> rs = []) by (destruct rs; split; auto; discriminate).
  split.
  - intros P. inversion P as [? ? Q|? ? Q C R|? ? s' u Q C L|? ? s' e Q C L]; subst.
    + exists s, (Exn AssertionError). split; auto. apply pr_busy. now rewrite <- QE.
    + exists (put_all s rs), (Exn AttributeError). rewrite PA. split; auto. apply pr_nodut; [now apply QE|exact C|now rewrite <- RE].
    + rewrite PA in L. destruct (loop_lift _ _ L _ eq_refl SP) as [s1 [L1 E]]. injection E as -> ->. exists s1, (Ok (collect s1 rs)). rewrite lift_collect. split; auto. apply pr_done; [now apply QE|rewrite <- RE; exact C|auto].
    + rewrite PA in L. destruct (loop_lift _ _ L _ eq_refl SP) as [s1 [_ E]]. discriminate.
  - intros [s' [o [P ->]]]. inversion P as [? ? Q|? ? Q C R|? ? s1 Q C L]; subst.
    + apply px_busy. now rewrite QE.
    + rewrite <- PA. apply px_nodut; [now apply QE|exact C|now rewrite RE].
    + rewrite <- lift_collect. eapply px_done; [now apply QE|rewrite RE; exact C|]. rewrite PA. now apply lift_loop.
Qed.
End Agree.
Print Assumptions C105_agrees.

Section Thms.
Context {mem data val : Type} (dut : mem -> mem) (xassign : data -> mem -> mem * res unit).
Notation xstate := (@xstate mem data val). Notation xdict := (@xdict mem data val). Notation xrequest := (@xrequest mem data val).
Notation step_x := (step_x dut xassign). Notation process_x := (process_x dut xassign). Notation loop_x := (loop_x dut xassign). Notation blames := (blames xassign). Notation raised_by := (raised_by xassign).
Notation steps_x := (steps_x dut xassign). Notation data_only_x := (data_only_x xassign).
Implicit Types (s : xstate) (d : xdict) (r : xrequest).

(** [d] is [d0], possibly with special keys popped. *)
Definition sub d d0 : Prop := x_data d = x_data d0 /\ (x_cond d = x_cond d0 \/ x_cond d = None) /\ (x_funcs d = x_funcs d0 \/ x_funcs d = [None]).
Lemma sub_refl d : sub d d. Proof. repeat split; auto. Qed.
Lemma sub_blames d d0 c e : sub d d0 -> blames d c e -> blames d0 c e.
Proof.
  intros [A [B C]] [[f [m [H1 H2]]]|[[m [m' H]]|[f [m [m' [H1 H2]]]]]].
  - left. exists f, m. split; auto. destruct B as [B|B]; congruence.
  - right. left. rewrite A in H. eauto.
  - right. right. exists f, m, m'. split; auto. destruct C as [C|C]; [now rewrite <- C|]. rewrite C in H1. destruct H1 as [H1|[]]. discriminate.
Qed.
(** What is known of the objects of [s0] later. *)
Definition kept_x s0 s : Prop := forall i d0, nth_error (x_heap s0) i = Some d0 -> exists d, nth_error (x_heap s) i = Some d /\ sub d d0.
Definition frame s s' : Prop := x_queue s' = x_queue s /\ x_calls s' = x_calls s /\ x_cyc s' = x_cyc s.
Lemma funcs_raise fs c : forall m m' e, run_funcs_x (mem := mem) (val := val) fs c m = (m', Exn e) -> exists f m1 m2, In (Some f) fs /\ f c m1 = (m2, @Exn val e).
Proof.
  induction fs as [|[f|] fs IH]; intros m m' e H; simpl in H; [discriminate| |].
  - destruct (f c m) as [m1 [v|e1]] eqn:F.
    + destruct (run_funcs_x fs c m1) as [m2 [l|e2]] eqn:G; [discriminate|]. injection H as <- <-. destruct (IH _ _ _ G) as [f1 [a [b [X Y]]]]. exists f1, a, b. split; auto. now right.
    + injection H as <- <-. exists f, m, m1. split; auto. now left.
  - destruct (run_funcs_x fs c m) as [m2 [l|e2]] eqn:G; [discriminate|]. injection H as <- <-. destruct (IH _ _ _ G) as [f1 [a [b [X Y]]]]. exists f1, a, b. split; auto. now right.
Qed.
Lemma apply_facts s0 s i c s' o : kept_x s0 s -> apply_x xassign s i c = (s', o) -> frame s s' /\ x_blocked s' = x_blocked s /\ kept_x s0 s' /\
  (forall e, o = Exn e -> exists d, nth_error (x_heap s) i = Some d /\ blames d c e).
Proof.
  intros K H. unfold apply_x in H. destruct (nth_error (x_heap s) i) as [d|] eqn:E; [|injection H as <- <-; repeat split; auto; intros; discriminate].
  assert (W : forall rt m, kept_x s0 (wrote s i (mk_xdict None (x_data d) [None] None rt) m c)).
  { intros rt m j d0 Hj. cbn [wrote x_heap]. destruct (K j d0 Hj) as [d1 [H1 S1]]. rewrite (put_nth_get _ _ _ _ j E). destruct (Nat.eqb_spec j i) as [->|]; eauto.
    rewrite E in H1. injection H1 as <-. eexists. split; [reflexivity|]. destruct S1 as [A _]. split; auto. }
  destruct (xassign (x_data d) (x_mm s)) as [m1 [u|e]] eqn:A.
  - destruct (run_funcs_x (x_funcs d) c m1) as [m2 [fr|e]] eqn:F.
    + injection H as <- <-. repeat split; auto. intros; discriminate.
    + injection H as <- <-. repeat split; auto. intros e0 X. injection X as <-. exists d. split; auto. right. right. eapply funcs_raise; eauto.
  - injection H as <- <-. repeat split; auto. intros e0 X. injection X as <-. exists d. split; auto. right. left. eauto.
Qed.
(** [i] belongs to the request [r]. *)
Definition owns s0 s r i : Prop := exists d d0, nth_error (x_heap s) i = Some d /\ sub d d0 /\ content_x s0 r d0.
Definition inv s0 rs dn s : Prop :=
  rs = dn ++ x_queue s /\ x_calls s = 1 /\ kept_x s0 s /\ x_cyc s0 + List.length dn <= x_cyc s /\
  forall i, x_blocked s = Some i -> exists dn' r d, dn = dn' ++ [r] /\ owns s0 s r i /\ nth_error (x_heap s) i = Some d /\ x_cond d <> None.
Lemma try_facts s0 s r i c s' o : kept_x s0 s -> x_blocked s = None -> owns s0 s r i -> try_x xassign s i c = (s', o) ->
  frame s s' /\ kept_x s0 s' /\ (forall j, x_blocked s' = Some j -> o = Ok tt /\ exists d, j = i /\ owns s0 s' r i /\ nth_error (x_heap s') i = Some d /\ x_cond d <> None) /\ (forall e, o = Exn e -> raised_by s0 r c e).
Proof.
  intros K B [d [d0 [E [S C0]]]] H. unfold try_x in H. rewrite E in H. destruct (x_cond d) as [f|] eqn:Cd.
  - destruct (f c (x_mm s)) as [[|]|e] eqn:F.
    + destruct (apply_facts s0 _ _ _ _ _ K H) as [A1 [A2 [A3 A4]]]. split; auto. split; auto. split; [intros j X; congruence|]. intros e X. destruct (A4 e X) as [d1 [E1 B1]]. rewrite E in E1. injection E1 as <-. left. exists d0. split; auto. eapply sub_blames; eauto.
    + injection H as <- <-. split; [repeat split|]. split; auto. split; [|intros; discriminate]. intros j X. cbn in X. injection X as <-. split; auto. exists d. split; auto. split; [exists d, d0; auto|]. split; auto. congruence.
    + injection H as <- <-. split; [repeat split|]. split; auto. split; [intros j X; congruence|]. intros e0 X. injection X as <-. left. exists d0. split; auto. eapply sub_blames; eauto. left. eauto.
  - destruct (apply_facts s0 _ _ _ _ _ K H) as [A1 [A2 [A3 A4]]]. split; auto. split; auto. split; [intros j X; congruence|]. intros e X. destruct (A4 e X) as [d1 [E1 B1]]. rewrite E in E1. injection E1 as <-. left. exists d0. split; auto. eapply sub_blames; eauto.
Qed.
(** One cycle that is not idle. *)
Lemma step_facts s0 rs dn s s' o : known s0 rs -> inv s0 rs dn s -> x_queue s <> [] -> step_x s = (s', o) -> x_cyc s' = S (x_cyc s) /\
  match o with
  | Ok _ => exists dn', inv s0 rs dn' s'
  | Exn e => exists dn' r, rs = dn' ++ r :: x_queue s' /\ x_calls s' = 1 /\ x_cyc s0 + List.length dn' < x_cyc s' /\ raised_by s0 r (x_cyc s') e /\
      forall i, x_blocked s' = Some i -> exists d f, owns s0 s' r i /\ nth_error (x_heap s') i = Some d /\ x_cond d = Some f /\ f (x_cyc s') (x_mm s') = Exn e
  end.
Proof.
  intros KN [R [CA [K [CY BL]]]] QN H. unfold ReqX_Model.step_x in H. rewrite CA in H. cbn [repeat_x] in H.
  set (s1 := mk_xstate (x_heap s) (x_queue s) (x_blocked s) (dut (x_mm s)) (S (x_cyc s)) 1 (x_assigned s)) in *. assert (K1 : kept_x s0 s1) by exact K.
  destruct (rise_x xassign s1 (S (x_cyc s))) as [s2 o2] eqn:E. assert (Hs : s' = s2 /\ match o2, o with Ok _, Ok _ => True | Exn e, Exn e' => e = e' | _, _ => False end) by (destruct o2; injection H as <- <-; auto). destruct Hs as [-> Ho]. clear H.
  unfold rise_x in E. destruct (x_blocked s1) as [i|] eqn:B; cbn in B.
  - destruct (BL i B) as [dn' [r [d [Edn [OW [Ed Ec]]]]]]. change (nth_error (x_heap s1) i) with (nth_error (x_heap s) i) in E. rewrite Ed in E. destruct (x_cond d) as [f|] eqn:Cd; [|contradiction].
    destruct (f (S (x_cyc s)) (x_mm s1)) as [[|]|e0] eqn:F.
    + destruct (apply_facts s0 (with_blocked s1 None) i _ _ _ K1 E) as [[F1 [F2 F3]] [Bl [K2 RB]]]. cbn in F1, F2, F3, Bl. split; [exact F3|]. destruct o2 as [u|e]; destruct o as [u'|e']; try contradiction.
      * exists dn. split; [now rewrite F1|]. split; auto. split; auto. split; [lia|]. intros j X. congruence.
      * subst e'. destruct (RB e eq_refl) as [d1 [E1 B1]]. cbn in E1. rewrite Ed in E1. injection E1 as <-. exists dn', r. split; [rewrite F1, R, Edn, <- app_assoc; reflexivity|]. split; auto. rewrite Edn, app_length in CY. cbn in CY. split; [lia|].
        split; [|intros j X; congruence]. destruct OW as [d2 [d0 [A1 [A2 A3]]]]. rewrite Ed in A1. injection A1 as <-. left. exists d0. split; auto. rewrite F3. eapply sub_blames; eauto.
    + injection E as <- <-. split; [reflexivity|]. destruct o as [u'|e']; [|contradiction]. exists dn. split; [exact R|]. split; [reflexivity|]. split; [exact K|]. split; [cbn; lia|]. exact BL.
    + injection E as <- <-. split; [reflexivity|]. destruct o as [u'|e']; [contradiction|]. subst e'. exists dn', r. split; [cbn; rewrite R, Edn, <- app_assoc; reflexivity|]. split; [reflexivity|]. rewrite Edn, app_length in CY. cbn in CY. split; [cbn; lia|].
      split.
      * destruct OW as [d2 [d0 [A1 [A2 A3]]]]. rewrite Ed in A1. injection A1 as <-. left. exists d0. split; auto. eapply sub_blames; [exact A2|]. left. exists f, (x_mm s1). split; auto.
      * intros j X. cbn in X. assert (j = i) by congruence. subst j. exists d, f. split; [exact OW|]. split; [exact Ed|]. split; auto.
  - unfold next_x in E. change (x_queue s1) with (x_queue s) in E. change (x_heap s1) with (x_heap s) in E. change (x_blocked s1) with (x_blocked s) in E. rewrite B in E. destruct (x_queue s) as [|r q] eqn:Q; [contradiction|].
    assert (RR : rs = (dn ++ [r]) ++ q) by (rewrite R, <- app_assoc; reflexivity).
    assert (CL : forall x, x_queue x = q -> x_calls x = 1 -> x_cyc x = S (x_cyc s) -> kept_x s0 x -> (forall j, x_blocked x = Some j -> exists d, owns s0 x r j /\ nth_error (x_heap x) j = Some d /\ x_cond d <> None) -> exists dn', inv s0 rs dn' x).
    { intros x X1 X2 X3 X4 X5. exists (dn ++ [r]). split; [now rewrite X1|]. split; auto. split; auto. split; [rewrite app_length; cbn; lia|]. intros j X. destruct (X5 j X) as [d [Y1 [Y2 Y3]]]. exists dn, r, d. auto. }
    assert (CX : forall x e, x_queue x = q -> x_calls x = 1 -> x_cyc x = S (x_cyc s) -> x_blocked x = None -> raised_by s0 r (x_cyc x) e ->
      exists dn' r0, rs = dn' ++ r0 :: x_queue x /\ x_calls x = 1 /\ x_cyc s0 + List.length dn' < x_cyc x /\ raised_by s0 r0 (x_cyc x) e /\
      forall i, x_blocked x = Some i -> exists d f, owns s0 x r0 i /\ nth_error (x_heap x) i = Some d /\ x_cond d = Some f /\ f (x_cyc x) (x_mm x) = Exn e).
    { intros x e X1 X2 X3 X4 X5. exists dn, r. split; [now rewrite X1|]. split; auto. split; [lia|]. split; auto. intros i X. congruence. }
    assert (TR : forall h m i, kept_x s0 (mk_xstate h q None m (S (x_cyc s)) 1 (x_assigned s)) -> owns s0 (mk_xstate h q None m (S (x_cyc s)) 1 (x_assigned s)) r i ->
      try_x xassign (mk_xstate h q None m (S (x_cyc s)) 1 (x_assigned s)) i (S (x_cyc s)) = (s2, o2) -> x_cyc s2 = S (x_cyc s) /\
      match o with Ok _ => exists dn', inv s0 rs dn' s2 | Exn e => exists dn' r0, rs = dn' ++ r0 :: x_queue s2 /\ x_calls s2 = 1 /\ x_cyc s0 + List.length dn' < x_cyc s2 /\ raised_by s0 r0 (x_cyc s2) e /\
      forall i, x_blocked s2 = Some i -> exists d f, owns s0 s2 r0 i /\ nth_error (x_heap s2) i = Some d /\ x_cond d = Some f /\ f (x_cyc s2) (x_mm s2) = Exn e end).
    { intros h m i KK OW T. destruct (try_facts s0 _ r i _ _ _ KK eq_refl OW T) as [[F1 [F2 F3]] [K2 [B2 RB]]]. cbn in F1, F2, F3. split; auto. destruct o2 as [u|e]; destruct o as [u'|e']; try contradiction.
      - apply CL; auto. intros j X. destruct (B2 j X) as [_ [d [-> [Y1 [Y2 Y3]]]]]. eauto.
      - subst e'. apply CX; auto; [|rewrite F3; auto]. destruct (x_blocked s2) as [j|] eqn:X; auto. destruct (B2 j eq_refl) as [Y _]. discriminate. }
    destruct r as [|i|f].
    + injection E as <- <-. split; [reflexivity|]. destruct o as [u'|e']; [|contradiction]. apply CL; auto. intros j X. discriminate.
    + apply (TR (x_heap s) (x_mm s1) i); auto. assert (Hi : i < List.length (x_heap s0)) by (apply KN; rewrite R; apply in_or_app; right; now left). destruct (nth_error (x_heap s0) i) as [d0|] eqn:N; [|apply nth_error_None in N; lia].
      destruct (K i d0 N) as [d [N1 S1]]. exists d, d0. split; auto.
    + destruct (f (S (x_cyc s)) (x_mm s1)) as [m1 [[d|]|e0]] eqn:F.
      * apply (TR (x_heap s ++ [d]) m1 (List.length (x_heap s))); auto.
        -- intros j d0 Hj. destruct (K j d0 Hj) as [d1 [N1 S1]]. exists d1. split; auto. cbn. rewrite nth_error_app1; auto. apply nth_error_Some. congruence.
        -- exists d, d. split; [cbn; rewrite nth_error_app2, Nat.sub_diag by lia; reflexivity|]. split; [apply sub_refl|]. cbn. eauto.
      * injection E as <- <-. split; [reflexivity|]. destruct o as [u'|e']; [|contradiction]. apply CL; auto. intros j X. discriminate.
      * injection E as <- <-. split; [reflexivity|]. destruct o as [u'|e']; [contradiction|]. subst e'. apply CX; auto. right. cbn. eauto.
Qed.
Lemma loop_facts s0 rs x (out : xstate * res unit) : known s0 rs -> loop_x x out -> forall dn s' e, inv s0 rs dn x -> out = (s', Exn e) ->
  exists dn' b, rs = dn' ++ b :: x_queue s' /\ x_calls s' = 1 /\ x_cyc s0 + List.length dn' < x_cyc s' /\ raised_by s0 b (x_cyc s') e /\
      forall i, x_blocked s' = Some i -> exists d f, owns s0 s' b i /\ nth_error (x_heap s') i = Some d /\ x_cond d = Some f /\ f (x_cyc s') (x_mm s') = Exn e.
Proof.
  intros KN L. induction L as [s Q|s s1 u r Q E L IH|s s1 e0 Q E]; intros dn s' e I X; [discriminate| |].
  - destruct (step_facts s0 rs dn s s1 (Ok u) KN I Q E) as [_ [dn' I']]. eapply IH; eauto.
  - injection X as <- <-. destruct (step_facts s0 rs dn s s1 (Exn e0) KN I Q E) as [_ H]. exact H.
Qed.

(** A call that raises, on an idle bundle: one request is to blame, its own code raised the exception in the current cycle; the requests before it have been taken, those
    after it are all still in the queue; the request to blame is not blocked, unless it was blocked before and it is its condition that raises, in which case it stays blocked. *)
Theorem C105_where s rs s' e : idle_x s -> known s rs -> process_x s rs (s', Exn e) ->
  exists dn bad, rs = dn ++ bad :: x_queue s' /\ x_calls s' = 1 /\ x_cyc s + List.length dn < x_cyc s' /\ raised_by s bad (x_cyc s') e /\
    forall i, x_blocked s' = Some i -> exists d f, nth_error (x_heap s') i = Some d /\ x_cond d = Some f /\ f (x_cyc s') (x_mm s') = Exn e.
Proof.
  intros [Q [B C]] KN P. inversion P as [? ? X|? ? X Y Z|? ? ? ? X Y Z|? ? ? ? X Y L]; subst; [contradiction|congruence|].
  assert (I : inv s rs [] (put_all_x s rs)).
  { split; [cbn; now rewrite Q|]. split; [exact C|]. split; [intros i d Hd; exists d; split; [exact Hd|apply sub_refl]|]. split; [cbn; lia|]. intros i X'. cbn in X'. congruence. }
  destruct (loop_facts s rs _ _ KN L [] s' e I eq_refl) as [dn [b [H1 [H2 [H3 [H4 H5]]]]]]. exists dn, b. split; auto. split; auto. split; auto. split; auto. intros i Hi. destruct (H5 i Hi) as [d [f [_ H]]]. eauto.
Qed.
(** A request that is blocked and whose condition raises when the DUT is stepped stays blocked: the exception leaves dut.Step, the queue and what has been assigned are unchanged. *)
Theorem C105_stays_blocked s i d f e : x_calls s <> 0 -> x_blocked s = Some i -> nth_error (x_heap s) i = Some d -> x_cond d = Some f -> f (S (x_cyc s)) (dut (x_mm s)) = Exn e ->
  exists s', step_x s = (s', Exn e) /\ x_blocked s' = Some i /\ x_queue s' = x_queue s /\ x_assigned s' = x_assigned s /\ x_heap s' = x_heap s /\ x_cyc s' = S (x_cyc s).
Proof.
  intros C B Hd Hf He. destruct (x_calls s) as [|n] eqn:E; [congruence|]. unfold ReqX_Model.step_x. rewrite E. cbn [repeat_x]. unfold rise_x. cbn [x_blocked x_heap x_mm]. rewrite B, Hd, Hf, He. eexists. split; [reflexivity|]. auto.
Qed.
(** If the request to blame was the last one and is not blocked, the bundle is idle again and process_requests can be called. *)
Theorem C105_last_partial s rs s' e : idle_x s -> known s rs -> process_x s rs (s', Exn e) -> x_queue s' = [] ->
  (x_blocked s' = None -> idle_x s') /\ forall dn bad, rs = dn ++ bad :: x_queue s' -> raised_by s bad (x_cyc s') e.
Proof.
  intros I KN P Q. destruct (C105_where s rs s' e I KN P) as [dn [bad [R [C [_ [RB _]]]]]]. split; [intros B; split; auto|]. intros dn' bad' R'. rewrite Q in R, R'. rewrite R in R'. apply app_inj_tail in R' as [_ <-]. exact RB.
Qed.
(** If it is not the last request that is to blame, no request can be made any more: every further call raises AssertionError and does nothing. *)
Theorem C105_busy s rs s' e : idle_x s -> known s rs -> process_x s rs (s', Exn e) -> ~ raised_by s (last rs XNone) (x_cyc s') e -> forall rs' out, process_x s' rs' out <-> out = (s', Exn AssertionError).
Proof.
  intros I KN P NL rs' out. assert (Q : x_queue s' <> []).
  { intros Q. apply NL. destruct (C105_where s rs s' e I KN P) as [dn [bad [R [_ [_ [RB _]]]]]]. rewrite Q in R. rewrite R, last_last. exact RB. }
  split; [|intros ->; now apply px_busy]. intros P'. inversion P'; subst; auto; contradiction.
Qed.
(** A bundle that is not bound: the requests are queued before the call fails; after binding it every call raises AssertionError. *)
Theorem C105_unbound s rs : x_queue s = [] -> x_calls s = 0 -> rs <> [] -> forall out, process_x s rs out <-> out = (put_all_x s rs, Exn AttributeError).
Proof.
  intros Q C R out. split; [|intros ->; now apply px_nodut]. intros P. inversion P as [? ? X|? ? X Y Z|? ? ? ? X Y Z|? ? ? ? X Y L]; subst; auto; try contradiction. destruct Y; contradiction.
Qed.
Theorem C105_bound_later s rs o rs' o' : x_queue s = [] -> x_calls s = 0 -> rs <> [] -> process_x s rs o -> process_x (respond_x (fst o)) rs' o' -> o' = (respond_x (fst o), Exn AssertionError).
Proof.
  intros Q C R P P'. apply (C105_unbound s rs Q C R) in P. subst o. cbn [fst] in *. assert (QN : x_queue (respond_x (put_all_x s rs)) <> []) by (cbn; rewrite Q; exact R).
  inversion P'; subst; auto; contradiction.
Qed.
(** The requests that were left are applied nevertheless, one in each of the next cycles, whoever steps the DUT: here for requests that only assign. *)
Lemma only_step s r q : x_calls s = 1 -> x_blocked s = None -> x_queue s = r :: q -> data_only_x s r ->
  exists s1, step_x s = (s1, Ok tt) /\ x_calls s1 = 1 /\ x_blocked s1 = None /\ x_queue s1 = q /\ x_cyc s1 = S (x_cyc s) /\ x_assigned s1 = x_assigned s ++ assigns_x s (S (x_cyc s)) r /\
    (forall r0, data_only_x s r0 -> data_only_x s1 r0 /\ forall c, assigns_x s1 c r0 = assigns_x s c r0).
Proof.
  intros C B Q [i [d [-> [E [Cd [Fd A]]]]]]. unfold ReqX_Model.step_x. rewrite C, B, Q. cbn [repeat_x]. unfold rise_x. cbn [x_blocked]. unfold next_x. cbn [x_queue x_heap x_blocked x_mm x_cyc x_calls x_assigned]. unfold try_x. cbn [x_heap]. rewrite E, Cd. unfold apply_x. cbn [x_heap x_mm]. rewrite E.
  destruct (A (dut (x_mm s))) as [m1 A1]. rewrite A1, Fd. cbn [run_funcs_x]. eexists. split; [reflexivity|]. cbn [x_calls x_blocked x_queue x_cyc x_assigned wrote]. do 4 (split; [reflexivity|]).
  split; [cbn; rewrite E; reflexivity|]. assert (W : forall j dj rt, nth_error (x_heap s) j = Some dj -> x_cond dj = None -> x_funcs dj = [None] -> exists d', nth_error (put_nth i (mk_xdict None (x_data d) [None] None rt) (x_heap s)) j = Some d' /\ x_data d' = x_data dj /\ x_cond d' = None /\ x_funcs d' = [None]).
  { intros j dj rt Ej Cj Fj. rewrite (put_nth_get _ _ _ _ j E). destruct (Nat.eqb_spec j i) as [->|]; [|eauto]. rewrite E in Ej. injection Ej as <-. eexists. split; [reflexivity|]. auto. }
  intros r0 [j [dj [-> [Ej [Cj [Fj Aj]]]]]]. match goal with |- context [mk_xdict None (x_data d) [None] None ?rt] => destruct (W j dj rt Ej Cj Fj) as [d' [Y1 [Y2 [Y3 Y4]]]] end. split.
  - exists j, d'. cbn [x_heap]. rewrite Y2. auto.
  - intros c. unfold assigns_x; cbn [wrote x_heap]. rewrite Y1, Ej, Y2. reflexivity.
Qed.
Theorem C105_still_applied s rs s' e : idle_x s -> known s rs -> process_x s rs (s', Exn e) -> x_blocked s' = None -> Forall (data_only_x s') (x_queue s') ->
  exists s'', steps_x (List.length (x_queue s')) s' s'' /\ idle_x s'' /\
    x_assigned s'' = x_assigned s' ++ flat_map (fun k => match nth_error (x_queue s') k with Some r => assigns_x s' (x_cyc s' + S k) r | None => [] end) (seq 0 (List.length (x_queue s'))).
Proof.
  intros I KN P B. destruct (C105_where s rs s' e I KN P) as [_ [_ [_ [C _]]]]. clear P I KN. remember (x_queue s') as q eqn:Q. revert s' B C Q. induction q as [|r q IH]; intros s' B C Q F.
  - exists s'. split; [constructor|]. split; [repeat split; auto|]. cbn. now rewrite app_nil_r.
  - destruct (only_step s' r q C B (eq_sym Q) (Forall_inv F)) as [s1 [E [C1 [B1 [Q1 [Y1 [A1 K1]]]]]]].
    assert (F1 : Forall (data_only_x s1) q). { apply Forall_forall. intros x Hx. apply K1. apply (proj1 (Forall_forall _ _) F). now right. }
    destruct (IH s1 B1 C1 (eq_sym Q1) F1) as [s'' [S2 [I2 A2]]]. exists s''. split; [econstructor; eauto|]. split; auto. rewrite A2, A1, <- app_assoc. f_equal. cbn [List.length]. cbn [seq flat_map nth_error]. f_equal; [now rewrite Nat.add_1_r|].
    rewrite <- seq_shift, flat_map_concat_map, flat_map_concat_map, map_map. f_equal. apply map_ext_in. intros k Hk. cbn [nth_error]. destruct (nth_error q k) as [x|] eqn:N; auto. rewrite (proj2 (K1 x (proj1 (Forall_forall _ _) F x (or_intror (nth_error_In _ _ N))))), Y1. f_equal. lia.
Qed.
End Thms.
Print Assumptions C105_where.
Print Assumptions C105_stays_blocked.
Print Assumptions C105_last_partial.
Print Assumptions C105_busy.
Print Assumptions C105_unbound.
Print Assumptions C105_bound_later.
Print Assumptions C105_still_applied.

(** * Examples: the memory is a counter and the value of the signal; the function of the second request raises. *)
Definition cntx (m : nat * nat) : nat * nat := (S (fst m), snd m).
Definition putx (d : nat) (m : nat * nat) : (nat * nat) * res unit := ((fst m, d), Ok tt).
Definition xd d fs : @xdict (nat * nat) nat nat := mk_xdict None d fs None None.
Definition failing (c : nat) (m : nat * nat) : (nat * nat) * res nat := (m, Exn ValueError).
Definition startx n : @xstate (nat * nat) nat nat := mk_xstate [xd 7 [None]; xd 8 [Some failing]; xd 9 [None]; xd 6 [None]] [] None (0, 0) 10 n [].
Definition three : list (@xrequest (nat * nat) nat nat) := [XDict 0; XDict 1; XDict 2].
Definition stopped : @xstate (nat * nat) nat nat := mk_xstate [xd 7 [None]; xd 8 [None]; xd 9 [None]; xd 6 [None]] [XDict 2] None (2, 8) 12 1 [(11, 7); (12, 8)].
Lemma three_stops : process_x cntx putx (startx 1) three (stopped, Exn ValueError).
Proof. apply px_raise; [reflexivity|discriminate|]. eapply lx_step; [discriminate|reflexivity|]. apply lx_raise; [discriminate|reflexivity]. Qed.
Lemma three_known : known (startx 1) three.
Proof. intros i H. cbn in H. cbn. destruct H as [H|[H|[H|[]]]]; injection H as <-; lia. Qed.
Example C105_nonvacuous : idle_x (startx 1) /\ known (startx 1) three /\ process_x cntx putx (startx 1) three (stopped, Exn ValueError) /\ ~ raised_by putx (startx 1) (last three XNone) (x_cyc stopped) ValueError /\
  x_blocked stopped = None /\ Forall (data_only_x putx stopped) (x_queue stopped).
Proof.
  split; [repeat split|]. split; [apply three_known|]. split; [apply three_stops|]. split; [|split; [reflexivity|]].
  - intros [[d [Hd Hb]]|[f [m [m' [Hf _]]]]]; [|discriminate Hf]. cbn in Hd. injection Hd as <-. destruct Hb as [[f [m [X _]]]|[[m [m' X]]|[f [m [m' [X _]]]]]]; [discriminate X|discriminate X|destruct X as [X|[]]; discriminate X].
  - constructor; [|constructor]. exists 2, (xd 9 [None]). do 4 (split; [reflexivity|]). intros m. eexists. reflexivity.
Qed.
(** The request to blame is the last one. *)
Example C105_nonvacuous_last : process_x cntx putx (startx 1) [XDict 0; XDict 1] (mk_xstate (x_heap stopped) [] None (2, 8) 12 1 [(11, 7); (12, 8)], Exn ValueError).
Proof. apply px_raise; [reflexivity|discriminate|]. eapply lx_step; [discriminate|reflexivity|]. apply lx_raise; [discriminate|reflexivity]. Qed.
(** A condition that is false when it is looked at first, and raises when the request is blocked. *)
Example C105_nonvacuous_blocked : let d := mk_xdict (Some (fun _ m => match fst m with 1 => Ok false | _ => Exn ValueError end)) 5 [None] None None in let s := mk_xstate [d; xd 4 [None]] [] None (0, 0) 10 1 [] in
  idle_x s /\ exists s', process_x cntx putx s [XDict 0; XDict 1] (s', Exn ValueError) /\ x_blocked s' = Some 0 /\ x_queue s' = [XDict 1].
Proof.
  intros d s. split; [repeat split|]. exists (mk_xstate [d; xd 4 [None]] [XDict 1] (Some 0) (2, 0) 12 1 []). split; [|split; reflexivity]. apply px_raise; [reflexivity|discriminate|]. eapply lx_step; [discriminate|reflexivity|]. apply lx_raise; [discriminate|reflexivity].
Qed.
(** Full statement: after a call that raised, none of its later requests is applied, and process_requests can be called again.  Refuted twice.  The function of the second of three requests raises: the third one is assigned in the
    next cycle, and a correct request is rejected with AssertionError before that.  And: called on a bundle that is not bound, then bound: rejected, and the old request is assigned in the first cycle. *)
Theorem C105_refuted : process_x cntx putx (startx 1) three (stopped, Exn ValueError) /\
  (forall out, process_x cntx putx stopped [XDict 3] out -> out = (stopped, Exn AssertionError)) /\
  exists s', step_x cntx putx stopped = (s', Ok tt) /\ x_assigned s' = x_assigned stopped ++ [(13, 9)].
Proof.
  destruct C105_nonvacuous as [I [K [P [N _]]]]. split; auto. split; [intros out H; now apply (C105_busy cntx putx _ _ _ _ I K P N [XDict 3] out)|]. eexists. split; reflexivity.
Qed.
Theorem C105_unbound_refuted : exists s1, process_x cntx putx (startx 0) [XDict 0] (s1, Exn AttributeError) /\ (forall out, process_x cntx putx (respond_x s1) [XDict 3] out -> out = (respond_x s1, Exn AssertionError)) /\
  exists s2, step_x cntx putx (respond_x s1) = (s2, Ok tt) /\ x_assigned s2 = [(11, 7)].
Proof.
  exists (put_all_x (startx 0) [XDict 0]). split; [apply px_nodut; [reflexivity|reflexivity|discriminate]|]. split; [|eexists; split; reflexivity].
  intros out H. apply (C105_bound_later cntx putx (startx 0) [XDict 0] (put_all_x (startx 0) [XDict 0], Exn AttributeError) [XDict 3] out); auto; [discriminate|]. apply px_nodut; [reflexivity|reflexivity|discriminate].
Qed.
(** A state of the model of C53-C55 with a conditional request in the middle. *)
Example C105_nonvacuous_agrees : sound (start [pd7; late; pd8]) /\ exists s' o, process_requests cnt put (start [pd7; late; pd8]) [RDict 0; RDict 1; RDict 2] (s', o) /\ cyc s' = 15.
Proof. split; [intros i H; discriminate|]. destruct C54_ex as [_ [_ [_ [s' [r [P [C _]]]]]]]. eauto. Qed.
Print Assumptions C105_refuted.
Print Assumptions C105_unbound_refuted.
