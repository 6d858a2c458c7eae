(** C114: the requests of several bundles bound to one DUT. *)
From Coq Require Import List Bool Arith Lia.
From Verif Require Import Py Req_Model Req_Spec P_Req P_Req2 ReqM_Model ReqM_Spec.
Import ListNotations.

Section Thms.
Context {mem data val : Type} (dut : mem -> mem) (assign : nat -> data -> mem -> mem) (order : list nat).
Notation state := (@state mem data val). Notation dict := (@dict mem data val). Notation request := (@request mem data val). Notation bundle := (@bundle mem data val). Notation world := (@world mem data val).
Notation callback := (callback assign). Notation wstep := (wstep dut assign order). Notation wloop := (wloop dut assign order). Notation wprocess := (wprocess dut assign order).
Implicit Types (w : world) (b : bundle) (s : state).

(** * One step *)
Lemma kept_rise asg s c : kept s (on_rise asg s c).
Proof.
  unfold on_rise. destruct (blocked s) as [i|] eqn:B.
  - destruct (nth_error (heap s) i) as [d|]; [|apply kept_refl]. destruct (match d_cond d with Some f => _ | None => _ end); [|apply kept_refl]. exact (kept_apply asg (unblock s) i c).
  - unfold next_request. destruct (queue s) as [|r q]; [apply kept_refl|]. assert (T : forall s1 i, kept s1 (try_dict asg s1 i c)).
    { intros s1 i. unfold try_dict. destruct (nth_error (heap s1) i) as [d|]; [|apply kept_refl]. destruct (match d_cond d with Some f => _ | None => _ end); [apply kept_apply|exact (kept_refl s1)]. }
    destruct r as [|i|f]; [exact (kept_refl s)|exact (T (mk_state (heap s) q (blocked s) (mm s) (cyc s) (calls s) (assigned s)) i)|]. destruct (f c (mm s)) as [m1 [d|]]; [|exact (kept_refl s)].
    eapply kept_trans; [|apply T]. intros i d' H. exists d'. cbn [heap]. rewrite nth_error_app1; auto. apply nth_error_Some. congruence.
Qed.
Definition wk w w' : Prop := forall i d, nth_error (w_heap w) i = Some d -> exists d', nth_error (w_heap w') i = Some d' /\ d_data d' = d_data d /\ (d_cond d = None -> d_cond d' = None).
Lemma wk_trans w1 w2 w3 : wk w1 w2 -> wk w2 w3 -> wk w1 w3.
Proof. intros A B i d H. destruct (A i d H) as [d1 [H1 [E1 C1]]]. destruct (B i d1 H1) as [d2 [H2 [E2 C2]]]. exists d2. split; auto. split; [congruence|auto]. Qed.
Lemma callback_nth c w j b : nth_error (w_bundles w) j = Some b -> forall k, nth_error (w_bundles (callback c w j)) k =
  if Nat.eqb k j then Some (let s := on_rise (assign j) (view w b) c in mk_bundle (queue s) (blocked s) (assigned s)) else nth_error (w_bundles w) k.
Proof. intros E k. unfold ReqM_Model.callback. rewrite E. cbn [back w_bundles]. now rewrite (put_nth_get _ _ _ _ k E). Qed.
Lemma callback_cyc c w j : w_cyc (callback c w j) = w_cyc w. Proof. unfold ReqM_Model.callback. now destruct (nth_error _ _). Qed.
Lemma callback_wk c w j : wk w (callback c w j).
Proof. unfold ReqM_Model.callback. destruct (nth_error (w_bundles w) j) as [b|]; [exact (kept_rise (assign j) (view w b) c)|]. intros i d H. eauto. Qed.
Lemma fold_other c k l : ~ In k l -> forall w, let w' := fold_left (callback c) l w in nth_error (w_bundles w') k = nth_error (w_bundles w) k /\ w_cyc w' = w_cyc w /\ wk w w'.
Proof.
  intros N. induction l as [|j l IH]; intros w; cbn [fold_left]; [split; [reflexivity|split; [reflexivity|intros i d H; eauto]]|].
  destruct (IH (fun H => N (or_intror H)) (callback c w j)) as [A [B C]]. rewrite A, B, callback_cyc. split; [|split; auto; eapply wk_trans; [apply callback_wk|exact C]].
  destruct (nth_error (w_bundles w) j) as [b|] eqn:E.
  - rewrite (callback_nth c w j b E). destruct (Nat.eqb_spec k j) as [->|]; auto. destruct N. now left.
  - unfold ReqM_Model.callback. now rewrite E.
Qed.
(** What the step does for bundle [k], in terms of what its callback finds. *)
Lemma step_own w k b : bound_once order k -> nth_error (w_bundles w) k = Some b -> exists w1, wk w w1 /\ w_cyc w1 = S (w_cyc w) /\
  (let s := on_rise (assign k) (view w1 b) (S (w_cyc w)) in nth_error (w_bundles (wstep w)) k = Some (mk_bundle (queue s) (blocked s) (assigned s)) /\ kept s (mk_state (w_heap (wstep w)) [] None (w_mm w) 0 1 [])) /\ w_cyc (wstep w) = S (w_cyc w).
Proof.
  intros [l1 [l2 [-> [N1 N2]]]] E. unfold ReqM_Model.wstep. rewrite fold_left_app. cbn [fold_left]. set (w0 := mk_world _ _ _ _). set (c := S (w_cyc w)).
  destruct (fold_other c k l1 N1 w0) as [A1 [B1 C1]]. set (w1 := fold_left (callback c) l1 w0) in *. exists w1. split; [exact C1|]. split; [exact B1|].
  assert (E1 : nth_error (w_bundles w1) k = Some b) by (rewrite A1; exact E). destruct (fold_other c k l2 N2 (callback c w1 k)) as [A2 [B2 C2]]. rewrite A2, (callback_nth c w1 k b E1 k), Nat.eqb_refl. split.
  - split; [reflexivity|]. unfold ReqM_Model.callback in C2 at 1. rewrite E1 in C2. exact C2.
  - rewrite B2, callback_cyc. exact B1.
Qed.

(** * Unconditional requests *)
Definition gv w (rs : list request) (c i : nat) : list (nat * data) := match nth_error rs i with Some (RDict k) => match nth_error (w_heap w) k with Some d => [(c, d_data d)] | None => [] end | _ => [] end.
Lemma step_k w0 w k b rs p : bound_once order k -> nth_error (w_bundles w) k = Some b -> b_blocked b = None -> b_queue b = skipn p rs -> wk w0 w -> Forall (unconditional w0) rs ->
  exists b', nth_error (w_bundles (wstep w)) k = Some b' /\ b_blocked b' = None /\ b_queue b' = skipn (S p) rs /\ b_assigned b' = b_assigned b ++ gv w0 rs (S (w_cyc w)) p /\ wk w0 (wstep w) /\ w_cyc (wstep w) = S (w_cyc w).
Proof.
  intros BO E B Q K F. destruct (step_own w k b BO E) as [w1 [K1 [C1 [[E' K'] C']]]]. set (s0 := mk_state (w_heap w0) [] None (w_mm w0) 0 1 [] : state).
  destruct (repeat_calls (assign k) s0 1 (view w1 b) (S (w_cyc w)) rs p (wk_trans _ _ _ K K1) B Q F) as [Y1 [Y2 [Y3 [_ [_ Y6]]]]]. cbn [repeat_call] in *.
  eexists. split; [exact E'|]. cbn [b_blocked b_queue b_assigned]. split; [exact Y2|]. rewrite Nat.add_1_r in Y1. split; [exact Y1|]. split; [rewrite Y6; cbn [seq flat_map]; rewrite app_nil_r; reflexivity|]. split; auto.
  exact (kept_trans _ _ _ Y3 K').
Qed.
Lemma run_k w0 k rs : bound_once order k -> Forall (unconditional w0) rs -> forall n p w b, p + n = List.length rs -> nth_error (w_bundles w) k = Some b -> b_blocked b = None -> b_queue b = skipn p rs -> wk w0 w ->
  exists w' b', wloop k w w' /\ w_cyc w' = w_cyc w + n /\ nth_error (w_bundles w') k = Some b' /\ resting b' /\ b_assigned b' = b_assigned b ++ flat_map (fun i => gv w0 rs (w_cyc w + S i - p) i) (seq p n).
Proof.
  intros BO F. induction n as [|n IH]; intros p w b L E B Q K.
  - assert (Z : b_queue b = []) by (rewrite Q; apply skipn_all2; lia). exists w, b. split; [apply wl_end; unfold queue_of; now rewrite E|]. split; [lia|]. split; auto. split; [now split|]. cbn. now rewrite app_nil_r.
  - destruct (step_k w0 w k b rs p BO E B Q K F) as [b1 [E1 [B1 [Q1 [A1 [K1 C1]]]]]]. destruct (IH (S p) (wstep w) b1) as [w' [b' [L' [C' [E' [R' A']]]]]]; auto; [lia|]. exists w', b'.
    split; [apply wl_step; auto; unfold queue_of; rewrite E, Q; intros X; apply (f_equal (@List.length _)) in X; rewrite skipn_length in X; cbn in X; lia|]. split; [lia|]. split; auto. split; auto.
    rewrite A', A1, C1, <- app_assoc. cbn [seq flat_map]. replace (w_cyc w + S p - p) with (S (w_cyc w)) by lia. reflexivity.
Qed.
Lemma wloop_det k w w1 : wloop k w w1 -> forall w2, wloop k w w2 -> w1 = w2.
Proof. induction 1 as [w Q|w w1 Q L IH]; intros w2 L2; inversion L2; subst; auto; contradiction. Qed.
(** Requests without conditions given to a bundle that rests: one is applied in every cycle, beginning with the next one, and process_requests returns after as many cycles as there are requests, whatever
    is queued or blocked in the other bundles of the DUT and whatever their requests do. *)
Theorem C114_timing w k b rs : bound_once order k -> nth_error (w_bundles w) k = Some b -> resting b -> Forall (unconditional w) rs ->
  exists w' b' r, wprocess k w rs (w', Ok r) /\ w_cyc w' = w_cyc w + List.length rs /\ nth_error (w_bundles w') k = Some b' /\ resting b' /\ b_assigned b' = b_assigned b ++ one_per_cycle w rs /\
    forall out, wprocess k w rs out -> out = (w', Ok r).
Proof.
  intros BO E [Q B] F. assert (Q0 : queue_of w k = []) by (unfold queue_of; now rewrite E). set (w0 := enqueue w k rs). assert (E0 : nth_error (w_bundles w0) k = Some (mk_bundle rs None (b_assigned b))).
  { unfold w0, enqueue. rewrite E. cbn [back w_bundles]. rewrite (put_nth_get _ _ _ _ k E), Nat.eqb_refl. cbn. now rewrite Q, B. }
  assert (H0 : w_heap w0 = w_heap w /\ w_cyc w0 = w_cyc w) by (unfold w0, enqueue; rewrite E; auto). destruct H0 as [H0 C0].
  destruct (run_k w k rs BO F (List.length rs) 0 w0 (mk_bundle rs None (b_assigned b))) as [w' [b' [L [C [E' [R A]]]]]]; auto; [intros i d H; rewrite H0; eauto|].
  exists w', b', (wcollect w' rs). split; [now apply wp_done|]. split; [lia|]. split; auto. split; auto. split.
  - rewrite A. cbn [b_assigned]. f_equal. unfold one_per_cycle. rewrite !flat_map_concat_map. f_equal. apply map_ext. intros i. unfold gv. rewrite C0, Nat.sub_0_r. reflexivity.
  - intros out P. inversion P as [? ? X|? ? w2 X L2]; subst; [congruence|]. now rewrite (wloop_det _ _ _ L _ L2).
Qed.

(** * Alone *)
Lemma put_same {A} (l : list A) : forall k x, nth_error l k = Some x -> put_nth k x l = l.
Proof. induction l as [|y l IH]; intros [|k] x H; try discriminate; cbn in *; [congruence|]. now rewrite IH. Qed.
Lemma callback_rest c w j b : nth_error (w_bundles w) j = Some b -> resting b -> callback c w j = w.
Proof.
  intros E [Q B]. unfold ReqM_Model.callback. rewrite E. unfold on_rise. cbn [view blocked]. rewrite B. unfold next_request. cbn [view queue]. rewrite Q. unfold back. cbn [view heap queue blocked assigned mm]. destruct w as [h bs m c0], b as [q bl a]. cbn in *. subst q bl. now rewrite put_same.
Qed.
Lemma fold_rest c k l w : ~ In k l -> others_rest w k -> fold_left (callback c) l w = w.
Proof.
  intros N O. induction l as [|j l IH]; auto. cbn [fold_left]. assert (X : callback c w j = w).
  { destruct (nth_error (w_bundles w) j) as [b|] eqn:E; [|unfold ReqM_Model.callback; now rewrite E]. apply (callback_rest c w j b E). apply (O j b); auto. intros ->. apply N. now left. }
  rewrite X. apply IH. intros H. apply N. now right.
Qed.
Lemma step_alone w k b : bound_once order k -> nth_error (w_bundles w) k = Some b -> others_rest w k ->
  exists b', nth_error (w_bundles (wstep w)) k = Some b' /\ view (wstep w) b' = dstep dut (assign k) (view w b) /\ same_others w (wstep w) k /\ others_rest (wstep w) k.
Proof.
  intros [l1 [l2 [Eo [N1 N2]]]] E O. unfold ReqM_Model.wstep. rewrite Eo, fold_left_app. cbn [fold_left]. set (c := S (w_cyc w)). set (w0 := mk_world _ _ _ _). assert (O0 : others_rest w0 k) by exact O. rewrite (fold_rest c k l1 w0 N1 O0).
  assert (E0 : nth_error (w_bundles w0) k = Some b) by exact E. assert (S1 : same_others w (callback c w0 k) k). { intros j NE. rewrite (callback_nth c w0 k b E0 j). destruct (Nat.eqb_spec j k); [contradiction|]. reflexivity. }
  assert (O1 : others_rest (callback c w0 k) k) by (intros j b1 NE H; rewrite (S1 j NE) in H; exact (O j b1 NE H)). rewrite (fold_rest c k l2 _ N2 O1).
  eexists. split; [rewrite (callback_nth c w0 k b E0 k), Nat.eqb_refl; reflexivity|]. split; auto. rewrite (dstep_one dut (assign k) (view w b) eq_refl). unfold ReqM_Model.callback. rewrite E0.
  change (mk_state (heap (view w b)) (queue (view w b)) (blocked (view w b)) (dut (mm (view w b))) (S (cyc (view w b))) 1 (assigned (view w b))) with (view w0 b). change (S (cyc (view w b))) with c.
  destruct (cyc_rise (assign k) (view w0 b) c) as [C1 C2]. destruct (on_rise (assign k) (view w0 b) c) as [h q bl m cy ca a]. cbn in *. subst. reflexivity.
Qed.
Lemma same_trans w1 w2 w3 k : same_others w1 w2 k -> same_others w2 w3 k -> same_others w1 w3 k.
Proof. intros A B j N. now rewrite (B j N), (A j N). Qed.
Lemma loop_alone k : bound_once order k -> forall w w', wloop k w w' -> forall b, nth_error (w_bundles w) k = Some b -> others_rest w k ->
  exists b', nth_error (w_bundles w') k = Some b' /\ loop dut (assign k) (view w b) (view w' b') /\ same_others w w' k.
Proof.
  intros BO w w' L. induction L as [w Q|w w' Q L IH]; intros b E O.
  - exists b. split; auto. split; [apply loop_end; unfold queue_of in Q; now rewrite E in Q|intros j N; reflexivity].
  - destruct (step_alone w k b BO E O) as [b1 [E1 [V1 [S1 O1]]]]. destruct (IH b1 E1 O1) as [b' [E' [L' S']]]. exists b'. split; auto. split; [|eapply same_trans; eauto].
    apply loop_step; [unfold queue_of in Q; now rewrite E in Q|now rewrite <- V1].
Qed.
Lemma loop_back k : bound_once order k -> forall s s', loop dut (assign k) s s' -> forall w b, nth_error (w_bundles w) k = Some b -> others_rest w k -> s = view w b ->
  exists w' b', wloop k w w' /\ nth_error (w_bundles w') k = Some b' /\ s' = view w' b'.
Proof.
  intros BO s s' L. induction L as [s Q|s s' Q L IH]; intros w b E O V; subst s.
  - exists w, b. split; auto. apply wl_end. unfold queue_of. now rewrite E.
  - destruct (step_alone w k b BO E O) as [b1 [E1 [V1 [S1 O1]]]]. destruct (IH (wstep w) b1 E1 O1 (eq_sym V1)) as [w' [b' [L' [E' V']]]]. exists w', b'. split; auto. apply wl_step; auto. unfold queue_of. now rewrite E.
Qed.
(** While nothing is queued or blocked in the other bundles of the DUT, they make no difference: the possible outcomes of process_requests are those of a bundle that is the only one of its DUT (C53, C54, C55), and the other bundles stay as they are. *)
Theorem C114_alone_partial w k b rs : bound_once order k -> nth_error (w_bundles w) k = Some b -> others_rest w k ->
  (forall w' r, wprocess k w rs (w', r) -> same_others w w' k /\ exists b', nth_error (w_bundles w') k = Some b' /\ process_requests dut (assign k) (view w b) rs (view w' b', r)) /\
  (forall s' r, process_requests dut (assign k) (view w b) rs (s', r) -> exists w' b', wprocess k w rs (w', r) /\ nth_error (w_bundles w') k = Some b' /\ s' = view w' b').
Proof.
  intros BO E O. assert (Q : queue_of w k = queue (view w b)) by (unfold queue_of; now rewrite E). set (b0 := mk_bundle (b_queue b ++ rs) (b_blocked b) (b_assigned b)).
  assert (E0 : nth_error (w_bundles (enqueue w k rs)) k = Some b0 /\ view (enqueue w k rs) b0 = put_all (view w b) rs /\ same_others w (enqueue w k rs) k).
  { unfold enqueue. rewrite E. split; [cbn [back w_bundles]; rewrite (put_nth_get _ _ _ _ k E), Nat.eqb_refl; reflexivity|]. split; [reflexivity|]. intros j N. cbn [back w_bundles]. rewrite (put_nth_get _ _ _ _ j E). destruct (Nat.eqb_spec j k); [contradiction|reflexivity]. }
  destruct E0 as [E0 [V0 S0]]. assert (O0 : others_rest (enqueue w k rs) k) by (intros j b1 N H; rewrite (S0 j N) in H; exact (O j b1 N H)). split.
  - intros w' r P. inversion P as [? ? X|? ? w2 X L]; subst.
    + split; [intros j N; reflexivity|]. exists b. split; auto. apply pr_busy. now rewrite <- Q.
    + destruct (loop_alone k BO _ _ L b0 E0 O0) as [b' [E' [L' S']]]. split; [eapply same_trans; eauto|]. exists b'. split; auto. change (wcollect w' rs) with (collect (view w' b') rs). apply pr_done; [now rewrite <- Q|left; discriminate|]. now rewrite <- V0.
  - intros s' r P. inversion P as [? ? X|? ? X1 X2 X3|? ? s2 X1 X2 L]; subst.
    + exists w, b. split; [apply wp_busy; now rewrite Q|auto].
    + discriminate.
    + destruct (loop_back k BO _ _ L (enqueue w k rs) b0 E0 O0 (eq_sym V0)) as [w' [b' [L' [E' ->]]]]. exists w', b'. split; auto. change (collect (view w' b') rs) with (wcollect w' rs). apply wp_done; auto. now rewrite Q.
Qed.
End Thms.
Print Assumptions C114_timing.
Print Assumptions C114_alone_partial.

(** * Two bundles of one DUT, each with a pin; the DUT counts its cycles *)
Definition pins2 := (nat * (nat * nat))%type.
Definition cnt2 (m : pins2) : pins2 := (S (fst m), snd m).
Definition asg2 (k : nat) (d : nat) (m : pins2) : pins2 := match k with 0 => (fst m, (d, snd (snd m))) | _ => (fst m, (fst (snd m), d)) end.
Definition late2 : @dict pins2 nat nat := mk_dict (Some (fun _ m => 4 <=? fst m)) 9 [None] None None.
Definition now2 : @dict pins2 nat nat := mk_dict None 7 [None] (Some [fun m => snd (snd m)]) None.
Definition rest2 : @bundle pins2 nat nat := mk_bundle [] None [].
Definition w2 : @world pins2 nat nat := mk_world [late2; now2] [rest2; rest2] (0, (0, 0)) 10.
Definition st2 : @world pins2 nat nat -> @world pins2 nat nat := wstep cnt2 asg2 [0; 1].
Fixpoint iter2 (n : nat) w : @world pins2 nat nat := match n with 0 => w | S n => iter2 n (st2 w) end.
Lemma wloop_iter k n : forall w, (forall j, j < n -> queue_of (iter2 j w) k <> []) -> queue_of (iter2 n w) k = [] -> wloop cnt2 asg2 [0; 1] k w (iter2 n w).
Proof. induction n as [|n IH]; intros w H1 H2; [now apply wl_end|]. apply wl_step; [exact (H1 0 (Nat.lt_0_succ n))|]. apply (IH (st2 w)); auto. intros j Hj. apply (H1 (S j)). lia. Qed.
Definition w2a := iter2 1 (enqueue w2 0 [RDict 0]).
Definition four : list (@request pins2 nat nat) := [RDict 1; RDict 1; RNone; RDict 1].
Definition w2b := iter2 4 (enqueue w2a 1 four).
Lemma order2 k : k < 2 -> bound_once [0; 1] k.
Proof. intros H. destruct k as [|[|k]]; [exists [], [1]|exists [0], []|lia]; repeat split; simpl; intuition lia. Qed.
Lemma first2 : wprocess cnt2 asg2 [0; 1] 0 w2 [RDict 0] (w2a, Ok (wcollect w2a [RDict 0])).
Proof. apply wp_done; [vm_compute; reflexivity|]. apply wloop_iter; [|vm_compute; reflexivity]. intros [|j] H; [|lia]. intros X. vm_compute in X. discriminate X. Qed.
Lemma second2 : wprocess cnt2 asg2 [0; 1] 1 w2a four (w2b, Ok (wcollect w2b four)).
Proof. apply wp_done; [vm_compute; reflexivity|]. apply wloop_iter; [|vm_compute; reflexivity]. intros [|[|[|[|j]]]] H; try lia; intros X; vm_compute in X; discriminate X. Qed.
(** process_requests of one bundle does change another: the conditional request that process_requests of the first bundle has left behind is applied in the third cycle of the second call, which is for the second bundle. *)
Theorem C114_refuted : wprocess cnt2 asg2 [0; 1] 0 w2 [RDict 0] (w2a, Ok (wcollect w2a [RDict 0])) /\ wcollect w2a [RDict 0] = [] /\ wprocess cnt2 asg2 [0; 1] 1 w2a four (w2b, Ok (wcollect w2b four)) /\
  option_map b_assigned (nth_error (w_bundles w2a) 0) = Some [] /\ option_map b_assigned (nth_error (w_bundles w2b) 0) = Some [(14, 9)] /\ fst (snd (w_mm w2a)) = 0 /\ fst (snd (w_mm w2b)) = 9.
Proof. split; [exact first2|]. split; [vm_compute; reflexivity|]. split; [exact second2|]. split; [vm_compute; reflexivity|]. split; [vm_compute; reflexivity|]. split; vm_compute; reflexivity. Qed.
Print Assumptions C114_refuted.
Example C114_nonvacuous : bound_once [0; 1] 1 /\ (exists b, nth_error (w_bundles w2a) 1 = Some b /\ resting b) /\ (exists b, nth_error (w_bundles w2a) 0 = Some b /\ b_blocked b = Some 0) /\ Forall (unconditional w2a) four /\
  one_per_cycle w2a four = [(12, 7); (13, 7); (15, 7)] /\ option_map b_assigned (nth_error (w_bundles w2b) 1) = Some [(12, 7); (13, 7); (15, 7)] /\ others_rest w2 0.
Proof.
  split; [apply order2; lia|]. split; [exists (mk_bundle [] None []); split; [vm_compute; reflexivity|split; reflexivity]|]. split; [exists (mk_bundle [] (Some 0) []); split; [vm_compute; reflexivity|reflexivity]|].
  split; [repeat constructor; exists now2; split; vm_compute; reflexivity|]. split; [vm_compute; reflexivity|]. split; [vm_compute; reflexivity|]. intros [|[|[|j]]] b N H; cbn in H; try discriminate; [contradiction|injection H as <-; split; reflexivity].
Qed.
