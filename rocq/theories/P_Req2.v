(** C53, C54, C55: process_requests, continued: what the cycles do to the memory, functions, dictionaries used again, bundles bound several
    times. *)
From Coq Require Import List Bool Arith Lia.
From Verif Require Import Py Req_Model Req_Spec P_Req.
Import ListNotations.

Section Thms.
Context {mem data val : Type} (dut : mem -> mem) (assign : data -> mem -> mem).
Notation state := (@state mem data val). Notation dict := (@dict mem data val). Notation request := (@request mem data val).
Notation dstep := (dstep dut assign). Notation after := (after dut assign). Notation loop := (loop dut assign). Notation process_requests := (process_requests dut assign).
Notation may := (may dut assign). Notation content := (content dut assign). Notation seen := (seen dut assign). Notation finds := (finds dut assign).
Notation asking := (@asking mem data val). Notation reports := (reports dut assign).
Implicit Types (s : state) (d : dict).

(** * Busy *)
(** While requests of an earlier call are queued, process_requests raises AssertionError, and nothing happens: no cycle, no request taken. *)
Theorem C54_busy s rs s' r : queue s <> [] -> (process_requests s rs (s', r) <-> s' = s /\ r = Exn AssertionError).
Proof.
  intros Q. split.
  - intros P. inversion P; subst; auto; contradiction.
  - intros [-> ->]. now apply pr_busy.
Qed.

(** * Memory *)
(** What a cycle does: if request [k] is applied in it, its data is assigned to what the request finds (which is what the DUT left, and
    for a callable in its first cycle what the callable left), and then its functions are called, in order, once, with the number of
    this cycle; if no request is applied in it, the signals stay as the DUT, and a callable called in it, left them. *)
Theorem C54_effect s rs j : idle s -> distinct s rs -> 1 <= j ->
  let s0 := put_all s rs in let a := schedule (may s0 rs) j in
  (forall k r, nth_error a k = Some j -> nth_error rs k = Some r ->
     match content s0 r (turn a k) with
     | Some d => exists vs, called (cyc s + j) (d_funcs d) (assign (d_data d) (finds s0 r (turn a k) j)) (mm (after j s0)) vs
     | None => mm (after j s0) = finds s0 r (turn a k) j
     end) /\
  (~ In j a -> mm (after j s0) = match nth_error rs (List.length a) with Some r => finds s0 r (turn a (List.length a)) j | None => seen s0 j end).
Proof.
  intros Id Di J s0 a. destruct j as [|m]; [lia|]. destruct (st_all dut assign s rs Id Di (S m)) as [_ [_ [_ E]]]. unfold Eff in E. fold s0 in E. cbv zeta in E.
  set (b := schedule (may s0 rs) m) in *. assert (Ea : a = if may s0 rs (List.length b) (turn b (List.length b)) (S m) then b ++ [S m] else b) by reflexivity.
  destruct (schedule_first (may s0 rs) m) as [F _]. fold b in F. split.
  - intros k r Hk Hr. assert (M : may s0 rs (List.length b) (turn b (List.length b)) (S m) = true).
    { destruct (may s0 rs (List.length b) (turn b (List.length b)) (S m)); auto. exfalso. rewrite Ea in Hk. destruct (F _ _ Hk) as [X _]. lia. }
    rewrite M in Ea, E. assert (k = List.length b).
    { rewrite Ea in Hk. destruct (lt_eq_lt_dec k (List.length b)) as [[X|X]|X]; auto; exfalso.
      - rewrite nth_error_app1 in Hk by auto. destruct (F _ _ Hk) as [Y _]. lia.
      - assert (Y : nth_error (b ++ [S m]) k = None) by (apply nth_error_None; rewrite app_length; simpl; lia). congruence. }
    subst k. rewrite Hr in E. rewrite Ea, turn_app by auto. exact E.
  - intros N. assert (M : may s0 rs (List.length b) (turn b (List.length b)) (S m) = false).
    { destruct (may s0 rs (List.length b) (turn b (List.length b)) (S m)); auto. exfalso. apply N. rewrite Ea. apply in_or_app. right. now left. }
    rewrite M in Ea, E. rewrite Ea. destruct (nth_error rs (List.length b)); exact E.
Qed.

(** * Functions *)
Lemma forall2_filter {A B} (R : A -> B -> Prop) (p : A -> bool) (f : A -> list B) l : (forall x, In x l -> if p x then exists y, f x = [y] /\ R x y else f x = []) -> Forall2 R (filter p l) (flat_map f l).
Proof.
  induction l as [|x l IH]; intros H; [constructor|]. simpl. specialize (IH (fun y Hy => H y (or_intror Hy))). specialize (H x (or_introl eq_refl)). destruct (p x).
  - destruct H as [y [-> H]]. simpl. constructor; auto.
  - now rewrite H.
Qed.
(** The whole result, in the order of the list: one entry for each applied dictionary of the list that asks for data, with the values of its
    bundles, its cycle, and what its functions returned (one after the other, each called once, in that cycle). *)
Theorem C55_functions s rs s' l : idle s -> distinct s rs -> (forall i d, In (RDict i) rs -> nth_error (heap s) i = Some d -> d_ret d = None) -> process_requests s rs (s', Ok l) ->
  let s0 := put_all s rs in exists n, s' = after n s0 /\ cyc s' = cyc s + n /\ let a := schedule (may s0 rs) n in Forall2 (reports s0 rs a) (asking s0 rs a) l.
Proof.
  intros Id Di Fr P s0. pose proof Id as [Q [B C]]. inversion P as [ |? ? H1 H2 H3|? ? s1 H1 H2 H3]; subst. apply loop_after in H3 as [n [E [E1 E2]]]. exists n. fold s0 in E, E1, E2. split; auto. split; [rewrite E; apply (cyc_after dut assign s0 n C)|].
  intros a. unfold collect. rewrite flat_nth. unfold Req_Spec.asking. apply forall2_filter. intros k Hk. apply in_seq in Hk. destruct (nth_error rs k) as [[|i|f]|] eqn:Er; auto.
  destruct Di as [V D]. destruct (nth_error (heap s) i) as [d|] eqn:Ed; [|apply nth_error_None in Ed; specialize (V _ _ Er); lia]. change (heap s0) with (heap s). rewrite Ed.
  destruct (st_all dut assign s rs Id (conj V D) n) as [_ [[_ H] _]]. specialize (H k i d Er Ed). cbv beta zeta in H. fold s0 in H. fold a in H. rewrite E. pose proof (Fr i d (nth_error_In _ _ Er) Ed) as Fd. revert H. destruct (Nat.leb_spec (List.length a) k) as [X|X]; intros H.
  - rewrite H, Fd. assert (Y : nth_error a k = None) by now apply nth_error_None. now rewrite Y.
  - destruct H as [d' [H [_ [_ [fr [Cl H']]]]]]. rewrite H. rewrite (nth_error_nth' a 0 X). destruct (d_bundles d) as [bs|] eqn:Eb.
    + rewrite H'. eexists. split; [reflexivity|]. exists i, d, bs, (nth k a 0), fr. split; auto. split; [now apply nth_error_nth'|]. split; auto. 
    + rewrite H', Fd. reflexivity.
Qed.

(** * Dictionaries used again *)
Definition settled s i : Prop := exists d, nth_error (heap s) i = Some d /\ d_cond d = None /\ d_bundles d = None.
Definition same_ret s s' : Prop := forall i d, nth_error (heap s) i = Some d -> d_cond d = None -> d_bundles d = None -> exists d', nth_error (heap s') i = Some d' /\ d_cond d' = None /\ d_bundles d' = None /\ d_ret d' = d_ret d.
Lemma same_apply s i c : same_ret s (apply_dict assign s i c).
Proof.
  intros j d H Hc Hb. unfold apply_dict. destruct (nth_error (heap s) i) as [x|] eqn:E; eauto. destruct (run_funcs _ _ _). cbn [heap]. rewrite (put_nth_get _ _ _ _ j E).
  destruct (Nat.eqb_spec j i) as [->|]; eauto. rewrite E in H. injection H as ->. eexists. split; [reflexivity|]. simpl. rewrite Hb. auto.
Qed.
Lemma same_try s i c : same_ret s (try_dict assign s i c).
Proof. unfold try_dict. destruct (nth_error (heap s) i) as [x|]; [|intros j d H; eauto]. destruct (match d_cond x with Some _ => _ | None => _ end); [apply same_apply|]. intros j d H Hc Hb. simpl. eauto. Qed.
Lemma same_trans s1 s2 s3 : same_ret s1 s2 -> same_ret s2 s3 -> same_ret s1 s3.
Proof. intros A B i d H1 H2 H3. destruct (A _ _ H1 H2 H3) as [d1 [X1 [X2 [X3 X4]]]]. destruct (B _ _ X1 X2 X3) as [d2 [Y1 [Y2 [Y3 Y4]]]]. exists d2. rewrite Y4. auto. Qed.
Lemma same_rise s c : same_ret s (on_rise assign s c).
Proof.
  unfold on_rise, next_request. destruct (blocked s) as [b|].
  - destruct (nth_error (heap s) b) as [d|]; [|intros i x; eauto]. destruct (match d_cond d with Some _ => _ | None => _ end); [|intros i x; eauto]. apply (same_trans s (unblock s)); [intros i x; simpl; eauto|apply same_apply].
  - destruct (queue s) as [|[|i|f] q]; [intros j x; eauto|intros j x; simpl; eauto| |].
    + match goal with |- same_ret _ (try_dict _ ?x _ _) => apply (same_trans s x); [intros j y; simpl; eauto|apply same_try] end.
    + destruct (f c (mm s)) as [m1 [d|]]; [|intros j x; simpl; eauto]. match goal with |- same_ret _ (try_dict _ ?x _ _) => apply (same_trans s x); [|apply same_try] end.
      intros j x H Hc Hb. exists x. split; auto. simpl. rewrite nth_error_app1; auto. apply nth_error_Some. congruence.
Qed.
Lemma same_after s n : calls s = 1 -> same_ret s (after n s).
Proof.
  intros C. induction n as [|n IH]; [intros i x; simpl; eauto|]. simpl. apply (same_trans s (after n s)); auto. destruct (cyc_after dut assign s n C) as [_ D]. rewrite (dstep_one dut assign _ D).
  match goal with |- same_ret ?y (on_rise _ ?x _) => apply (same_trans y x); [intros j z; simpl; eauto|apply same_rise] end.
Qed.
(** Applying the requests uses up their conditions, and the data asked for stays in the dictionaries.  If the same dictionaries are
    requested again, all are applied one per cycle without any condition being looked at, and the result is the old one: the data and the
    cycles of the first time. *)
Theorem C55_second_pass s rs s' l : idle s -> distinct s rs -> (forall r, In r rs -> match r with RCall _ => False | _ => True end) -> process_requests s rs (s', Ok l) -> blocked s' = None ->
  exists s'', process_requests s' rs (s'', Ok l) /\ cyc s'' = cyc s' + List.length rs /\ idle s'' /\ forall x r, process_requests s' rs (x, r) -> x = s'' /\ r = Ok l.
Proof.
  intros Id Di NCs P Bl. pose proof Id as [Q [B C]]. destruct (C54_partial dut assign s rs s' (Ok l) Id Di P) as [n [E [En [Qe [[[La _]|[_ X]] _]]]]]; [|contradiction]. set (s0 := put_all s rs) in *. set (a := schedule (may s0 rs) n) in *.
  assert (Id' : idle s'). { split; auto. split; auto. rewrite E. apply (cyc_after dut assign s0 n C). }
  destruct (st_all dut assign s rs Id Di n) as [_ [[_ H] _]]. fold s0 in H. fold a in H. rewrite <- E in H.
  assert (Hs : forall k i, nth_error rs k = Some (RDict i) -> settled s' i).
  { intros k i Hk. destruct Di as [V D]. destruct (nth_error (heap s) i) as [d|] eqn:Ed; [|apply nth_error_None in Ed; specialize (V _ _ Hk); lia]. specialize (H k i d Hk Ed).
    assert (K : k < List.length rs) by (apply nth_error_Some; congruence). destruct (Nat.leb_spec (List.length a) k) as [Y|Y]; [lia|]. destruct H as [d' [H1 [H2 [H3 _]]]]. exists d'. auto. }
  assert (Pl : Forall (plain s') rs).
  { apply Forall_forall. intros [|i|f] Hr; simpl; auto; [|destruct (NCs _ Hr)]. apply In_nth_error in Hr as [k Hk]. destruct (Hs k i Hk) as [d [X1 [X2 _]]]. eauto. }
  destruct (C53_unconditional dut assign s' rs Id' Pl) as [s'' [r [P' [Ec [I' [_ U]]]]]].
  assert (Er : r = l).
  { inversion P as [ |? ? H1 H2 H3|? ? x1 H1 H2 H3]; subst. inversion P' as [ |? ? G1 G2 G3|? ? x2 G1 G2 G3]; subst. apply loop_after in G3 as [m [-> _]].
    unfold collect. rewrite !flat_map_concat_map. f_equal. apply map_ext_in. intros [|i|f] Hr; auto. apply In_nth_error in Hr as [k Hk]. destruct (Hs k i Hk) as [d [X1 [X2 X3]]].
    destruct (same_after (put_all (after n s0) rs) m (proj2 (proj2 Id')) i d X1 X2 X3) as [d' [Y1 [_ [_ Y4]]]]. rewrite Y1, X1, Y4. reflexivity. }
  subst r. exists s''. auto.
Qed.

(** * Bundles bound several times *)
Lemma div_block n m r : r < n -> (m * n + r) / n = m.
Proof. intros H. rewrite Nat.add_comm, Nat.div_add by lia. rewrite Nat.div_small; auto. Qed.
(** What request number [i] assigns in cycle [c]. *)
Definition given s (rs : list request) (c i : nat) : list (nat * data) := match nth_error rs i with Some (RDict k) => match nth_error (heap s) k with Some d => [(c, d_data d)] | None => [] end | _ => [] end.
Definition data_only s (r : request) : Prop := match r with RNone => True | RDict i => exists d, nth_error (heap s) i = Some d /\ d_cond d = None | RCall _ => False end.
Lemma repeat_calls s : forall n x c rs p, kept s x -> blocked x = None -> queue x = skipn p rs -> Forall (data_only s) rs ->
  let y := repeat_call assign n x c in queue y = skipn (p + n) rs /\ blocked y = None /\ kept s y /\ cyc y = cyc x /\ calls y = calls x /\ assigned y = assigned x ++ flat_map (given s rs c) (seq p n).
Proof.
  induction n as [|n IH]; intros x c rs p K B Q F; cbv zeta.
  - simpl. rewrite Nat.add_0_r, app_nil_r. repeat (split; [assumption || reflexivity|]). reflexivity.
  - cbn [repeat_call]. destruct (cyc_rise assign x c) as [C1 C2].
    assert (X : queue (on_rise assign x c) = skipn (S p) rs /\ blocked (on_rise assign x c) = None /\ kept s (on_rise assign x c) /\ assigned (on_rise assign x c) = assigned x ++ given s rs c p).
    { unfold on_rise. rewrite B. unfold next_request. unfold given. destruct (nth_error rs p) as [r|] eqn:Er.
      - rewrite Q, (skipn_nth _ _ _ Er). rewrite Forall_forall in F. specialize (F r (nth_error_In _ _ Er)). destruct r as [|i|f]; simpl in F; [|destruct F as [d [E Ec]]|contradiction].
        + simpl. rewrite app_nil_r. auto.
        + destruct (K i d E) as [d' [E' [Ed Ec']]]. specialize (Ec' Ec). set (x1 := mk_state _ _ _ _ _ _ _). rewrite (try_plain assign x1 i c d' E' Ec'). destruct (cyc_apply assign x1 i c) as [_ [_ [A1 A2]]]. rewrite A1, A2, (assigned_apply assign x1 i c d' E'), E, Ed.
          split; auto. split; auto. split; [|reflexivity]. apply (kept_trans s x1); [exact K|apply kept_apply].
      - assert (Z : skipn p rs = []) by (apply skipn_all2; now apply nth_error_None). rewrite Q, Z, app_nil_r. rewrite skipn_all2; [|apply nth_error_None in Er; lia]. rewrite Q, Z. auto. }
    destruct X as [X1 [X2 [X3 X4]]]. destruct (IH (on_rise assign x c) c rs (S p) X3 X2 X1 F) as [Y1 [Y2 [Y3 [Y4 [Y5 Y6]]]]]. rewrite <- Nat.add_succ_comm. split; auto. split; auto. split; auto. split; [congruence|]. split; [congruence|].
    rewrite Y6, X4, <- app_assoc. reflexivity.
Qed.
Lemma given_none s rs (c : nat -> nat) p n : List.length rs <= p -> flat_map (fun i => given s rs (c i) i) (seq p n) = [].
Proof. revert p. induction n as [|n IH]; intros p H; auto. simpl. rewrite IH by lia. unfold given. assert (E : nth_error rs p = None) by now apply nth_error_None. now rewrite E. Qed.
Lemma bound_after s rs : blocked s = None -> queue s = [] -> Forall (data_only s) rs -> let s0 := put_all s rs in forall m,
  queue (after m s0) = skipn (m * calls s) rs /\ blocked (after m s0) = None /\ kept s (after m s0) /\ cyc (after m s0) = cyc s + m /\ calls (after m s0) = calls s /\
  assigned (after m s0) = assigned s ++ flat_map (fun i => given s rs (cyc s + S (i / calls s)) i) (seq 0 (m * calls s)).
Proof.
  intros B Q F s0. induction m as [|m [I1 [I2 [I3 [I4 [I5 I6]]]]]].
  - simpl. rewrite Q, app_nil_r, Nat.add_0_r. simpl. repeat split; auto. intros i d H. eauto.
  - change (after (S m) s0) with (dstep (after m s0)). unfold Req_Model.dstep. set (x := mk_state _ _ _ _ _ _ _). rewrite I5.
    destruct (repeat_calls s (calls s) x (S (cyc (after m s0))) rs (m * calls s) I3 I2 I1 F) as [Y1 [Y2 [Y3 [Y4 [Y5 Y6]]]]].
    split; [rewrite Y1; f_equal; simpl; lia|]. split; auto. split; auto. split; [rewrite Y4; simpl; lia|]. split; [rewrite Y5; exact I5|]. rewrite Y6. unfold x. cbn [assigned]. rewrite I6, <- app_assoc. f_equal.
    replace (S m * calls s) with (m * calls s + calls s) by (simpl; lia). rewrite seq_app, flat_map_app. f_equal. rewrite !flat_map_concat_map. f_equal. apply map_ext_in. intros i Hi. apply in_seq in Hi. rewrite I4.
    replace i with (m * calls s + (i - m * calls s)) at 2 by lia. rewrite div_block by lia. f_equal. lia.
Qed.
(** A bundle that was bound [calls s] times handles so many requests in each cycle: request [i] (0, 1, ...) is applied in cycle
    [i / calls s + 1], and process_requests returns after the least number of cycles that is enough. *)
Theorem C53_bound_again s rs : queue s = [] -> blocked s = None -> 0 < calls s -> Forall (data_only s) rs ->
  exists s' r n, process_requests s rs (s', Ok r) /\ cyc s' = cyc s + n /\ List.length rs <= n * calls s /\ (forall m, m < n -> m * calls s < List.length rs) /\
    assigned s' = assigned s ++ flat_map (fun i => given s rs (cyc s + S (i / calls s)) i) (seq 0 (List.length rs)).
Proof.
  intros Q B C F. set (s0 := put_all s rs). pose proof (bound_after s rs B Q F) as H. cbv zeta in H. fold s0 in H.
  assert (N : exists n, List.length rs <= n * calls s /\ forall m, m < n -> m * calls s < List.length rs).
  { generalize (List.length rs). intros l. assert (X : l <= l * calls s) by (destruct (calls s); [lia|]; rewrite Nat.mul_succ_r; lia). revert X. generalize l at 2. intros b. induction b as [|b IH]; intros X.
    - exists 0. split; auto. intros m Hm. lia.
    - destruct (le_lt_dec l (b * calls s)) as [Y|Y]; auto. exists (S b). split; auto. intros m Hm. assert (Z : m * calls s <= b * calls s) by (apply Nat.mul_le_mono_r; lia). lia. }
  destruct N as [n [N1 N2]]. exists (after n s0), (collect (after n s0) rs), n. destruct (H n) as [H1 [H2 [H3 [H4 [H5 H6]]]]]. split; [|split; [exact H4|split; [exact N1|split; [exact N2|]]]].
  - apply pr_done; auto; [left; lia|]. apply loop_after. exists n. split; auto. split; [rewrite H1; now apply skipn_all2|]. intros k Hk X. destruct (H k) as [G1 _]. fold s0 in X. rewrite G1 in X. apply (f_equal (@List.length _)) in X. rewrite skipn_length in X. specialize (N2 k Hk). simpl in X. lia.
  - rewrite H6. f_equal. replace (n * calls s) with (List.length rs + (n * calls s - List.length rs)) by lia. rewrite seq_app, flat_map_app.
    rewrite (given_none s rs (fun i => cyc s + S (i / calls s)) (0 + List.length rs)) by auto. now rewrite app_nil_r.
Qed.
End Thms.
Print Assumptions C54_busy.
Print Assumptions C54_effect.
Print Assumptions C55_functions.
Print Assumptions C55_second_pass.
Print Assumptions C53_bound_again.

(** * Examples *)
Definition withf : @dict (nat * nat) nat nat := mk_dict None 5 [Some (fun c m => ((fst m, snd m * 2), c)); None; Some (fun _ m => ((fst m, S (snd m)), snd m))] (Some [rd]) None.
(** The assigned 5 is doubled, read by the second function (which returns 10) and incremented. *)
Example C55_functions_ex : let s := start [withf; pd8] in let rs := [RDict 1; RDict 0] in
  idle s /\ distinct s rs /\ exists s', process_requests cnt put s rs (s', Ok [(Single 13, 12, Several [Some 12; None; Some 10])]) /\ mm s' = (2, 11).
Proof.
  intros s rs. split; [repeat split|]. split.
  { split; [intros [|[|[|k]]] i H; simpl in H; try discriminate; injection H as <-; simpl; lia|]. intros [|[|[|k]]] [|[|[|k']]] i H H'; simpl in H, H'; congruence. }
  exists (after cnt put 2 (put_all s rs)). split; [|reflexivity]. apply (pr_done cnt put s rs); [reflexivity|left; discriminate|]. apply loop_after. exists 2. repeat split. intros [|[|k]] Hk; [discriminate|discriminate|lia].
Qed.
(** A condition that is true in cycle 12 only: the second time, the request is applied in cycle 13 all the same, and what is reported is
    the first time. *)
Example C55_second_pass_ex : let d := mkd (Some (fun c _ => c =? 12)) 7 (Some [rd]) in let s := start [d; pd8] in let rs := [RDict 0; RDict 1] in
  idle s /\ distinct s rs /\ exists s' s'', process_requests cnt put s rs (s', Ok [(Single 9, 12, Single None)]) /\ blocked s' = None /\ cyc s' = 13 /\ process_requests cnt put s' rs (s'', Ok [(Single 9, 12, Single None)]) /\ assigned s'' = [(12, 7); (13, 8); (14, 7); (15, 8)].
Proof.
  intros d s rs. split; [repeat split|]. split.
  { split; [intros [|[|[|k]]] i H; simpl in H; try discriminate; injection H as <-; simpl; lia|]. intros [|[|[|k]]] [|[|[|k']]] i H H'; simpl in H, H'; congruence. }
  exists (after cnt put 3 (put_all s rs)), (after cnt put 2 (put_all (after cnt put 3 (put_all s rs)) rs)). split.
  - apply (pr_done cnt put s rs); [reflexivity|left; discriminate|]. apply loop_after. exists 3. repeat split. intros [|[|[|k]]] Hk; [discriminate|discriminate|discriminate|lia].
  - split; [reflexivity|]. split; [reflexivity|]. split; [|reflexivity]. apply (pr_done cnt put _ rs); [reflexivity|left; discriminate|]. apply loop_after. exists 2. repeat split. intros [|[|k]] Hk; [discriminate|discriminate|lia].
Qed.
(** Bound twice: two requests in cycle 11, the third in cycle 12. *)
Example C53_bound_again_ex : let s := mk_state [pd7; pd8] [] None (0, 0) 10 2 [] in let rs := [RDict 0; RDict 1; RDict 0] in
  Forall (data_only s) rs /\ exists s' r, process_requests cnt put s rs (s', Ok r) /\ cyc s' = 12 /\ assigned s' = [(11, 7); (11, 8); (12, 7)].
Proof.
  intros s rs. assert (F : Forall (data_only s) rs) by (repeat constructor; simpl; eexists; split; reflexivity). split; auto.
  destruct (C53_bound_again cnt put s rs eq_refl eq_refl (Nat.lt_0_succ 1) F) as [s' [r [n [H1 [H2 [H3 [H4 H5]]]]]]]. exists s', r. split; auto. split; auto. rewrite H2. simpl in H3, H4.
  assert (n = 2) as ->; [|reflexivity]. destruct n as [|[|[|n]]]; try lia. specialize (H4 2). lia.
Qed.
