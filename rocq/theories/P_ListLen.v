(** C115: the length of a value assigned to a list. *)
From Coq Require Import List String Ascii Bool Arith ZArith Lia.
From Verif Require Import Py Dict_Proofs Bundle_Model Bundle_Spec Bundle_Proofs Bundle4_Proofs Bundle5_Proofs BundleVal_Model BundleVal_Spec BundleVal_Proofs
  BundleVal2_Proofs BundleVal3_Proofs BundleVal4_Proofs BundleVal5_Proofs P_Bundle P_BundleVal ListLen_Spec.
Import ListNotations.
Open Scope string_scope.
Open Scope list_scope.

Lemma lt_all a b : (forall i, i < a <-> i < b) -> a = b.
Proof. intros H. pose proof (H a). pose proof (H b). lia. Qed.
Lemma one_no_star n (v : val) : n <> "*" -> dget [(n, v)] "*" = None /\ ddel [(n, v)] "*" = [(n, v)].
Proof. intros H. apply no_star. intros [E|[]]. now apply H. Qed.

(** One entry that names a list of signals. *)
Lemma signals_entry wr usr acc ml t1 n N v lv st : bound acc t1 -> signals (t_b t1) n N ->
  exists l, List.length l = N /\ o_res (assign wr usr ml (t_b t1) (VDict [(n, v)]) lv st) = fst (sl_assign wr l v st) /\ o_st (assign wr usr ml (t_b t1) (VDict [(n, v)]) lv st) = snd (sl_assign wr l v st).
Proof.
  intros Hb [Hn HN]. destruct (bound_ok _ _ Hb) as (Hw & Hsh & _). destruct (t_b t1) as [nm m ls sls ks bls ck]. cbn [b_slists] in Hn.
  assert (Hne : n <> "*"). { intros ->. inversion Hsh as [? ? ? ? ? ? ? _ Hst _ _ _ _ _]; subst. apply Hst. rewrite !in_app_iff. auto. }
  assert (Eo : own ls n = None /\ smem n sls = true).
  { split; [|now apply smem_In]. destruct (own ls n) as [s|] eqn:E; auto. exfalso. inversion Hsh as [? ? ? ? ? ? ? Hnd _ _ _ _ _ _]; subst. apply own_name in E. clear - Hnd E Hn.
    induction (own_names ls) as [|x t IH]; [destruct E|]. cbn in Hnd. inversion Hnd as [|? ? H1 H2]; subst. destruct E as [->|E]; [apply H1; rewrite !in_app_iff; auto|auto]. }
  destruct Eo as [Eo Es]. exists (els ls n). split.
  - apply lt_all. intros i. rewrite <- HN, <- (els_slot nm m ls sls ks bls ck n i (lv_ids nm m ls sls ks bls ck Hw) (lv_lidx nm m ls sls ks bls ck Hsh n)). symmetry. apply nth_error_Some.
  - rewrite assign_B. destruct (one_no_star n v Hne) as [-> ->]. cbv iota. cbn [each].
    assert (X : forall ml0 fs, (if ml0 : bool then act_multi wr else act_flat wr) ls sls fs bls lv n v st = just (sl_assign wr (els ls n) v st) v) by (intros [|] fs; unfold act_multi, act_flat; rewrite Eo, Es; reflexivity).
    rewrite X. unfold just. cbn [o_res o_st o_log o_val]. destruct (sl_assign wr (els ls n) v st) as [[u|e] st2]; cbn; [destruct u|]; auto.
Qed.

(** A value of another length is refused, a value without length raises TypeError, a dictionary KeyError; no pin is written. *)
Theorem C115_refuses : forall wr usr acc ml t1 n N v lv st, bound acc t1 -> signals (t_b t1) n N ->
  let o := assign wr usr ml (t_b t1) (VDict [(n, v)]) lv st in
  (forall k, long v k -> k <> N -> o_res o = Exn AssertionError /\ o_st o = st) /\
  ((forall k, ~ long v k) -> o_res o = Exn TypeError /\ o_st o = st) /\
  (forall d, v = VDict d -> List.length d = N -> 0 < N -> o_res o = Exn KeyError /\ o_st o = st).
Proof.
  intros wr usr acc ml t1 n N v lv st Hb HN. destruct (signals_entry wr usr acc ml t1 n N v lv st Hb HN) as (l & EN & E1 & E2). cbv zeta. rewrite E1, E2. unfold sl_assign. rewrite EN. split; [|split].
  - intros k Hk D. destruct Hk; cbn [vlen]; match goal with |- context [Nat.eqb ?a N] => destruct (Nat.eqb_spec a N) end; try contradiction; split; reflexivity.
  - intros H. destruct v as [| |s|x|d|]; try (split; reflexivity); exfalso; eapply H; constructor.
  - intros d -> Hd H0. cbn [vlen]. rewrite Hd, Nat.eqb_refl. destruct l as [|s t]; [cbn in EN; lia|]. split; reflexivity.
Qed.
(** ... so that an assignment that does not raise has had one element for each signal. *)
Theorem C115_accepts : forall wr usr acc ml t1 n N v lv st, bound acc t1 -> signals (t_b t1) n N ->
  o_res (assign wr usr ml (t_b t1) (VDict [(n, v)]) lv st) = Ok tt -> long v N /\ (N = 0 \/ forall d, v <> VDict d).
Proof.
  intros wr usr acc ml t1 n N v lv st Hb HN H. destruct (C115_refuses wr usr acc ml t1 n N v lv st Hb HN) as (H1 & H2 & H3). cbv zeta in *. split.
  - assert (X : (exists k, long v k) \/ forall k, ~ long v k) by (destruct v; try (left; eexists; constructor; fail); right; intros k X; inversion X).
    destruct X as [[k X]|X]; [|destruct (H2 X); congruence]. destruct (Nat.eq_dec k N) as [<-|D]; auto. destruct (H1 k X D); congruence.
  - destruct N as [|N]; [now left|right]. intros d ->. assert (X : List.length d = S N \/ List.length d <> S N) by lia. destruct X as [X|X].
    + destruct (H3 d eq_refl X); [lia|congruence].
    + destruct (H1 _ (long_dict d) X); congruence.
Qed.
Print Assumptions C115_refuses.
Print Assumptions C115_accepts.

(** One entry that names a list of bundles. *)
Lemma bundles_entry wr usr acc t1 n N : bound acc t1 -> bundles (t_b t1) n N ->
  exists fs, List.length fs = N /\ forall v lv st, let o := assign wr usr true (t_b t1) (VDict [(n, v)]) lv st in o_res o = o_res (bl_assign fs v 0 st) /\ o_st o = o_st (bl_assign fs v 0 st) /\ o_log o = o_log (bl_assign fs v 0 st).
Proof.
  intros Hb [Hn HN]. destruct (bound_ok _ _ Hb) as (Hw & Hsh & _). destruct (t_b t1) as [nm m ls sls ks bls ck]. cbn [b_blists b_kids] in Hn, HN.
  assert (Hne : n <> "*"). { intros ->. inversion Hsh as [? ? ? ? ? ? ? _ Hst _ _ _ _ _]; subst. apply Hst. rewrite !in_app_iff. auto. }
  assert (HD : ~ In n (own_names ls) /\ ~ In n sls /\ ~ In n (sub_names ks)).
  { inversion Hsh as [? ? ? ? ? ? ? Hnd _ _ _ _ _ _]; subst. clear - Hnd Hn.
    assert (G : forall a r : list string, NoDup (a ++ r) -> In n r -> ~ In n a /\ NoDup r).
    { intros a r. induction a as [|x t IH]; cbn; intros H Hi; [split; auto|]. inversion H as [|? ? H1 H2]; subst. destruct (IH H2 Hi) as [A1 A2]. split; auto. intros [->|X]; [apply H1; rewrite in_app_iff; auto|auto]. }
    destruct (G _ _ Hnd) as [A1 N1]; [rewrite !in_app_iff; auto|]. destruct (G _ _ N1) as [A2 N2]; [rewrite !in_app_iff; auto|]. destruct (G _ _ N2) as [A3 _]; auto. }
  destruct HD as (D1 & D2 & D3).
  assert (Eo : own ls n = None) by (destruct (own ls n) eqn:E; auto; apply own_name in E; contradiction).
  assert (Es : smem n sls = false) by (destruct (smem n sls) eqn:E; auto; apply smem_In in E; contradiction).
  assert (Ek : kid ks (PSub n) = None).
  { destruct (kid ks (PSub n)) as [c|] eqn:E; auto. exfalso. apply kid_Some in E. apply D3. unfold sub_names. apply in_flat_map. exists (PSub n, c). split; auto. now left. }
  exists (map (fun c => fun v level st => assign wr usr true c v level st) (kid_elems ks n)). split.
  - rewrite map_length. apply lt_all. intros i. rewrite <- HN, <- nth_error_Some, (kid_elems_kid ks n i (lv_kids nm m ls sls ks bls ck Hw) (lv_kidx nm m ls sls ks bls ck Hsh n)). split.
    + intros H. destruct (kid ks (PElem n i)) as [c|] eqn:E; [|congruence]. exists c. now apply kid_Some.
    + intros [c Hc] E. apply kid_None in E. apply E. change (PElem n i) with (fst (PElem n i, c)). now apply in_map.
  - intros v lv st. cbv zeta. rewrite assign_B. destruct (one_no_star n v Hne) as [-> ->]. cbv iota. cbn [each].
    assert (X : act_multi wr ls sls (fs_of (fun c => fun v level st => assign wr usr true c v level st) ks) bls lv n v st = bl_assign (map (fun c => fun v level st => assign wr usr true c v level st) (kid_elems ks n)) v 0 st).
    { unfold act_multi. rewrite Eo, Es, sub_kid, Ek. cbn [option_map]. apply smem_In in Hn. now rewrite Hn, elems_kid. }
    rewrite X. destruct (bl_assign _ v 0 st) as [r st2 lg x]. cbn. destruct r as [u|e]; cbn; [destruct u; rewrite app_nil_r|]; auto.
Qed.

Lemma lset_app xs ys i x : i < List.length xs -> lset (xs ++ ys) i x = lset xs i x ++ ys.
Proof. revert i. induction xs as [|y t IH]; intros i H; [cbn in H; lia|]. destruct i as [|i]; [reflexivity|]. cbn in *. rewrite IH by lia. reflexivity. Qed.
Lemma lset_len l i x : List.length (lset l i x) = List.length l.
Proof. revert i. induction l as [|y t IH]; intros [|i]; cbn; auto. Qed.
Lemma bl_surplus fs ys : forall xs i st, i + List.length fs <= List.length xs ->
  o_res (bl_assign fs (VList (xs ++ ys)) i st) = o_res (bl_assign fs (VList xs) i st) /\ o_st (bl_assign fs (VList (xs ++ ys)) i st) = o_st (bl_assign fs (VList xs) i st) /\
  o_log (bl_assign fs (VList (xs ++ ys)) i st) = o_log (bl_assign fs (VList xs) i st).
Proof.
  induction fs as [|f t IH]; intros xs i st H; [repeat split|]. cbn [List.length] in H. cbn [bl_assign vidx]. rewrite nth_error_app1 by lia. destruct (nth_error xs i) as [x|] eqn:E; [|repeat split].
  destruct (o_res (f x "" st)) eqn:Er; cbn [o_res o_st o_log vset]; [|repeat split]. rewrite lset_app by lia.
  destruct (IH (lset xs i (o_val (f x "" st))) (S i) (o_st (f x "" st))) as (A & B & C); [rewrite lset_len; lia|]. rewrite A, B, C. auto.
Qed.
Lemma bl_short fs : forall xs i st, i <= List.length xs -> List.length xs < i + List.length fs -> exists e, o_res (bl_assign fs (VList xs) i st) = Exn e.
Proof.
  induction fs as [|f t IH]; intros xs i st H1 H; [cbn in H; lia|]. cbn [List.length] in H. cbn [bl_assign vidx]. destruct (nth_error xs i) as [x|] eqn:E; [|eexists; reflexivity].
  assert (i < List.length xs) by (apply nth_error_Some; congruence). destruct (o_res (f x "" st)) eqn:Er; cbn [o_res]; [|eauto]. apply IH; rewrite lset_len; lia.
Qed.

(** A list of bundles takes a list with too many elements, and ignores the surplus without a word; one with too few raises. *)
Theorem C115_bundles : forall wr usr acc t1 n N, bound acc t1 -> bundles (t_b t1) n N ->
  (forall xs ys lv st, List.length xs = N -> let o := assign wr usr true (t_b t1) (VDict [(n, VList (xs ++ ys))]) lv st in let o' := assign wr usr true (t_b t1) (VDict [(n, VList xs)]) lv st in
     o_res o = o_res o' /\ o_st o = o_st o' /\ o_log o = o_log o') /\
  (forall xs lv st, List.length xs < N -> exists e, o_res (assign wr usr true (t_b t1) (VDict [(n, VList xs)]) lv st) = Exn e).
Proof.
  intros wr usr acc t1 n N Hb HN. destruct (bundles_entry wr usr acc t1 n N Hb HN) as (fs & EN & H). split.
  - intros xs ys lv st Hx. cbv zeta. destruct (H (VList (xs ++ ys)) lv st) as (A & B & C). destruct (H (VList xs) lv st) as (A' & B' & C'). rewrite A, B, C, A', B', C'. apply bl_surplus. lia.
  - intros xs lv st Hx. destruct (H (VList xs) lv st) as (A & _). rewrite A. apply bl_short; lia.
Qed.
Print Assumptions C115_bundles.

(** A list of signals and a list of bundles, with two elements each. *)
Definition pairb : bundle := B "top" (MPrefix "io_") [el "data" 0 "data_0"; el "data" 1 "data_1"] ["data"]
  [(PElem "vec" 0, B "" (MPrefix "v0_") [sig "x"] [] [] [] None); (PElem "vec" 1, B "" (MPrefix "v1_") [sig "x"] [] [] [] None)] ["vec"] None.
Definition dutp : dut := mk_dut 0 [("io_data_0", 0); ("io_data_1", 1); ("io_v0_x", 2); ("io_v1_x", 3)].
Definition after t1 st1 v := let o := assign wr8 nousr true (t_b t1) v "" st1 in (o_res o, map (fun i => p_val (o_st o i)) [0; 1; 2; 3], o_log o).
(** Lists of bundles do not check the length: three values for two bundles are no error, and one value is written before the error is noticed. *)
Theorem C115_refuted : exists t1 st1, bind true (fresh pairb) dutp st0 = Ok (t1, st1) /\ signals (t_b t1) "data" 2 /\ bundles (t_b t1) "vec" 2 /\
  after t1 st1 (VDict [("vec", VList [VDict [("x", VInt 5)]; VDict [("x", VInt 6)]; VDict [("x", VInt 7)]])]) = (Ok tt, [0; 0; 5; 6]%Z, []) /\
  after t1 st1 (VDict [("vec", VList [VDict [("x", VInt 5)]])]) = (Exn IndexError, [0; 0; 5; 0]%Z, []) /\
  after t1 st1 (VDict [("data", VList [VInt 5])]) = (Exn AssertionError, [0; 0; 0; 0]%Z, []) /\
  after t1 st1 (VDict [("data", VList [VInt 5; VInt 6])]) = (Ok tt, [5; 6; 0; 0]%Z, []).
Proof.
  apply runs. vm_compute. split; [split; [now left|]|].
  - intros [|[|i]]; split; intros H; try discriminate; try lia. now destruct H.
  - split; [split; [now left|]|repeat split].
    intros i. split; [intros [c [H|[H|[]]]]; injection H; intros; subst; lia|]. intros H. destruct i as [|[|i]]; [eexists; left; reflexivity|eexists; right; left; reflexivity|lia].
Qed.
Print Assumptions C115_refuted.
(** The hypotheses are met. *)
Example C115_nonvacuous : exists t1, bound true t1 /\ signals (t_b t1) "data" 2 /\ bundles (t_b t1) "vec" 2.
Proof.
  destruct C115_refuted as (t1 & st1 & Hb & HS & HB & _). exists t1. split; [|split; auto]. exists (fresh pairb), dutp, st0, st1. split; [|split; [|split; [|split; [|exact Hb]]]].
  - split; [reflexivity|split; unfold fresh, pairb, sig, el; cbn [t_b]; tree].
  - unfold fresh, pairb. cbn [t_b]. constructor; cbn; [nodup|intuition congruence|intros l n i [<-|[<-|[]]]; cbn; intuition congruence|intros n i c H; intuition congruence| | |].
    + intros n. destruct (String.eqb n "data"); reflexivity.
    + intros n. destruct (String.eqb n "vec"); reflexivity.
    + intros s c [[= <- <-]|[[= <- <-]|[]]]; constructor; cbn; try reflexivity; try (nodup; fail); try (intuition congruence); intros l n i H; repeat destruct H as [H|H]; subst; try discriminate; destruct H.
  - unfold fresh, pairb, sig, el. cbn [t_b]. repeat (tree; unfold leafid_ok, seg_ok, ident; cbn -[no_char]; repeat split; try discriminate; cbn; repeat split; try discriminate).
  - split; cbn; nodup.
Qed.
