(** C84: from_dict and its warning.  C85: from_prefix with a DUT.  C86: from_xport. *)
From Coq Require Import List String Ascii Bool Arith ZArith Lia Permutation.
From Verif Require Import Py Bundle_Model Bundle_Spec Bundle_Proofs Bundle2_Proofs Bundle3_Proofs Bundle4_Proofs Bundle5_Proofs BundleVal_Model BundleVal_Spec BundleVal_Proofs BundleVal2_Proofs BundleVal3_Proofs
  Make_Model P_Bundle P_BundleVal.
Import ListNotations.
Open Scope string_scope.
Open Scope list_scope.

(** * C84 *)
(** The rule of a bundle is replaced. *)
Definition ruled (m : method) (b : bundle) : bundle := match b with B nm _ ls sls ks bls ck => B nm m ls sls ks bls ck end.
Lemma ruled_wf m b : wf b -> wf (ruled m b). Proof. intros H. inversion H; subst. now constructor. Qed.
Lemma ruled_unbound m b : unbound b -> unbound (ruled m b). Proof. intros H. inversion H; subst. now constructor. Qed.
(** A new bundle gets the rule and is not changed otherwise. *)
Theorem C84_only_rule d b : unbound b -> fst (with_dict d b) = ruled (MDict d) b.
Proof. intros U. unfold with_dict. pose proof (ruled_unbound (MDict d) b U) as U1. destruct b as [nm m ls sls ks bls ck]. pose proof (detect_same _ U1 (map (fun x => mk_entry (snd x) (fst x) 0) d)) as E. cbn [ruled] in E. destruct (detect_b _ _) as [b1 rest]. exact E. Qed.
(** The warning names exactly the keys whose DUT name is accepted by no signal of the bundle. *)
Theorem C84_warned d b k : wf b -> NoDup (map fst d) -> (In k (snd (with_dict d b)) <-> exists v, In (k, v) d /\ forall p l, ~ accepts (ruled (MDict d) b) p l v).
Proof.
  intros W ND. pose proof (ruled_wf (MDict d) b W) as W1. unfold with_dict. destruct b as [nm m ls sls ks bls ck]. cbn [ruled] in *. set (es := map (fun x => mk_entry (snd x) (fst x) 0) d). assert (EO : map e_org es = map fst d) by (unfold es; rewrite map_map; reflexivity).
  destruct (detect_main _ W1 es) as [P _]; [now rewrite EO|]. destruct (detect_b _ es) as [b1 rest]. cbn [snd] in *.
  assert (I : In k (map e_org rest) <-> In k (map e_org (filter (unrouted (B nm (MDict d) ls sls ks bls ck)) es))).
  { split; apply Permutation_in; apply Permutation_map; auto. now apply Permutation_sym. }
  rewrite I, in_map_iff. split.
  - intros [e [E H]]. apply filter_In in H as [H1 H2]. unfold es in H1. apply in_map_iff in H1 as [[k' v] [<- H1]]. cbn in E, H1. subst k'. exists v. split; auto. apply route_None_iff; auto. unfold unrouted in H2. cbn [e_name snd] in H2. destruct (route _ v); [discriminate|reflexivity].
  - intros [v [H1 H2]]. exists (mk_entry v k 0). split; auto. apply filter_In. split; [apply in_map_iff; exists (k, v); auto|]. apply route_None_iff in H2; auto. unfold unrouted. cbn [e_name]. now rewrite H2.
Qed.
(** A name warned about is right: whatever the DUT, its pin of that name is connected nowhere. *)
Theorem C84_warned_never d b k v acc dt st t1 st1 pl i : created (fresh b) -> NoDup (map fst d) -> In (k, v) d -> In k (snd (with_dict d b)) -> dut_ok dt ->
  bind acc (fresh (fst (with_dict d b))) dt st = Ok (t1, st1) -> In (v, i) (d_pins dt) -> slot_at (t_b t1) pl <> Some (SPin i).
Proof.
  intros (_ & U & W) ND Hk Hw Hd H Hi Hs. cbn [fresh t_b] in U, W. rewrite C84_only_rule in H by exact U. apply C84_warned in Hw as [v' [Hk' Hn]]; auto.
  assert (v' = v). { clear - ND Hk Hk'. induction d as [|[a c] t IH]; [destruct Hk|]. cbn [map] in ND. inversion ND as [|? ? N1 N2]; subst. destruct Hk as [E1|Hk], Hk' as [E2|Hk']; try congruence; auto; exfalso; apply N1; apply in_map_iff; [injection E1 as -> ->; exists (k, v')|injection E2 as -> ->; exists (k, v)]; auto. } subst v'.
  assert (C : created (fresh (ruled (MDict d) b))) by (split; [reflexivity|split; [now apply ruled_unbound|now apply ruled_wf]]).
  destruct (C41_only _ _ _ _ _ _ _ _ C Hd H Hs) as (s & Is & A & _). rewrite (pin_name _ _ _ _ Hd Is Hi) in A. exact (Hn _ _ A).
Qed.
(** A name not warned about: the pin of that name is connected; and if the bundle has a signal of the key's name itself, it is this signal. *)
Theorem C84_silent d b k v acc dt st t1 st1 i : created (fresh b) -> NoDup (map fst d) -> NoDup (map snd d) -> In (k, v) d -> ~ In k (snd (with_dict d b)) -> dut_ok dt ->
  bind acc (fresh (fst (with_dict d b))) dt st = Ok (t1, st1) -> In (v, i) (d_pins dt) ->
  (exists pl, goes_to (ruled (MDict d) b) v pl) /\ nconn st1 i = nconn st i + 1 /\ (slot_at b ([], LSig k) <> None -> (forall l, In l (b_leaves b) -> l_id l = LSig k -> l_name l = k) -> slot_at (t_b t1) ([], LSig k) = Some (SPin i)).
Proof.
  intros (B0 & U & W) ND NV Hk Hw Hd H Hi. cbn [fresh t_b] in U, W. rewrite C84_only_rule in H by exact U. set (b' := ruled (MDict d) b) in *.
  assert (C : created (fresh b')) by (split; [reflexivity|split; [now apply ruled_unbound|now apply ruled_wf]]). assert (W' : wf b') by apply C.
  assert (R : exists pl, goes_to b' v pl).
  { destruct (route b' v) as [pl|] eqn:E; [exists pl; now apply route_goes_to|]. exfalso. apply Hw. apply C84_warned; auto. exists v. split; auto. now apply route_None_iff. }
  split; auto. split. { rewrite (C43_counted (fresh b') dt v i acc st t1 st1 C Hd Hi H). cbn [fresh t_b]. apply (detect_goes b' v W') in R. now rewrite R. }
  intros Hs Hl. destruct b as [nm m ls sls ks bls ck]. rewrite slot_at_nil in Hs. cbn [b_leaves] in *. destruct (leaf_in ls (LSig k)) as [x|] eqn:Ex; [|cbn in Hs; congruence]. apply leaf_in_Some in Ex as Ex2. destruct Ex2 as [Ix Idx]. pose proof (Hl x Ix Idx) as Nx.
  assert (RN : forall s n, renames (MDict d) s n -> In (n, s) d) by (intros s n (d1 & d2 & -> & _); apply in_or_app; right; now left).
  assert (RK : renames (MDict d) v k).
  { apply in_split in Hk as (d1 & d2 & E). exists d1, d2. split; auto. intros k' I. rewrite E, map_app in NV. cbn [map] in NV. apply NoDup_remove_2 in NV. apply NV. apply in_or_app. left. apply in_map_iff. exists (k', v). auto. }
  assert (A : accepts b' [] (LSig k) v) by (exists k; split; [exact RK|exists x; split; [exact Ex|exact Nx]]).
  assert (G : goes_to b' v ([], LSig k)).
  { destruct R as [pl G]. assert (route b' v = Some ([], LSig k)).
    { unfold b'. cbn [ruled]. rewrite route_B. apply translate_iff in RK. rewrite RK. assert (NN : NoDup (map l_name ls)) by (inversion W; auto). pose proof (leaf_of_uniq ls x NN Ix) as LU. rewrite Nx, Idx in LU. now rewrite LU. }
    now apply route_goes_to. }
  apply (C41_exact acc (fresh b') dt st t1 st1 v i ([], LSig k) C Hd H Hi G). intros s' j Ij Gj. apply goes_accepts in Gj. cbn [fst snd fresh t_b] in Gj. destruct Gj as (n & RN' & y & Ey & Ny). cbn [b' ruled b_leaves b_meth] in *. rewrite Ex in Ey. injection Ey as <-. rewrite Nx in Ny. subst n.
  apply RN in RN'. clear - ND Hk RN'. induction d as [|[a c] t IH]; [destruct Hk|]. cbn [map] in ND. inversion ND as [|? ? N1 N2]; subst. destruct Hk as [E1|Hk], RN' as [E2|Hk']; try congruence; auto; exfalso; apply N1; apply in_map_iff; [injection E1 as -> ->; exists (k, s')|injection E2 as -> ->; exists (k, v)]; auto.
Qed.
(** Two keys for one DUT name: the second is not warned about, and its signal is never connected. *)
Definition pairb : bundle := B "" (MPrefix "") [sig "a"; sig "b"] [] [] [] None.
Theorem C84_same_pin_refuted : created (fresh pairb) /\ snd (with_dict [("a", "x"); ("b", "x")] pairb) = [] /\
  forall acc dt st t1 st1, dut_ok dt -> bind acc (fresh (fst (with_dict [("a", "x"); ("b", "x")] pairb))) dt st = Ok (t1, st1) -> forall i, slot_at (t_b t1) ([], LSig "b") <> Some (SPin i).
Proof.
  assert (C : forall m, created (fresh (ruled m pairb))) by (intros m; split; [reflexivity|split; unfold fresh, ruled, pairb, sig; cbn [t_b]]; tree).
  split; [exact (C (MPrefix ""))|]. split; [reflexivity|]. intros acc dt st t1 st1 Hd H i Hs. change (fst (with_dict [("a", "x"); ("b", "x")] pairb)) with (ruled (MDict [("a", "x"); ("b", "x")]) pairb) in H.
  destruct (C41_only _ _ _ _ _ _ _ _ (C _) Hd H Hs) as (s & _ & (n & (d1 & d2 & E & F) & y & Ey & Ny) & _). cbn in Ey. injection Ey as <-. cbn in Ny. subst n.
  destruct d1 as [|[k1 v1] [|[k2 v2] d1]]; cbn in E; try discriminate. injection E as <- <- E3 E4. subst s. apply (F "a"). now left. destruct d1; discriminate.
Qed.
Example C84_nonvacuous : created (fresh plainb) /\ snd (with_dict [("a", "clk"); ("req_valid", "v"); ("nothing", "n")] plainb) = ["nothing"].
Proof. split; [apply plainb_ok|reflexivity]. Qed.

(** * C85 *)
(** The names of the attributes of one object are distinct. *)
Definition attrs_ok (l : list attr) : Prop := NoDup (map at_name l).
(** The own signals of a bundle are connected under their own names. *)
Definition own_named (b : bundle) : Prop := forall x n, In x (b_leaves b) -> l_id x = LSig n -> l_name x = n.
(** No signal that the class declares already has the name of one of the DUT's attributes behind the prefix. *)
Definition no_clash (p : string) (l : list attr) (b : bundle) : Prop := forall a n, In a l -> at_name a = (p ++ n)%string -> ~ In n (map l_name (b_leaves b)).

Lemma in_new p l n : In n (new_names p l) <-> exists a, In a l /\ at_xdata a = true /\ at_name a = (p ++ n)%string.
Proof.
  unfold new_names. rewrite in_flat_map. split.
  - intros [a [H1 H2]]. destruct (strip p (at_name a)) as [m|] eqn:E; [|destruct H2]. destruct (at_xdata a) eqn:X; [|destruct H2]. destruct H2 as [->|[]]. apply strip_iff in E. eauto.
  - intros (a & H1 & H2 & H3). exists a. split; auto. apply strip_iff in H3. rewrite H3, H2. now left.
Qed.
Lemma new_nodup p l : attrs_ok l -> NoDup (new_names p l).
Proof.
  unfold attrs_ok. induction l as [|a l IH]; cbn [map new_names flat_map]; intros H; [constructor|]. inversion H as [|? ? N1 N2]; subst. destruct (strip p (at_name a)) as [n|] eqn:E; [|now apply IH]. destruct (at_xdata a); [|now apply IH].
  cbn [List.app]. constructor; [|now apply IH]. intros I. change (In n (new_names p l)) in I. apply in_new in I as (a' & I1 & _ & I3). apply strip_iff in E. apply N1. apply in_map_iff. exists a'. split; congruence.
Qed.
Definition newl (n : string) : leaf := mk_leaf (LSig n) n false SAbsent.
Lemma in_add ls ns x : In x (add_own ls ns) <-> In x ls \/ exists n, In n ns /\ x = newl n.
Proof.
  unfold add_own. rewrite !in_app_iff, in_map_iff, !filter_In. split.
  - intros [[H _]|[(n & <- & H)|[H _]]]; auto. right. exists n. auto.
  - intros [H|(n & H & ->)]; [destruct (is_own x) eqn:E; auto; right; right; split; auto; now rewrite E|]. right. left. exists n. auto.
Qed.
Lemma nodup_add {A} (f : leaf -> A) ls ns : NoDup (map f ls) -> NoDup (map (fun n => f (newl n)) ns) -> (forall n, In n ns -> ~ In (f (newl n)) (map f ls)) -> NoDup (map f (add_own ls ns)).
Proof.
  intros H1 H2 H3. unfold add_own. eapply (Permutation_NoDup (l := map f (ls ++ map newl ns))).
  - apply Permutation_map. fold newl. assert (P : Permutation ls (filter is_own ls ++ filter (fun l => negb (is_own l)) ls)).
    { clear. induction ls as [|x t IH]; cbn [filter]; [constructor|]. destruct (is_own x); cbn [negb List.app]; [now constructor|]. apply Permutation_cons_app. exact IH. }
    eapply Permutation_trans; [apply Permutation_app_tail; exact P|]. rewrite <- app_assoc. apply Permutation_app_head. apply Permutation_app_comm.
  - rewrite map_app, map_map. clear - H1 H2 H3. induction ls as [|x t IH]; cbn [map List.app]; auto. cbn [map] in H1. inversion H1 as [|? ? N1 N2]; subst. constructor.
    + intros I. apply in_app_or in I as [I|I]; auto. apply in_map_iff in I as (n & E & I). apply (H3 n I). left. now symmetry.
    + apply IH; auto. intros n I J. apply (H3 n I). now right.
Qed.
Lemma made p l b : created (fresh b) -> own_named b -> attrs_ok l -> no_clash p l b -> created (fresh (from_prefix p (Some l) b)).
Proof.
  intros (_ & U & W) O A N. split; [reflexivity|]. cbn [fresh t_b] in *. destruct b as [nm m ls sls ks bls ck]. cbn [from_prefix]. inversion U as [? ? ? ? ? ? U1 U2]; subst. inversion W as [? ? ? ? ? ? ? W1 W2 W3 W4]; subst. split.
  - constructor; auto. intros x H. apply in_add in H as [H|(n & _ & ->)]; auto.
  - assert (C : forall n, In n (new_names p l) -> ~ In n (map l_name ls)) by (intros n I; apply in_new in I as (a & I1 & _ & I3); exact (N a n I1 I3)). constructor; auto.
    + apply nodup_add; [exact W1|cbn; apply FinFun.Injective_map_NoDup; [intros ? ? E; congruence|now apply new_nodup]|]. intros n I J. apply in_map_iff in J as (x & E & J). apply (C n I). apply in_map_iff. exists x. split; auto.
    + apply nodup_add; [exact W2|cbn; rewrite map_id; now apply new_nodup|exact C].
Qed.
(** The bundle has the signals of its class and one for each attribute of the DUT whose class is called XData and whose name starts with the prefix. *)
Theorem C85_signals p l b n : created (fresh b) -> own_named b -> attrs_ok l -> no_clash p l b ->
  (slot_at (from_prefix p (Some l) b) ([], LSig n) <> None <-> slot_at b ([], LSig n) <> None \/ exists a, In a l /\ at_xdata a = true /\ at_name a = (p ++ n)%string).
Proof.
  intros C O A N. pose proof (made p l b C O A N) as (_ & _ & W'). destruct C as (_ & _ & W). cbn [fresh t_b] in *. destruct b as [nm m ls sls ks bls ck]. cbn [from_prefix] in *. rewrite !slot_at_nil. cbn [b_leaves]. inversion W as [? ? ? ? ? ? ? W1 _ _ _]; subst. inversion W' as [? ? ? ? ? ? ? W1' _ _ _]; subst.
  assert (X : forall ls', NoDup (map l_id ls') -> (option_map l_slot (leaf_in ls' (LSig n)) <> None <-> exists x, In x ls' /\ l_id x = LSig n)).
  { intros ls' ND. split.
    - destruct (leaf_in ls' (LSig n)) as [x|] eqn:E; [|cbn; congruence]. intros _. exists x. now apply leaf_in_Some.
    - intros (x & H1 & H2). rewrite <- H2, (leaf_in_In _ _ ND H1). discriminate. }
  rewrite !X by auto. rewrite <- in_new. split.
  - intros (x & H1 & H2). apply in_add in H1 as [H1|(k & H1 & ->)]; [left; eauto|]. cbn in H2. injection H2 as ->. now right.
  - intros [(x & H1 & H2)|H]; [exists x; split; auto; apply in_add; now left|]. exists (newl n). split; auto. apply in_add. right. eauto.
Qed.
Lemma own_first p l b n : created (fresh b) -> own_named b -> attrs_ok l -> no_clash p l b -> In n (new_names p l) -> goes_to (from_prefix p (Some l) b) (p ++ n)%string ([], LSig n).
Proof.
  intros C O A N I. pose proof (made p l b C O A N) as (_ & _ & W). cbn [fresh t_b] in W. apply (route_goes_to _ _ _ W). destruct b as [nm m ls sls ks bls ck]. cbn [from_prefix] in *. rewrite route_B. cbn [translate].
  assert (E : strip p (p ++ n)%string = Some n) by now apply strip_iff. rewrite E. inversion W as [? ? ? ? ? ? ? _ W2 _ _]; subst.
  assert (Ix : In (newl n) (add_own ls (new_names p l))) by (apply in_add; right; eauto). pose proof (leaf_of_uniq _ _ W2 Ix) as LU. cbn in LU. now rewrite LU.
Qed.
(** After bind each of these signals is the DUT's pin of the same name with the prefix in front. *)
Theorem C85_connected p l b k acc st t1 st1 a n i : created (fresh b) -> own_named b -> attrs_ok l -> no_clash p l b -> dut_ok (dut_of k l) ->
  bind acc (fresh (from_prefix p (Some l) b)) (dut_of k l) st = Ok (t1, st1) -> In a l -> at_name a = (p ++ n)%string -> at_xdata a = true -> at_pin a = Some i -> slot_at (t_b t1) ([], LSig n) = Some (SPin i).
Proof.
  intros C O A N Hd H Ia En Ex Ep. pose proof (made p l b C O A N) as C'. assert (I : In n (new_names p l)) by (apply in_new; eauto). pose proof (own_first p l b n C O A N I) as G.
  apply (C41_exact acc _ _ st t1 st1 (p ++ n)%string i ([], LSig n) C' Hd H); auto.
  - unfold dut_of. cbn [d_pins]. apply in_flat_map. exists a. split; auto. rewrite Ep, En. now left.
  - intros s' j Ij Gj. apply goes_accepts in Gj. cbn [fst snd fresh t_b] in Gj. destruct Gj as (n' & R & y & Ey & Ny). destruct b as [nm m ls sls ks bls ck]. cbn [from_prefix b_meth b_leaves renames] in *. apply leaf_in_Some in Ey as [Iy Idy]. apply in_add in Iy as [Iy|(n2 & I2 & ->)].
    + exfalso. pose proof (O y n Iy Idy) as E. apply (N a n Ia En). rewrite <- E. now apply in_map.
    + cbn in Idy, Ny. injection Idy as ->. now subst.
Qed.
(** And nothing below gets a pin: a sub-bundle or bundle list of the class stays unconnected. *)
Theorem C85_children_get_nothing p l b k acc st t1 st1 s q lf i : created (fresh b) -> own_named b -> attrs_ok l -> no_clash p l b -> dut_ok (dut_of k l) -> (forall a n, In a l -> at_name a = (p ++ n)%string -> at_pin a <> None -> at_xdata a = true) ->
  bind acc (fresh (from_prefix p (Some l) b)) (dut_of k l) st = Ok (t1, st1) -> slot_at (t_b t1) (s :: q, lf) <> Some (SPin i).
Proof.
  intros C O A N Hd X H Hs. pose proof (made p l b C O A N) as C'. destruct (C41_only _ _ _ _ _ _ _ _ C' Hd H Hs) as (nm & I & Ac & G). cbn [fst snd fresh t_b] in *.
  assert (R : exists n, nm = (p ++ n)%string) by (destruct b; cbn in Ac; destruct Ac as (n & R & _); eauto). destruct R as [n ->]. unfold dut_of in I. cbn [d_pins] in I. apply in_flat_map in I as (a & Ia & Ip). destruct (at_pin a) as [j|] eqn:E; [|destruct Ip]. destruct Ip as [Ip|[]]. injection Ip as E1 E2.
  assert (In n (new_names p l)) as In1 by (apply in_new; exists a; repeat split; auto; apply (X a n); auto; congruence). pose proof (own_first p l b n C O A N In1) as G2. assert (W : wf (from_prefix p (Some l) b)) by apply C'. pose proof (goes_fun _ _ _ _ W G G2) as F. discriminate F.
Qed.
(** The class of a pin is not called XData..., as with the classes of the test suite: no signal is made for it. *)
Definition emptyb : bundle := B "" (MPrefix "") [] [] [] [] None.
Theorem C85_class_name_refuted : exists l, attrs_ok l /\ In ("io_a", 0) (d_pins (dut_of 0 l)) /\ created (fresh emptyb) /\ slot_at (from_prefix "io_" (Some l) emptyb) ([], LSig "a") = None /\
  exists t1 st1, bind true (fresh (from_prefix "io_" (Some l) emptyb)) (dut_of 0 l) st0 = Ok (t1, st1) /\ detect_unconnected (dut_of 0 l) st1 = ["io_a"].
Proof. exists [mk_attr "io_a" (Some 0) false]. split; [cbv; nodup|]. split; [now left|]. split; [split; [reflexivity|split; unfold fresh, emptyb; cbn [t_b]]; tree|]. split; [reflexivity|]. run. Qed.
(** A class with a sub-bundle: connected with from_prefix(prefix), not connected with from_prefix(prefix, dut). *)
Definition topb : bundle := B "" (MPrefix "") [] [] [(PSub "req", reqb)] [] None.
Definition attrs1 : list attr := [mk_attr "io_a" (Some 0) true; mk_attr "io_req_valid" (Some 1) true; mk_attr "other" (Some 2) true; mk_attr "title" None false].
Lemma topb_ok : created (fresh topb).
Proof. split; [reflexivity|split; unfold fresh, topb, reqb, sig; cbn [t_b]]; tree. Qed.
Theorem C85_sub_bundle_refuted : created (fresh topb) /\ attrs_ok attrs1 /\ no_clash "io_" attrs1 topb /\
  (exists t1 st1, bind true (fresh (from_prefix "io_" None topb)) (dut_of 0 attrs1) st0 = Ok (t1, st1) /\ slot_at (t_b t1) ([PSub "req"], LSig "valid") = Some (SPin 1)) /\
  exists t1 st1, bind true (fresh (from_prefix "io_" (Some attrs1) topb)) (dut_of 0 attrs1) st0 = Ok (t1, st1) /\ slot_at (t_b t1) ([PSub "req"], LSig "valid") = Some SDummy.
Proof. split; [apply topb_ok|]. split; [cbv; nodup|]. split; [intros a n _ _ []|]. split; run. Qed.
Example C85_nonvacuous : created (fresh topb) /\ own_named topb /\ attrs_ok attrs1 /\ no_clash "io_" attrs1 topb /\ dut_ok (dut_of 0 attrs1) /\
  exists t1 st1, bind true (fresh (from_prefix "io_" (Some attrs1) topb)) (dut_of 0 attrs1) st0 = Ok (t1, st1) /\ slot_at (t_b t1) ([], LSig "a") = Some (SPin 0) /\ slot_at (t_b t1) ([], LSig "req_valid") = Some (SPin 1) /\ slot_at (t_b t1) ([], LSig "title") = None.
Proof. split; [apply topb_ok|]. split; [intros x n []|]. split; [cbv; nodup|]. split; [intros a n _ _ []|]. split; [split; cbv; nodup|]. run. Qed.

(** * C86 *)
(** The keys of an XPort are distinct, none of them is called "*"; its pins are distinct objects. *)
Definition xport_ok (x : list (string * nat)) : Prop := NoDup (map fst x) /\ ~ In "*" (map fst x) /\ NoDup (map snd x).
Lemma xport_slot x n i : xport_ok x -> (slot_at (t_b (from_xport x)) ([], LSig n) = Some (SPin i) <-> In (n, i) x).
Proof.
  intros (N & _ & _). rewrite slot_at_nil. cbn [from_xport t_b b_leaves]. induction x as [|[k j] t IH]; cbn [map leaf_in l_id fst snd]; [split; [discriminate|intros []]|]. cbn [map fst] in N. inversion N as [|? ? N1 N2]; subst.
  destruct (leafid_eq_dec (LSig n) (LSig k)) as [E|E].
  - injection E as ->. cbn. split; [intros [= ->]; now left|]. intros [[= ->]|H]; auto. exfalso. apply N1. apply in_map_iff. exists (k, i). auto.
  - rewrite (IH N2). split; [now right|]. intros [[= -> ->]|H]; auto. congruence.
Qed.
Lemma xport_place x p l s : slot_at (t_b (from_xport x)) (p, l) = Some s -> p = [] /\ exists n i, l = LSig n /\ s = SPin i /\ In (n, i) x.
Proof.
  destruct p as [|a q]; [|rewrite slot_at_cons; cbn; discriminate]. rewrite slot_at_nil. cbn [from_xport t_b b_leaves]. intros H. split; auto. destruct (leaf_in _ l) as [y|] eqn:E; [|discriminate]. apply leaf_in_Some in E as [E1 E2]. apply in_map_iff in E1 as ([n i] & <- & E1). cbn in *. injection H as <-. eauto 6.
Qed.
Lemma xport_wf x : xport_ok x -> wf (t_b (from_xport x)) /\ shaped (t_b (from_xport x)) /\ forall i, single (t_b (from_xport x)) i.
Proof.
  intros X. pose proof X as (N1 & N2 & N3). assert (ON : own_names (map (fun y : string * nat => mk_leaf (LSig (fst y)) (fst y) false (SPin (snd y))) x) = map fst x) by (clear; induction x as [|[n i] t IH]; [reflexivity|]; cbn [map fst snd]; rewrite <- IH; reflexivity). split; [|split].
  - cbn [from_xport t_b]. constructor; rewrite ?map_map; cbn; auto; [|constructor|intros ? ? []]. rewrite <- (map_map fst LSig). apply FinFun.Injective_map_NoDup; auto. intros ? ? E; congruence.
  - cbn [from_xport t_b]. constructor; try (intros; contradiction); rewrite ?ON; cbn [sub_names flat_map List.app]; rewrite ?app_nil_r; auto.
    + intros l n i H E. apply in_map_iff in H as (y & <- & _). discriminate.
    + intros n. assert (E : leaf_idx (map (fun y : string * nat => mk_leaf (LSig (fst y)) (fst y) false (SPin (snd y))) x) n = []) by (clear; induction x; cbn in *; auto). now rewrite E.
  - intros i [p1 l1] [p2 l2] H1 H2. apply xport_place in H1 as (-> & n1 & i1 & -> & [= <-] & I1). apply xport_place in H2 as (-> & n2 & i2 & -> & [= <-] & I2). do 2 f_equal.
    clear - N3 I1 I2. induction x as [|[a c] t IH]; [destruct I1|]. cbn [map] in N3. inversion N3 as [|? ? M1 M2]; subst. destruct I1 as [E1|I1], I2 as [E2|I2]; try congruence; auto; exfalso; apply M1; apply in_map_iff; [injection E1 as -> ->; exists (n2, i)|injection E2 as -> ->; exists (n1, i)]; auto.
Qed.
(** The bundle has one signal for each pin of the port, connected to it, and nothing else. *)
Theorem C86_signals x pl s : xport_ok x -> (slot_at (t_b (from_xport x)) pl = Some s <-> exists n i, In (n, i) x /\ pl = ([], LSig n) /\ s = SPin i).
Proof. intros X. split; [destruct pl as [p l]; intros H; apply xport_place in H as (-> & n & i & -> & -> & H); eauto|]. intros (n & i & H & -> & ->). now apply xport_slot. Qed.
(** Reading it gives the values of the pins. *)
Theorem C86_reads x st : xport_ok x -> exists d, as_dict (t_b (from_xport x)) st = Ok d /\ forall n i, In (n, i) x -> dget d n = Some (VInt (p_val (st i))).
Proof.
  intros X. destruct (xport_wf x X) as (W & S & _). destruct (as_dict_ok _ W st) as [d Hd]. { intros [p l] s H. apply xport_place in H as (_ & n & i & _ & -> & _). exact Logic.I. }
  exists d. split; auto. intros n i H. apply (xport_slot x n i X) in H. destruct (as_dict_look _ W S st d Hd [] (LSig n) _ H) as (y & Hy & L). cbn in Hy, L. congruence.
Qed.
(** Assigning a dictionary changes exactly the pins of the names in it. *)
Theorem C86_assigns wr usr x v lv st n i : xport_ok x -> In (n, i) x -> plain v -> let o := assign wr usr true (t_b (from_xport x)) v lv st in
  (look v [] (LSig n) = None -> o_st o i = st i) /\ (forall y, look v [] (LSig n) = Some y -> o_res o = Ok tt -> exists z, wr (st i) y = Ok z /\ o_st o i = set_val (st i) z).
Proof.
  intros X I P o. destruct (xport_wf x X) as (W & S & Sg). apply (xport_slot x n i X) in I. split.
  - intros L. apply (proj1 (assign_main wr usr _ W S)); auto. intros p l H. pose proof (Sg i _ _ H I) as E. injection E as -> ->. exact L.
  - intros y L R. exact (proj2 (assign_main wr usr _ W S) v lv st i [] (LSig n) y P (Sg i) I L R).
Qed.
(** But it is no bound bundle: its step() has no clock, its pins still count as unconnected, and no request can be processed. *)
Theorem C86_not_bound_refuted : exists x, xport_ok x /\ x <> [] /\ step_clock (from_xport x) = None /\ t_regs (from_xport x) = [] /\ exists d, dut_ok d /\ (forall n i, In (n, i) x -> In (n, i) (d_pins d)) /\ detect_unconnected d st0 = map fst x /\
  exists t1 st1, bind true (fresh (B "" (MPrefix "") (map (fun y => sig (fst y)) x) [] [] [] None)) d st0 = Ok (t1, st1) /\ step_clock t1 = Some 7 /\ t_regs t1 = [d_id d] /\ detect_unconnected d st1 = [].
Proof.
  exists [("valid", 0); ("ready", 1)]. split; [repeat split; [cbn; nodup|cbn; intuition discriminate|cbn; nodup]|]. split; [discriminate|]. split; [reflexivity|]. split; [reflexivity|]. exists (mk_dut 3 [("valid", 0); ("ready", 1)]). split; [split; cbn; nodup|]. split; [auto|]. split; [reflexivity|]. run.
Qed.
(** Binding it to a DUT later connects the pins of its names once more; connections that others have made are not taken away. *)
Theorem C86_bound_later acc x d st t1 st1 s i : xport_ok x -> dut_ok d -> bind acc (from_xport x) d st = Ok (t1, st1) -> In (s, i) (d_pins d) ->
  (In s (map fst x) -> nconn st1 i = S (nconn st i)) /\ (~ In s (map fst x) -> nconn st1 i = nconn st i).
Proof.
  intros X D H I. destruct (xport_wf x X) as (W & _ & _). rewrite (bind_fresh_count acc (from_xport x) d st t1 st1 i eq_refl W D H), (find_entry d s i D I). cbn [e_name]. unfold goes. cbn [from_xport t_b]. rewrite route_B.
  assert (T : translate (MPrefix "") s = Some s) by reflexivity. rewrite T. clear.
  assert (L : forall x : list (string * nat), match leaf_of (map (fun y => mk_leaf (LSig (fst y)) (fst y) false (SPin (snd y))) x) s with Some _ => In s (map fst x) | None => ~ In s (map fst x) end).
  { clear. intros x. induction x as [|[n j] x IH]; cbn [map leaf_of fst snd l_name In]; [intros []|]. destruct (String.eqb_spec s n) as [->|N]; [now left|]. destruct (leaf_of _ s); [now right|]. intros [Y|Y]; auto. }
  specialize (L x). destruct (leaf_of _ s); cbn [Nat.b2n route_kids]; split; intros Y; try contradiction; lia.
Qed.
Example C86_bound_later_ex : exists t1 st1, bind true (from_xport [("valid", 0); ("ready", 1)]) (mk_dut 3 [("valid", 0); ("other", 2)]) st0 = Ok (t1, st1) /\ nconn st1 0 = 1 /\ nconn st1 2 = 0.
Proof. run. Qed.
Print Assumptions C86_bound_later.
Example C86_nonvacuous : xport_ok [("valid", 0); ("ready", 1)] /\ as_dict (t_b (from_xport [("valid", 0); ("ready", 1)])) st0 = Ok [("valid", VInt 0); ("ready", VInt 0)].
Proof. split; [repeat split; [cbn; nodup|cbn; intuition discriminate|cbn; nodup]|reflexivity]. Qed.

Print Assumptions C84_only_rule.
Print Assumptions C84_warned.
Print Assumptions C84_warned_never.
Print Assumptions C84_silent.
Print Assumptions C84_same_pin_refuted.
Print Assumptions C85_signals.
Print Assumptions C85_connected.
Print Assumptions C85_children_get_nothing.
Print Assumptions C85_class_name_refuted.
Print Assumptions C85_sub_bundle_refuted.
Print Assumptions C86_signals.
Print Assumptions C86_reads.
Print Assumptions C86_assigns.
Print Assumptions C86_not_bound_refuted.
