(** Multilevel assign with "*" on any level. *)
From Coq Require Import List String Ascii Bool Arith ZArith Lia.
From Verif Require Import Py Dict_Proofs Bundle_Model Bundle_Spec Bundle_Proofs BundleVal_Model BundleVal_Spec BundleVal_Proofs BundleVal3_Proofs BundleStar_Spec.
Import ListNotations.
Open Scope string_scope.
Open Scope list_scope.

Section Star.
Context (wr : pin -> val -> res Z) (usr : nat -> bundle -> store -> res unit * store).
Notation assign' := (assign wr usr).

(** Written with [x], possibly after other writes. *)
Definition writ (st st1 : store) (i : nat) (x : val) : Prop := exists old z, wr (set_val (st i) old) x = Ok z /\ st1 i = set_val (st i) z.
Lemma set_val_same p : set_val p (p_val p) = p.
Proof. destruct p; reflexivity. Qed.
Lemma set_val_twice p y z : set_val (set_val p y) z = set_val p z.
Proof. reflexivity. Qed.
Lemma wrote_writ st st1 i x : wrote wr st st1 i x -> writ st st1 i x.
Proof. intros [z [H E]]. exists (p_val (st i)), z. rewrite set_val_same. auto. Qed.
Lemma writ_after st0 st st1 i x y : st i = set_val (st0 i) y -> writ st st1 i x -> writ st0 st1 i x.
Proof. intros E [old [z [H1 H2]]]. exists old, z. rewrite E in *. rewrite set_val_twice in *. auto. Qed.
Lemma writ_out st st1 i x : writ st st1 i x -> p_out (st1 i) = p_out (st i).
Proof. intros [old [z [_ ->]]]. reflexivity. Qed.

(** * One entry *)
Definition told_in (x : val) (pl : place) (o : bool) : option val :=
  match fst pl with
  | [] => match snd pl with LSig _ => Some x | LEl _ j => item x j end
  | PSub _ :: t => told x t (snd pl) o
  | PElem _ j :: t => match item x j with Some y => told y t (snd pl) o | None => None end
  end.
Lemma told_head d p l o : told (VDict d) p l o =
  match (match dget d (head (p, l)) with Some x => told_in x (p, l) o | None => None end) with Some y => Some y | None => if o then None else dget d "*" end.
Proof.
  unfold told. rewrite look_head. destruct p as [|[n|n j] t]; cbn [star head fst snd].
  - destruct l as [n|n j]; cbn [head fst snd]; destruct (dget d n) as [x|]; cbn; try reflexivity.
  - destruct (dget d n) as [x|]; [|reflexivity]. unfold look_in, told_in, told. cbn [fst snd]. destruct (look x t l); [reflexivity|]. destruct o; reflexivity.
  - destruct (dget d n) as [x|]; [|reflexivity]. unfold look_in, told_in, told. cbn [fst snd]. destruct (item x j) as [y|]; [|reflexivity]. destruct (look y t l); [reflexivity|]. destruct o; reflexivity.
Qed.
Lemma item_starred x j y : starred x -> item x j = Some y -> starred y.
Proof.
  unfold item. intros Hp. destruct x as [|z|s|l|d|n]; cbn [vidx]; try discriminate.
  - destruct (String.get j s); [|discriminate]. intros [= <-]. constructor.
  - destruct (nth_error l j) as [u|] eqn:E; [|discriminate]. intros [= <-]. inversion Hp as [| | |? Hl|]; subst. apply Hl. eapply nth_error_In. exact E.
Qed.

Definition frame_ok (f : assigner) (c : bundle) : Prop := forall x lv st i, starred x ->
  (forall p l, holds c (p, l) i -> told x p l (p_out (st i)) = None) -> o_st (f x lv st) i = st i.
Definition effect_ok (f : assigner) (c : bundle) : Prop := forall x lv st i p l y, starred x -> single c i ->
  holds c (p, l) i -> told x p l (p_out (st i)) = Some y -> o_res (f x lv st) = Ok tt -> writ st (o_st (f x lv st)) i y.

Lemma bl_frame fs cs : Forall2 frame_ok fs cs -> forall v j st i,
  (forall k x, j <= k -> item v k = Some x -> starred x) ->
  (forall k c x p l, nth_error cs k = Some c -> holds c (p, l) i -> item v (j + k) = Some x -> told x p l (p_out (st i)) = None) ->
  o_st (bl_assign fs v j st) i = st i.
Proof.
  intros HF. induction HF as [|f c fs cs Hf HF IH]; intros v j st i Hp H; [reflexivity|]. cbn [bl_assign]. destruct (vidx v j) as [x|] eqn:E; [|reflexivity].
  apply vidx_item in E. cbv zeta.
  assert (H0 : o_st (f x "" st) i = st i).
  { apply Hf; [now apply (Hp j)|]. intros p l Hh. apply (H 0 c x p l eq_refl Hh). now rewrite Nat.add_0_r. }
  destruct (o_res (f x "" st)); [|exact H0]. cbn [o_st]. rewrite IH; [exact H0| |].
  - intros k y Hk. rewrite item_vset_ne by lia. apply Hp. lia.
  - intros k c' y p l Hc Hh Hy. rewrite H0. rewrite item_vset_ne in Hy by lia. apply (H (S k) c' y p l Hc Hh). rewrite <- Hy. f_equal. lia.
Qed.
Lemma bl_effect fs cs : Forall2 frame_ok fs cs -> Forall2 effect_ok fs cs -> forall v j st i k c x p l y,
  (forall k x, j <= k -> item v k = Some x -> starred x) ->
  nth_error cs k = Some c -> single c i -> holds c (p, l) i -> (forall k' c', nth_error cs k' = Some c' -> held c' i -> k' = k) ->
  item v (j + k) = Some x -> told x p l (p_out (st i)) = Some y -> o_res (bl_assign fs v j st) = Ok tt -> writ st (o_st (bl_assign fs v j st)) i y.
Proof.
  intros HF. induction HF as [|f c0 fs cs Hf HF IH]; intros HE v j st i k c x p l y Hp Hk Hs Hh Hone Hx Hl Hok; [destruct k; discriminate|].
  inversion HE as [|? ? ? ? He HE']; subst. cbn [bl_assign] in *. destruct (vidx v j) as [x0|] eqn:E; [|discriminate]. apply vidx_item in E. cbv zeta in *.
  destruct k as [|k]; cbn [nth_error] in Hk.
  - injection Hk as ->. rewrite Nat.add_0_r in Hx. rewrite Hx in E. injection E as ->. destruct (o_res (f x0 "" st)) as [[]|] eqn:Er; [|discriminate].
    destruct (He x0 "" st i p l y (Hp j _ (le_n _) Hx) Hs Hh Hl Er) as (old & z & Hz & Hst). exists old, z. split; [exact Hz|]. cbn [o_st]. rewrite <- Hst.
    apply (bl_frame _ _ HF); [intros k w Hk; rewrite item_vset_ne by lia; apply Hp; lia|].
    intros k c' w p' l' Hc' Hh' _. exfalso. specialize (Hone (S k) c' Hc' (ex_intro (fun pl => holds _ pl i) _ Hh')). discriminate.
  - assert (H0 : o_st (f x0 "" st) i = st i).
    { apply Hf; [now apply (Hp j)|]. intros p' l' Hh'. exfalso. specialize (Hone 0 c0 eq_refl (ex_intro (fun pl => holds _ pl i) _ Hh')). discriminate. }
    destruct (o_res (f x0 "" st)); [|discriminate]. cbn [o_st o_res] in *.
    destruct (IH HE' (vset v j (o_val (f x0 "" st))) (S j) (o_st (f x0 "" st)) i k c x p l y) as (old & z & Hz & Hst); auto.
    + intros k' w Hk'. rewrite item_vset_ne by lia. apply Hp. lia.
    + intros k' c' Hc' Hh'. specialize (Hone (S k') c' Hc' Hh'). lia.
    + rewrite item_vset_ne by lia. rewrite <- Hx. f_equal. lia.
    + rewrite H0. exact Hl.
    + exists old, z. rewrite <- H0. auto.
Qed.

Section Level.
Context (nm : string) (m : method) (ls : list leaf) (sls : list string) (ks : list (seg * bundle)) (bls : list string) (ck : option nat).
Notation b := (B nm m ls sls ks bls ck).
Context (Hw : wf b) (Hsh : shaped b).
Context (f : bundle -> assigner).
Context (Hf : forall s c, In (s, c) ks -> frame_ok (f c) c) (He : forall s c, In (s, c) ks -> effect_ok (f c) c).
Notation act := (act_multi wr ls sls (fs_of f ks) bls).
Notation ids := (lv_ids nm m ls sls ks bls ck Hw). Notation kidn := (lv_kids nm m ls sls ks bls ck Hw).
Notation lidx := (lv_lidx nm m ls sls ks bls ck Hsh). Notation kidx := (lv_kidx nm m ls sls ks bls ck Hsh).

Lemma act_frame k x lv st i : starred x -> (forall pl, head pl = k -> holds b pl i -> told_in x pl (p_out (st i)) = None) -> o_st (act lv k x st) i = st i.
Proof.
  intros Hp H. unfold act_multi. destruct (kind_of nm m ls sls ks bls ck Hw Hsh k) as [s Eo _|Eo Es _|c Eo Es Ek _|Eo Es Ek Eb _|Eo Es Ek Eb _ _].
  - rewrite Eo. cbn [just o_st]. apply write_frame. intros ->. rewrite (own_slot nm m ls sls ks bls ck) in Eo. specialize (H ([], LSig k) eq_refl Eo). discriminate.
  - rewrite Eo, Es. cbn [just o_st]. apply sl_frame. intros j s Hj ->. rewrite (els_slot nm m ls sls ks bls ck k j ids (lidx k)) in Hj.
    exact (H ([], LEl k j) eq_refl Hj).
  - rewrite Eo, Es, sub_kid, Ek. cbn [option_map]. apply (Hf _ _ (kid_Some _ _ _ Ek)); [exact Hp|]. intros p l Hh.
    apply (H (PSub k :: p, l) eq_refl). unfold holds. rewrite slot_at_cons. cbn [b_kids]. now rewrite Ek.
  - rewrite Eo, Es, sub_kid, Ek. cbn [option_map]. rewrite Eb, elems_kid. apply (bl_frame _ _ (elem_ok nm m ls sls ks bls ck Hw Hsh f frame_ok k Hf)).
    + intros j y _. now apply item_starred.
    + intros j c y p l Hc Hh Hy. rewrite (kid_elems_kid ks k j kidn (kidx k)) in Hc. specialize (H (PElem k j :: p, l) eq_refl). unfold told_in in H. cbn [fst snd] in H.
      cbn [Nat.add] in Hy. rewrite Hy in H. apply H. unfold holds. rewrite slot_at_cons. cbn [b_kids]. now rewrite Hc.
  - rewrite Eo, Es, sub_kid, Ek. cbn [option_map]. rewrite Eb. reflexivity.
Qed.
Lemma act_effect k x lv st i pl y : starred x -> single b i -> head pl = k -> holds b pl i -> told_in x pl (p_out (st i)) = Some y ->
  o_res (act lv k x st) = Ok tt -> writ st (o_st (act lv k x st)) i y.
Proof.
  intros Hp Hs1 Hh Hs Hl. unfold act_multi. destruct (kind_of nm m ls sls ks bls ck Hw Hsh k) as [s Eo Hk|Eo Es Hk|c Eo Es Ek Hk|Eo Es Ek Eb Hk|Eo Es Ek Eb _ Hk].
  - rewrite Eo. cbn [just o_res o_st]. assert (E := Hk _ _ Hh Hs). subst pl. unfold holds in Hs. rewrite (own_slot nm m ls sls ks bls ck), Hs in Eo. injection Eo as <-. cbn in Hl. injection Hl as <-. intros Hok. apply wrote_writ. now apply write_effect.
  - rewrite Eo, Es. cbn [just o_res o_st]. destruct (Hk _ _ Hh Hs) as [j ->]. cbn in Hl. intros Hok. apply wrote_writ. eapply sl_effect; eauto.
    + now rewrite (els_slot nm m ls sls ks bls ck k j ids (lidx k)).
    + intros j' Hj'. rewrite (els_slot nm m ls sls ks bls ck k j' ids (lidx k)) in Hj'. assert (E := Hs1 _ _ Hj' Hs). congruence.
  - rewrite Eo, Es, sub_kid, Ek. cbn [option_map]. destruct (Hk _ _ Hh Hs) as [t Ht]. destruct pl as [p l]. cbn [fst] in Ht. subst p. unfold told_in in Hl. cbn [fst snd] in Hl.
    unfold holds in Hs. rewrite slot_at_cons in Hs. cbn [b_kids] in Hs. rewrite Ek in Hs. intros Hok.
    eapply (He _ _ (kid_Some _ _ _ Ek)); eauto. intros [p1 l1] [p2 l2] H1 H2.
    assert (E : (PSub k :: p1, l1) = (PSub k :: p2, l2)) by (apply Hs1; rewrite slot_at_cons; cbn [b_kids]; rewrite Ek; assumption). congruence.
  - rewrite Eo, Es, sub_kid, Ek. cbn [option_map]. rewrite Eb, elems_kid. destruct (Hk _ _ Hh Hs) as (j & t & Ht). destruct pl as [p l]. cbn [fst] in Ht. subst p.
    unfold told_in in Hl. cbn [fst snd] in Hl. destruct (item x j) as [x'|] eqn:Ex; [|discriminate].
    unfold holds in Hs. rewrite slot_at_cons in Hs. cbn [b_kids] in Hs. destruct (kid ks (PElem k j)) as [c|] eqn:Ec; [|discriminate]. intros Hok.
    eapply (bl_effect _ _ (elem_ok nm m ls sls ks bls ck Hw Hsh f frame_ok k Hf) (elem_ok nm m ls sls ks bls ck Hw Hsh f effect_ok k He) x 0 st i j c x' t l y); eauto.
    + intros j' y' _. now apply item_starred.
    + now rewrite (kid_elems_kid ks k j kidn (kidx k)).
    + intros [p1 l1] [p2 l2] H1 H2.
      assert (E : (PElem k j :: p1, l1) = (PElem k j :: p2, l2)) by (apply Hs1; rewrite slot_at_cons; cbn [b_kids]; rewrite Ec; assumption). congruence.
    + intros j' c' Hc' [[p1 l1] H1]. rewrite (kid_elems_kid ks k j' kidn (kidx k)) in Hc'.
      assert (E : (PElem k j' :: p1, l1) = (PElem k j :: t, l)) by (apply Hs1; rewrite slot_at_cons; cbn [b_kids]; [rewrite Hc'|rewrite Ec]; assumption). congruence.
  - unfold holds in Hs. rewrite (Hk pl Hh) in Hs. discriminate.
Qed.
End Level.

(** * The loop over the entries *)
Notation e_res x := (fst (fst (fst x))).
Notation e_st x := (snd (fst (fst x))).
Lemma each_frame o act d : forall st i, p_out (st i) = o -> (forall k x st, In (k, x) d -> p_out (st i) = o -> o_st (act k x st) i = st i) -> e_st (each act d st) i = st i.
Proof.
  induction d as [|[k x] t IH]; intros st i Ho H; [reflexivity|]. cbn [each]. pose proof (H k x st (or_introl eq_refl) Ho) as Hk.
  destruct (o_res (act k x st)); [|exact Hk]. assert (Ho' : p_out (o_st (act k x st) i) = o) by (rewrite Hk; exact Ho). specialize (IH (o_st (act k x st)) i Ho' (fun k' x' st' Hi => H k' x' st' (or_intror Hi))).
  destruct (each act t (o_st (act k x st))) as [[[r st2] lg] t1]. cbn [fst snd] in *. congruence.
Qed.
Lemma each_effect o act d : forall st i k x, NoDup (map fst d) -> In (k, x) d -> p_out (st i) = o -> (forall k' x' st, In (k', x') d -> k' <> k -> p_out (st i) = o -> o_st (act k' x' st) i = st i) ->
  (forall st, p_out (st i) = o -> o_res (act k x st) = Ok tt -> p_out (o_st (act k x st) i) = o) ->
  e_res (each act d st) = Ok tt ->
  exists st1, st1 i = st i /\ o_res (act k x st1) = Ok tt /\ e_st (each act d st) i = o_st (act k x st1) i.
Proof.
  induction d as [|[k0 x0] t IH]; intros st i k x Hn Hi Ho Hf Hx Hok; [destruct Hi|]. cbn [each map fst] in *. inversion Hn as [|? ? Hni Hnt]; subst.
  destruct Hi as [E|Hi].
  - injection E as -> ->. exists st. destruct (o_res (act k x st)) as [[]|] eqn:Er; [|discriminate]. split; [reflexivity|split; [reflexivity|]].
    pose proof (each_frame (p_out (st i)) act t (o_st (act k x st)) i (Hx st eq_refl Er)) as Hfr. destruct (each act t (o_st (act k x st))) as [[[r st2] lg] t1]. cbn [fst snd] in *. apply Hfr.
    intros k' x' st' Hi'. apply Hf; [now right|]. intros ->. apply Hni. change k with (fst (k, x')). now apply in_map.
  - assert (Hne : k0 <> k) by (intros ->; apply Hni; change k with (fst (k, x)); now apply in_map).
    pose proof (Hf k0 x0 st (or_introl eq_refl) Hne eq_refl) as Hk. destruct (o_res (act k0 x0 st)); [|discriminate].
    destruct (IH (o_st (act k0 x0 st)) i k x Hnt Hi (f_equal p_out Hk) (fun k' x' st' Hi' => Hf k' x' st' (or_intror Hi')) Hx) as (st1 & H1 & H2 & H3).
    + destruct (each act t (o_st (act k0 x0 st))) as [[[r st2] lg] t1]. exact Hok.
    + exists st1. split; [congruence|]. split; [exact H2|]. destruct (each act t (o_st (act k0 x0 st))) as [[[r st2] lg] t1]. exact H3.
Qed.

(** * The whole tree *)
Lemma ddel_In (d : list (string * val)) k k0 x : NoDup (map fst d) -> In (k, x) (ddel d k0) -> In (k, x) d /\ k <> k0.
Proof.
  induction d as [|[k1 x1] t IH]; cbn [ddel map fst]; [intros _ []|]. intros Hn. inversion Hn as [|? ? Hni Hnt]; subst. destruct (String.eqb k0 k1) eqn:E.
  - apply String.eqb_eq in E. subst. intros H. split; [now right|]. intros ->. apply Hni. change k1 with (fst (k1, x)). now apply in_map.
  - intros [[= -> ->]|H]; [split; [now left|]; intros ->; now rewrite String.eqb_refl in E|]. destruct (IH Hnt H). split; [now right|assumption].
Qed.
Lemma ddel_nodup (d : list (string * val)) k0 : NoDup (map fst d) -> NoDup (map fst (ddel d k0)).
Proof.
  induction d as [|[k1 x1] t IH]; cbn [ddel map fst]; intros Hn; auto. inversion Hn as [|? ? Hni Hnt]; subst. destruct (String.eqb k0 k1); auto. cbn [map fst]. constructor; auto.
  intros H. apply Hni. apply in_map_iff in H as [[k x] [E H]]. cbn [fst] in E. subst. apply ddel_In in H as [H _]; auto. change k1 with (fst (k1, x)). now apply in_map.
Qed.
Lemma In_ddel (d : list (string * val)) k k0 x : In (k, x) d -> k <> k0 -> In (k, x) (ddel d k0).
Proof.
  induction d as [|[k1 x1] t IH]; cbn [ddel]; [intros []|]. intros [[= -> ->]|H] Hne.
  - destruct (String.eqb k0 k) eqn:E; [apply String.eqb_eq in E; congruence|now left].
  - destruct (String.eqb k0 k1); [exact H|right; auto].
Qed.
Lemma head_attr nm m ls sls ks bls ck pl i : wf (B nm m ls sls ks bls ck) -> shaped (B nm m ls sls ks bls ck) -> holds (B nm m ls sls ks bls ck) pl i -> head pl <> "*".
Proof.
  intros Hw Hsh H E. inversion Hsh as [? ? ? ? ? ? ? _ Hst _ _ _ _ _]; subst. apply Hst. rewrite <- E, !in_app_iff.
  destruct (place_cases nm m ls sls ks bls ck Hw Hsh pl _ H) as [(k & -> & Hi)|[(k & j & -> & Hi)|[(k & t & c & Hf & _ & Hi)|(k & j & t & c & Hf & _ & Hi)]]]; unfold head; try rewrite Hf; cbn [fst snd]; tauto.
Qed.

Theorem star_main b : wf b -> shaped b -> idents b ->
  frame_ok (fun v lv st => assign' true b v lv st) b /\ effect_ok (fun v lv st => assign' true b v lv st) b.
Proof.
  induction b as [nm m ls sls ks bls ck IH] using bundle_ind2. intros Hw Hsh Hid.
  assert (Hf : forall s c, In (s, c) ks -> frame_ok (fun v lv st => assign' true c v lv st) c).
  { intros s c Hi. assert (idents c) by (inversion Hid as [? ? ? ? ? ? ? _ Hid']; subst; exact (proj2 (Hid' _ _ Hi))). inversion Hw; inversion Hsh; subst. eapply IH; eauto. }
  assert (He : forall s c, In (s, c) ks -> effect_ok (fun v lv st => assign' true c v lv st) c).
  { intros s c Hi. assert (idents c) by (inversion Hid as [? ? ? ? ? ? ? _ Hid']; subst; exact (proj2 (Hid' _ _ Hi))). inversion Hw; inversion Hsh; subst. eapply IH; eauto. }
  pose (f := fun c v lv st => assign' true c v lv st). set (b := B nm m ls sls ks bls ck) in *.
  split.
  - intros v lv st i Hp H. cbv beta. unfold b at 1. rewrite assign_B. fold b. destruct v as [|z|s|l|d|n]; try reflexivity; [|inversion Hp].
    inversion Hp as [| | | |? Hn Hk]; subst. change (fun c v level st => assign' true c v level st) with f.
    match goal with |- context [let (_, _) := ?R in _] => remember R as r1 eqn:E0 end.
    assert (H1 : snd r1 i = st i).
    { subst r1. destruct (dget d "*") as [x|] eqn:Ex; [|reflexivity]. apply set_all_frame; auto. intros [[p l] Hh]. specialize (H p l Hh). rewrite told_head, Ex in H.
      destruct (match dget d (head (p, l)) with Some x => told_in x (p, l) (p_out (st i)) | None => None end); [discriminate|]. destruct (p_out (st i)); [reflexivity|discriminate]. }
    clear E0. destruct r1 as [[u|e] st1]; cbn [snd] in H1; [|exact H1].
    pose proof (each_frame (p_out (st i)) (act_multi wr ls sls (fs_of f ks) bls lv) (ddel d "*") st1 i) as HE.
    destruct (each (act_multi wr ls sls (fs_of f ks) bls lv) (ddel d "*") st1) as [[[r st2] lg] d2] eqn:Eq. cbn [o_st fst snd] in *. rewrite HE; [exact H1|now rewrite H1|].
    intros k x st' Hi Ho. apply (ddel_In d k "*" x Hn) in Hi as [Hi Hne]. apply (act_frame nm m ls sls ks bls ck Hw Hsh f Hf); [exact (Hk _ _ Hi Hne)|]. intros [p l] Hh Hs.
    specialize (H p l Hs). rewrite told_head, Hh, (In_dget _ _ _ Hn Hi) in H. rewrite Ho. destruct (told_in x (p, l) (p_out (st i))); [discriminate|reflexivity].
  - intros v lv st i p l y Hp Hs1 Hs Hl. cbv beta. unfold b at 1 2. rewrite assign_B. fold b. destruct v as [|z|s|l0|d|n]; try (unfold told in Hl; destruct p as [|[|]]; cbn in Hl; destruct (p_out (st i)); discriminate).
    inversion Hp as [| | | |? Hn Hk]; subst. change (fun c v level st => assign' true c v level st) with f. rewrite told_head in Hl.
    match goal with |- context [let (_, _) := ?R in _] => remember R as r1 eqn:E0 end.
    destruct r1 as [[u|e] st1]; [|discriminate]. rename E0 into E1. symmetry in E1.
    assert (H1 : exists z, st1 i = set_val (st i) z).
    { destruct (dget d "*") as [x|] eqn:Ex; [|injection E1 as <- <-; exists (p_val (st i)); now rewrite set_val_same]. destruct (p_out (st i)) eqn:Eo.
      - exists (p_val (st i)). rewrite set_val_same. change st1 with (snd (Ok u, st1)). rewrite <- E1. apply set_all_frame; auto.
      - destruct (set_all_effect wr b x st i Hw Hid Hs1 (ex_intro (fun pl => holds b pl i) (p, l) Hs) Eo) as [z [_ Z]]; [rewrite E1; destruct u; reflexivity|]. rewrite E1 in Z. eauto. }
    destruct H1 as [z1 Z1]. assert (Ho : p_out (st1 i) = p_out (st i)) by now rewrite Z1.
    assert (FR : forall k' x' st', In (k', x') (ddel d "*") -> (k' = head (p, l) -> told_in x' (p, l) (p_out (st i)) = None) -> p_out (st' i) = p_out (st i) -> o_st (act_multi wr ls sls (fs_of f ks) bls lv k' x' st') i = st' i).
    { intros k' x' st' Hi' Hne Ho'. apply (ddel_In d k' "*" x' Hn) in Hi' as [Hi' Hst]. apply (act_frame nm m ls sls ks bls ck Hw Hsh f Hf); [exact (Hk _ _ Hi' Hst)|]. intros pl Hh Hpl.
      assert (E := Hs1 _ _ Hpl Hs). subst pl. rewrite Ho'. now apply Hne. }
    destruct (match dget d (head (p, l)) with Some x => told_in x (p, l) (p_out (st i)) | None => None end) as [y0|] eqn:Ey.
    + injection Hl as ->. destruct (dget d (head (p, l))) as [x|] eqn:Ed; [|discriminate]. apply dget_In in Ed.
      assert (Ed' : In (head (p, l), x) (ddel d "*")) by (apply In_ddel; auto; eapply head_attr; eauto).
      assert (Hst : head (p, l) <> "*") by (eapply head_attr; eauto).
      assert (EF : forall st', p_out (st' i) = p_out (st i) -> o_res (act_multi wr ls sls (fs_of f ks) bls lv (head (p, l)) x st') = Ok tt -> writ st' (o_st (act_multi wr ls sls (fs_of f ks) bls lv (head (p, l)) x st')) i y).
      { intros st' Ho' Hr. apply (act_effect nm m ls sls ks bls ck Hw Hsh f Hf He (head (p, l)) x lv st' i (p, l) y); auto; [exact (Hk _ _ Ed Hst)|]. now rewrite Ho'. }
      pose proof (each_effect (p_out (st i)) (act_multi wr ls sls (fs_of f ks) bls lv) (ddel d "*") st1 i (head (p, l)) x (ddel_nodup d "*" Hn) Ed' Ho) as HE.
      destruct (each (act_multi wr ls sls (fs_of f ks) bls lv) (ddel d "*") st1) as [[[r st2] lg] d2] eqn:Eq. cbn [o_st o_res fst snd] in *. intros ->.
      destruct HE as (st3 & H1 & H2 & H3); [| |reflexivity|].
      * intros k' x' st' Hi' Hne Ho'. apply FR; auto. intros E. congruence.
      * intros st' Ho' Hr. rewrite (writ_out _ _ _ _ (EF st' Ho' Hr)). exact Ho'.
      * destruct (EF st3) as (old & z & Hz & Hst3); [congruence|exact H2|]. exists old, z. rewrite H3. rewrite H1, Z1, set_val_twice in *. auto.
    + destruct (p_out (st i)) eqn:Eo; [discriminate|]. rewrite Hl in E1. 
      destruct (set_all_effect wr b y st i Hw Hid Hs1 (ex_intro (fun pl => holds b pl i) (p, l) Hs) Eo) as [z [Z Z']]; [rewrite E1; destruct u; reflexivity|]. rewrite E1 in Z'. cbn [snd] in Z'.
      pose proof (each_frame false (act_multi wr ls sls (fs_of f ks) bls lv) (ddel d "*") st1 i Ho) as HE.
      destruct (each (act_multi wr ls sls (fs_of f ks) bls lv) (ddel d "*") st1) as [[[r st2] lg] d2] eqn:Eq. cbn [o_st o_res fst snd] in *. intros ->.
      exists (p_val (st i)), z. rewrite set_val_same. split; [exact Z|]. rewrite HE; [exact Z'|]. intros k' x' st' Hi' Ho'. apply FR; auto. intros ->.
      apply (ddel_In d _ "*" x' Hn) in Hi' as [Hi' _]. rewrite (In_dget _ _ _ Hn Hi') in Ey. exact Ey.
Qed.
End Star.
