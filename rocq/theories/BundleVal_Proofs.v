(** Multilevel assign: what is written and what is not. *)
From Coq Require Import List String Ascii Bool Arith ZArith Lia.
From Verif Require Import Py Dict_Proofs Bundle_Model Bundle_Spec Bundle_Proofs BundleVal_Model BundleVal_Spec.
Import ListNotations.
Open Scope string_scope.
Open Scope list_scope.

Lemma NoDup_app_r {A} (l1 l2 : list A) : NoDup (l1 ++ l2) -> NoDup l2.
Proof. induction l1 as [|x t IH]; [auto|]. intros H. inversion H; auto. Qed.

(** * Lookups on one level *)
Lemma own_leaf ls k : own ls k = option_map l_slot (leaf_in ls (LSig k)).
Proof.
  induction ls as [|l t IH]; [reflexivity|]. cbn [own leaf_in]. destruct (leafid_eq_dec (LSig k) (l_id l)) as [E|E].
  - rewrite <- E. now rewrite String.eqb_refl.
  - rewrite IH. destruct (l_id l) as [n|]; [|reflexivity]. destruct (String.eqb k n) eqn:Ek; [|reflexivity]. apply String.eqb_eq in Ek. congruence.
Qed.
Lemma els_idx ls k : List.length (els ls k) = List.length (leaf_idx ls k).
Proof.
  unfold leaf_idx. induction ls as [|l t IH]; [reflexivity|]. cbn [els flat_map]. destruct (l_id l) as [n|n i]; [exact IH|].
  destruct (String.eqb k n); [cbn; now rewrite IH|exact IH].
Qed.
Lemma els_nth ls k : forall j i, nth_error (leaf_idx ls k) j = Some i -> exists x, In x ls /\ l_id x = LEl k i /\ nth_error (els ls k) j = Some (l_slot x).
Proof.
  unfold leaf_idx. induction ls as [|l t IH]; intros j i; cbn [els flat_map]; [destruct j; discriminate|].
  destruct (l_id l) as [n|n i'] eqn:El.
  - intros H. destruct (IH _ _ H) as (x & Hx & H2). exists x. split; [now right|exact H2].
  - destruct (String.eqb k n) eqn:E; cbn [List.app].
    + apply String.eqb_eq in E. subst n. destruct j as [|j]; cbn [nth_error].
      * intros [= ->]. exists l. split; [now left|auto].
      * intros H. destruct (IH _ _ H) as (x & Hx & H2). exists x. split; [now right|exact H2].
    + intros H. destruct (IH _ _ H) as (x & Hx & H2). exists x. split; [now right|exact H2].
Qed.
Lemma idx_in ls k x i : In x ls -> l_id x = LEl k i -> In i (leaf_idx ls k).
Proof. intros H E. unfold leaf_idx. apply in_flat_map. exists x. split; [exact H|]. rewrite E, String.eqb_refl. now left. Qed.
Lemma els_slot nm m ls sls ks bls ck k j : NoDup (map l_id ls) -> leaf_idx ls k = seq 0 (List.length (leaf_idx ls k)) ->
  nth_error (els ls k) j = slot_at (B nm m ls sls ks bls ck) ([], LEl k j).
Proof.
  intros Hn Hs. rewrite slot_at_nil. cbn [b_leaves]. destruct (leaf_in ls (LEl k j)) as [x|] eqn:E; cbn [option_map].
  - apply leaf_in_Some in E. destruct E as [Hx Hid].
    assert (Hi : In j (leaf_idx ls k)) by (eapply idx_in; eauto).
    rewrite Hs in Hi. apply in_seq in Hi. destruct (els_nth ls k j j) as (y & Hy & Hyid & Hnth).
    { rewrite Hs. rewrite nth_error_nth' with (d := 0) by (rewrite seq_length; lia). rewrite seq_nth by lia. reflexivity. }
    rewrite Hnth. f_equal. assert (leaf_in ls (LEl k j) = Some y) by (rewrite <- Hyid; now apply leaf_in_In).
    assert (leaf_in ls (LEl k j) = Some x) by (rewrite <- Hid; now apply leaf_in_In). congruence.
  - apply nth_error_None. rewrite els_idx. destruct (Nat.le_gt_cases (List.length (leaf_idx ls k)) j) as [|Hlt]; [assumption|exfalso].
    destruct (els_nth ls k j j) as (y & Hy & Hyid & _).
    { rewrite Hs. rewrite nth_error_nth' with (d := 0) by (rewrite seq_length; lia). rewrite seq_nth by lia. reflexivity. }
    assert (leaf_in ls (LEl k j) = Some y) by (rewrite <- Hyid; now apply leaf_in_In). congruence.
Qed.

Section Kids.
Context (f : bundle -> assigner).
Definition fs_of (ks : list (seg * bundle)) : list (seg * assigner) := map (fun x => (fst x, f (snd x))) ks.
Lemma sub_kid ks k : sub (fs_of ks) k = option_map f (kid ks (PSub k)).
Proof.
  induction ks as [|[s c] t IH]; [reflexivity|]. cbn [fs_of map fst snd sub kid]. fold (fs_of t). destruct (seg_eq_dec (PSub k) s) as [<-|E].
  - now rewrite String.eqb_refl.
  - rewrite IH. destruct s as [n|]; [|reflexivity]. destruct (String.eqb k n) eqn:Ek; [|reflexivity]. apply String.eqb_eq in Ek. congruence.
Qed.
Fixpoint kid_elems (ks : list (seg * bundle)) (k : string) : list bundle :=
  match ks with
  | [] => []
  | (PElem n _, c) :: t => if String.eqb k n then c :: kid_elems t k else kid_elems t k
  | (PSub _, _) :: t => kid_elems t k
  end.
Lemma elems_kid ks k : elems (fs_of ks) k = map f (kid_elems ks k).
Proof.
  induction ks as [|[[n|n i] c] t IH]; [reflexivity|exact IH|]. cbn [fs_of map fst snd elems kid_elems]. fold (fs_of t). destruct (String.eqb k n); [cbn; now rewrite IH|exact IH].
Qed.
Lemma kid_elems_len ks k : List.length (kid_elems ks k) = List.length (kid_idx ks k).
Proof.
  unfold kid_idx. induction ks as [|[[n|n i] c] t IH]; [reflexivity|exact IH|]. cbn [kid_elems flat_map fst]. destruct (String.eqb k n); [cbn; now rewrite IH|exact IH].
Qed.
Lemma kid_elems_nth ks k : forall j i, nth_error (kid_idx ks k) j = Some i -> exists c, In (PElem k i, c) ks /\ nth_error (kid_elems ks k) j = Some c.
Proof.
  unfold kid_idx. induction ks as [|[[n|n i'] c] t IH]; intros j i; cbn [kid_elems flat_map fst]; [destruct j; discriminate| |].
  - intros H. destruct (IH _ _ H) as (x & Hx & H2). exists x. split; [now right|exact H2].
  - destruct (String.eqb k n) eqn:E; cbn [List.app].
    + apply String.eqb_eq in E. subst n. destruct j as [|j]; cbn [nth_error].
      * intros [= ->]. exists c. split; [now left|auto].
      * intros H. destruct (IH _ _ H) as (x & Hx & H2). exists x. split; [now right|exact H2].
    + intros H. destruct (IH _ _ H) as (x & Hx & H2). exists x. split; [now right|exact H2].
Qed.
Lemma kid_elems_kid ks k j : NoDup (map fst ks) -> kid_idx ks k = seq 0 (List.length (kid_idx ks k)) -> nth_error (kid_elems ks k) j = kid ks (PElem k j).
Proof.
  intros Hn Hs. destruct (kid ks (PElem k j)) as [c|] eqn:E.
  - apply kid_Some in E. assert (Hi : In j (kid_idx ks k)).
    { unfold kid_idx. apply in_flat_map. exists (PElem k j, c). split; [exact E|]. cbn [fst]. rewrite String.eqb_refl. now left. }
    rewrite Hs in Hi. apply in_seq in Hi. destruct (kid_elems_nth ks k j j) as (c' & Hc & Hnth).
    { rewrite Hs. rewrite nth_error_nth' with (d := 0) by (rewrite seq_length; lia). rewrite seq_nth by lia. reflexivity. }
    rewrite Hnth. f_equal. assert (kid ks (PElem k j) = Some c') by now apply kid_In. assert (kid ks (PElem k j) = Some c) by now apply kid_In. congruence.
  - apply nth_error_None. rewrite kid_elems_len. destruct (Nat.le_gt_cases (List.length (kid_idx ks k)) j) as [|Hlt]; [assumption|exfalso].
    destruct (kid_elems_nth ks k j j) as (c' & Hc & _).
    { rewrite Hs. rewrite nth_error_nth' with (d := 0) by (rewrite seq_length; lia). rewrite seq_nth by lia. reflexivity. }
    assert (kid ks (PElem k j) = Some c') by now apply kid_In. congruence.
Qed.
End Kids.

Section Writes.
Context (wr : pin -> val -> res Z) (usr : nat -> bundle -> store -> res unit * store).
Notation assign' := (assign wr usr).
Notation write_slot' := (write_slot wr).

Definition wrote (st st1 : store) (i : nat) (x : val) : Prop := exists z, wr (st i) x = Ok z /\ st1 i = set_val (st i) z.

(** * Single writes *)
Lemma write_frame s x st i : s <> SPin i -> snd (write_slot' s x st) i = st i.
Proof.
  destruct s as [| | |j]; cbn [write_slot]; try reflexivity. intros H. destruct (wr (st j) x); [|reflexivity]. cbn [snd]. unfold upd.
  destruct (Nat.eqb i j) eqn:E; [apply Nat.eqb_eq in E; congruence|reflexivity].
Qed.
Lemma write_effect x st i : fst (write_slot' (SPin i) x st) = Ok tt -> wrote st (snd (write_slot' (SPin i) x st)) i x.
Proof.
  cbn [write_slot]. destruct (wr (st i) x) as [z|e] eqn:E; [|discriminate]. intros _. exists z. cbn [snd]. unfold upd. rewrite Nat.eqb_refl. auto.
Qed.

Lemma write_list_frame l v : forall j st i, (forall k s, nth_error l k = Some s -> s = SPin i -> item v (j + k) = None) -> snd (write_list wr l v j st) i = st i.
Proof.
  induction l as [|s t IH]; intros j st i H; [reflexivity|]. cbn [write_list]. destruct (vidx v j) as [x|] eqn:E; [|reflexivity].
  assert (Hs : s <> SPin i).
  { intros ->. specialize (H 0 _ eq_refl eq_refl). rewrite Nat.add_0_r in H. unfold item in H. rewrite E in H. discriminate. }
  pose proof (write_frame s x st i Hs) as Hf. destruct (write_slot' s x st) as [[u|e] st1]; cbn [snd] in *; [|exact Hf].
  rewrite IH; [exact Hf|]. intros k s' Hk Hs'. rewrite <- (H (S k) s' Hk Hs'). f_equal. lia.
Qed.
Lemma write_list_effect l v : forall j st i k x, fst (write_list wr l v j st) = Ok tt -> nth_error l k = Some (SPin i) ->
  (forall k', nth_error l k' = Some (SPin i) -> k' = k) -> item v (j + k) = Some x -> wrote st (snd (write_list wr l v j st)) i x.
Proof.
  induction l as [|s t IH]; intros j st i k x Hok Hk Hone Hx; [destruct k; discriminate|]. cbn [write_list] in *.
  destruct (vidx v j) as [y|] eqn:E; [|discriminate]. destruct k as [|k]; cbn [nth_error] in Hk.
  - injection Hk as ->. rewrite Nat.add_0_r in Hx. unfold item in Hx. rewrite E in Hx. injection Hx as ->.
    pose proof (write_effect x st i) as He. destruct (write_slot' (SPin i) x st) as [[u|e] st1]; cbn [fst snd] in *; [|discriminate]. destruct u.
    destruct (He eq_refl) as (z & Hz & Hst). exists z. split; [exact Hz|]. rewrite <- Hst. apply write_list_frame.
    intros k s Hs ->. specialize (Hone (S k) Hs). discriminate.
  - assert (Hs : s <> SPin i) by (intros ->; specialize (Hone 0 eq_refl); discriminate).
    pose proof (write_frame s y st i Hs) as Hf. destruct (write_slot' s y st) as [[u|e] st1]; cbn [fst snd] in *; [|discriminate].
    destruct (IH (S j) st1 i k x Hok Hk) as (z & Hz & Hst).
    + intros k' Hk'. specialize (Hone (S k') Hk'). lia.
    + rewrite <- Hx. f_equal. lia.
    + exists z. rewrite <- Hf. auto.
Qed.
Lemma sl_frame l v st i : (forall k s, nth_error l k = Some s -> s = SPin i -> item v k = None) -> snd (sl_assign wr l v st) i = st i.
Proof. intros H. unfold sl_assign. destruct (vlen v); [|reflexivity]. destruct (Nat.eqb _ _); [|reflexivity]. now apply write_list_frame. Qed.
Lemma sl_effect l v st i k x : fst (sl_assign wr l v st) = Ok tt -> nth_error l k = Some (SPin i) ->
  (forall k', nth_error l k' = Some (SPin i) -> k' = k) -> item v k = Some x -> wrote st (snd (sl_assign wr l v st)) i x.
Proof.
  unfold sl_assign. destruct (vlen v); [|discriminate]. destruct (Nat.eqb _ _); [|discriminate]. intros H1 H2 H3 H4. eapply write_list_effect; eauto.
Qed.

(** * The loop over the entries *)
Notation e_res x := (fst (fst (fst x))).
Notation e_st x := (snd (fst (fst x))).
Lemma each_frame act d : forall st i, (forall k x st, In (k, x) d -> o_st (act k x st) i = st i) -> e_st (each act d st) i = st i.
Proof.
  induction d as [|[k x] t IH]; intros st i H; [reflexivity|]. cbn [each]. pose proof (H k x st (or_introl eq_refl)) as Hk.
  destruct (o_res (act k x st)); [|exact Hk]. specialize (IH (o_st (act k x st)) i (fun k' x' st' Hi => H k' x' st' (or_intror Hi))).
  destruct (each act t (o_st (act k x st))) as [[[r st2] lg] t1]. cbn [fst snd] in *. congruence.
Qed.
Lemma each_effect act d : forall st i k x, NoDup (map fst d) -> In (k, x) d -> (forall k' x' st, In (k', x') d -> k' <> k -> o_st (act k' x' st) i = st i) ->
  e_res (each act d st) = Ok tt ->
  exists st1, st1 i = st i /\ o_res (act k x st1) = Ok tt /\ e_st (each act d st) i = o_st (act k x st1) i.
Proof.
  induction d as [|[k0 x0] t IH]; intros st i k x Hn Hi Hf Hok; [destruct Hi|]. cbn [each map fst] in *. inversion Hn as [|? ? Hni Hnt]; subst.
  destruct Hi as [E|Hi].
  - injection E as -> ->. exists st. destruct (o_res (act k x st)) as [[]|] eqn:Er; [|discriminate]. split; [reflexivity|split; [reflexivity|]].
    pose proof (each_frame act t (o_st (act k x st)) i) as Hfr. destruct (each act t (o_st (act k x st))) as [[[r st2] lg] t1]. cbn [fst snd] in *. apply Hfr.
    intros k' x' st' Hi'. apply Hf; [now right|]. intros ->. apply Hni. change k with (fst (k, x')). now apply in_map.
  - assert (Hne : k0 <> k) by (intros ->; apply Hni; change k with (fst (k, x)); now apply in_map).
    pose proof (Hf k0 x0 st (or_introl eq_refl) Hne) as Hk. destruct (o_res (act k0 x0 st)); [|discriminate].
    destruct (IH (o_st (act k0 x0 st)) i k x Hnt Hi (fun k' x' st' Hi' => Hf k' x' st' (or_intror Hi'))) as (st1 & H1 & H2 & H3).
    + destruct (each act t (o_st (act k0 x0 st))) as [[[r st2] lg] t1]. exact Hok.
    + exists st1. split; [congruence|]. split; [exact H2|]. destruct (each act t (o_st (act k0 x0 st))) as [[[r st2] lg] t1]. exact H3.
Qed.

(** * Unfolding *)
Definition assign_kids (ml : bool) := fix go (ks : list (seg * bundle)) : list (seg * assigner) :=
  match ks with [] => [] | (s, c) :: t => (s, fun v level st => assign' ml c v level st) :: go t end.
Lemma assign_kids_fs ml ks : assign_kids ml ks = fs_of (fun c => fun v level st => assign' ml c v level st) ks.
Proof. induction ks as [|[s c] t IH]; [reflexivity|]. cbn [assign_kids fs_of map fst snd]. fold (assign_kids ml). now rewrite IH. Qed.
Lemma assign_B ml nm m ls sls ks bls ck v level st :
  assign' ml (B nm m ls sls ks bls ck) v level st =
  match v with
  | VObj n => just (usr n (B nm m ls sls ks bls ck) st) v
  | VDict d =>
      match (match dget d "*" with Some x => set_all wr (B nm m ls sls ks bls ck) x st | None => (Ok tt, st) end) with
      | (Exn e, st1) => mk_out (Exn e) st1 [] v
      | (Ok _, st1) =>
          let '(r, st2, lg, d2) := each ((if ml then act_multi wr else act_flat wr) ls sls (fs_of (fun c => fun v level st => assign' ml c v level st) ks) bls level) (ddel d "*") st1 in
          mk_out r st2 lg (VDict d2)
      end
  | _ => mk_out (Ok tt) st [LCritical] v
  end.
Proof. rewrite <- assign_kids_fs. reflexivity. Qed.
Lemma no_star (d : list (string * val)) : ~ In "*" (map fst d) -> dget d "*" = None /\ ddel d "*" = d.
Proof.
  induction d as [|[k x] t IH]; intros H; [auto|]. cbn [map fst In dget ddel] in *. destruct (String.eqb "*" k) eqn:E.
  - apply String.eqb_eq in E. exfalso. apply H. now left.
  - destruct IH as [H1 H2]; [tauto|]. now rewrite H1, H2.
Qed.
Lemma plain_no_star d : plain (VDict d) -> dget d "*" = None /\ ddel d "*" = d.
Proof.
  intros H. inversion H as [| | | |? Hn Hk]; subst. apply no_star. intros Hi. apply in_map_iff in Hi. destruct Hi as [[k x] [E Hi]]. cbn [fst] in E. subst. now apply (Hk _ _ Hi).
Qed.
Lemma item_plain x j y : plain x -> item x j = Some y -> plain y.
Proof.
  unfold item. intros Hp. destruct x as [|z|s|l|d|n]; cbn [vidx]; try discriminate.
  - destruct (String.get j s); [|discriminate]. intros [= <-]. constructor.
  - destruct (nth_error l j) as [u|] eqn:E; [|discriminate]. intros [= <-]. inversion Hp as [| | |? Hl|]; subst. apply Hl. eapply nth_error_In. exact E.
Qed.

(** * One entry *)
Definition head (pl : place) : string :=
  match fst pl with [] => match snd pl with LSig n | LEl n _ => n end | PSub n :: _ | PElem n _ :: _ => n end.
Definition look_in (x : val) (pl : place) : option val :=
  match fst pl with
  | [] => match snd pl with LSig _ => Some x | LEl _ j => item x j end
  | PSub _ :: t => look x t (snd pl)
  | PElem _ j :: t => match item x j with Some y => look y t (snd pl) | None => None end
  end.
Lemma look_head d p l : look (VDict d) p l = match dget d (head (p, l)) with Some x => look_in x (p, l) | None => None end.
Proof. destruct p as [|[n|n j] t]; [destruct l as [n|n j]| |]; cbn; destruct (dget d n); reflexivity. Qed.

Definition frame_ok (f : assigner) (c : bundle) : Prop := forall x lv st i, plain x ->
  (forall p l, holds c (p, l) i -> look x p l = None) -> o_st (f x lv st) i = st i.
Definition effect_ok (f : assigner) (c : bundle) : Prop := forall x lv st i p l y, plain x -> single c i ->
  holds c (p, l) i -> look x p l = Some y -> o_res (f x lv st) = Ok tt -> wrote st (o_st (f x lv st)) i y.

(** The loop of BundleList.assign changes elements of its value only behind the current one. *)
Lemma item_vset_ne v j x k : k <> j -> item (vset v j x) k = item v k.
Proof.
  destruct v as [|z|s|l|d|n]; cbn [vset]; try reflexivity. intros H. unfold item. cbn [vidx].
  assert (E : nth_error (lset l j x) k = nth_error l k).
  { revert j k H. induction l as [|y t IH]; intros [|j] [|k] H; cbn [lset nth_error]; try reflexivity; [lia|]. apply IH. lia. }
  now rewrite E.
Qed.
Lemma vidx_item v j y : vidx v j = Ok y -> item v j = Some y.
Proof. unfold item. now intros ->. Qed.

Lemma bl_frame fs cs : Forall2 frame_ok fs cs -> forall v j st i,
  (forall k x, j <= k -> item v k = Some x -> plain x) ->
  (forall k c x p l, nth_error cs k = Some c -> holds c (p, l) i -> item v (j + k) = Some x -> look x p l = None) ->
  o_st (bl_assign fs v j st) i = st i.
Proof.
  intros HF. induction HF as [|f c fs cs Hf HF IH]; intros v j st i Hp H; [reflexivity|]. cbn [bl_assign]. destruct (vidx v j) as [x|] eqn:E; [|reflexivity].
  apply vidx_item in E. cbv zeta.
  assert (H0 : o_st (f x "" st) i = st i).
  { apply Hf; [now apply (Hp j)|]. intros p l Hh. apply (H 0 c x p l eq_refl Hh). now rewrite Nat.add_0_r. }
  destruct (o_res (f x "" st)); [|exact H0]. cbn [o_st]. rewrite IH; [exact H0| |].
  - intros k y Hk. rewrite item_vset_ne by lia. apply Hp. lia.
  - intros k c' y p l Hc Hh Hy. rewrite item_vset_ne in Hy by lia. apply (H (S k) c' y p l Hc Hh). rewrite <- Hy. f_equal. lia.
Qed.
Lemma bl_effect fs cs : Forall2 frame_ok fs cs -> Forall2 effect_ok fs cs -> forall v j st i k c x p l y,
  (forall k x, j <= k -> item v k = Some x -> plain x) ->
  nth_error cs k = Some c -> single c i -> holds c (p, l) i -> (forall k' c', nth_error cs k' = Some c' -> held c' i -> k' = k) ->
  item v (j + k) = Some x -> look x p l = Some y -> o_res (bl_assign fs v j st) = Ok tt -> wrote st (o_st (bl_assign fs v j st)) i y.
Proof.
  intros HF. induction HF as [|f c0 fs cs Hf HF IH]; intros HE v j st i k c x p l y Hp Hk Hs Hh Hone Hx Hl Hok; [destruct k; discriminate|].
  inversion HE as [|? ? ? ? He HE']; subst. cbn [bl_assign] in *. destruct (vidx v j) as [x0|] eqn:E; [|discriminate]. apply vidx_item in E. cbv zeta in *.
  destruct k as [|k]; cbn [nth_error] in Hk.
  - injection Hk as ->. rewrite Nat.add_0_r in Hx. rewrite Hx in E. injection E as ->. destruct (o_res (f x0 "" st)) as [[]|] eqn:Er; [|discriminate].
    destruct (He x0 "" st i p l y (Hp j _ (le_n _) Hx) Hs Hh Hl Er) as (z & Hz & Hst). exists z. split; [exact Hz|]. cbn [o_st]. rewrite <- Hst.
    apply (bl_frame _ _ HF); [intros k w Hk; rewrite item_vset_ne by lia; apply Hp; lia|].
    intros k c' w p' l' Hc' Hh' _. exfalso. specialize (Hone (S k) c' Hc' (ex_intro (fun pl => holds _ pl i) _ Hh')). discriminate.
  - assert (H0 : o_st (f x0 "" st) i = st i).
    { apply Hf; [now apply (Hp j)|]. intros p' l' Hh'. exfalso. specialize (Hone 0 c0 eq_refl (ex_intro (fun pl => holds _ pl i) _ Hh')). discriminate. }
    destruct (o_res (f x0 "" st)); [|discriminate]. cbn [o_st o_res] in *.
    destruct (IH HE' (vset v j (o_val (f x0 "" st))) (S j) (o_st (f x0 "" st)) i k c x p l y) as (z & Hz & Hst); auto.
    + intros k' w Hk'. rewrite item_vset_ne by lia. apply Hp. lia.
    + intros k' c' Hc' Hh'. specialize (Hone (S k') c' Hc' Hh'). lia.
    + rewrite item_vset_ne by lia. rewrite <- Hx. f_equal. lia.
    + exists z. rewrite <- H0. auto.
Qed.

Section Level.
Context (nm : string) (m : method) (ls : list leaf) (sls : list string) (ks : list (seg * bundle)) (bls : list string) (ck : option nat).
Notation b := (B nm m ls sls ks bls ck).
Context (Hw : wf b) (Hsh : shaped b).

Lemma lv_ids : NoDup (map l_id ls). Proof. inversion Hw; assumption. Qed.
Lemma lv_kids : NoDup (map fst ks). Proof. inversion Hw; assumption. Qed.
Lemma lv_names : NoDup (own_names ls ++ sls ++ sub_names ks ++ bls). Proof. inversion Hsh; assumption. Qed.
Lemma lv_lidx n : leaf_idx ls n = seq 0 (List.length (leaf_idx ls n)). Proof. inversion Hsh; auto. Qed.
Lemma lv_kidx n : kid_idx ks n = seq 0 (List.length (kid_idx ks n)). Proof. inversion Hsh; auto. Qed.

Lemma own_slot k : own ls k = slot_at b ([], LSig k).
Proof. rewrite own_leaf. reflexivity. Qed.
Lemma own_name k s : own ls k = Some s -> In k (own_names ls).
Proof.
  rewrite own_leaf. destruct (leaf_in ls (LSig k)) as [x|] eqn:E; [|discriminate]. intros _. apply leaf_in_Some in E. destruct E as [Hx Hid].
  unfold own_names. apply in_flat_map. exists x. split; [exact Hx|]. rewrite Hid. now left.
Qed.
Lemma kid_name k c : kid ks (PSub k) = Some c -> In k (sub_names ks).
Proof. intros E. apply kid_Some in E. unfold sub_names. apply in_flat_map. exists (PSub k, c). split; [exact E|now left]. Qed.
Lemma NoDup_apart {A} (l1 l2 : list A) x : NoDup (l1 ++ l2) -> In x l1 -> In x l2 -> False.
Proof. induction l1 as [|y t IH]; intros Hn H1 H2; [destruct H1|]. cbn in Hn. inversion Hn; subst. destruct H1 as [->|H1]; [apply H3, in_app_iff; auto|auto]. Qed.

(** Which places have the head [k], depending on what [k] is. *)
Inductive kind (k : string) : Prop :=
| k_own s : own ls k = Some s -> (forall pl x, head pl = k -> slot_at b pl = Some x -> pl = ([], LSig k)) -> kind k
| k_list : own ls k = None -> smem k sls = true -> (forall pl x, head pl = k -> slot_at b pl = Some x -> exists j, pl = ([], LEl k j)) -> kind k
| k_sub c : own ls k = None -> smem k sls = false -> kid ks (PSub k) = Some c ->
    (forall pl x, head pl = k -> slot_at b pl = Some x -> exists t, fst pl = PSub k :: t) -> kind k
| k_blist : own ls k = None -> smem k sls = false -> kid ks (PSub k) = None -> smem k bls = true ->
    (forall pl x, head pl = k -> slot_at b pl = Some x -> exists j t, fst pl = PElem k j :: t) -> kind k
| k_none : own ls k = None -> smem k sls = false -> kid ks (PSub k) = None -> smem k bls = false -> ~ In k (attrs b) ->
    (forall pl, head pl = k -> slot_at b pl = None) -> kind k.

Lemma place_cases pl x : slot_at b pl = Some x ->
  (exists k, pl = ([], LSig k) /\ In k (own_names ls)) \/ (exists k j, pl = ([], LEl k j) /\ In k sls) \/
  (exists k t c, fst pl = PSub k :: t /\ kid ks (PSub k) = Some c /\ In k (sub_names ks)) \/
  (exists k j t c, fst pl = PElem k j :: t /\ kid ks (PElem k j) = Some c /\ In k bls).
Proof.
  inversion Hsh as [? ? ? ? ? ? ? Hnd _ Hle Hke _ _ _]; subst. destruct pl as [[|[n|n j] t] l]; cbn [fst].
  - rewrite slot_at_nil. cbn [b_leaves]. destruct (leaf_in ls l) as [y|] eqn:E; [|discriminate]. intros _. apply leaf_in_Some in E. destruct E as [Hy Hid].
    destruct l as [n|n j].
    + left. exists n. split; [reflexivity|]. unfold own_names. apply in_flat_map. exists y. split; [exact Hy|]. rewrite Hid. now left.
    + right. left. exists n, j. split; [reflexivity|]. eapply Hle; eauto.
  - rewrite slot_at_cons. cbn [b_kids]. destruct (kid ks (PSub n)) as [c|] eqn:E; [|discriminate]. intros _. right. right. left. exists n, t, c. split; [reflexivity|].
    split; [exact E|]. eapply kid_name; eauto.
  - rewrite slot_at_cons. cbn [b_kids]. destruct (kid ks (PElem n j)) as [c|] eqn:E; [|discriminate]. intros _. right. right. right. exists n, j, t, c. split; [reflexivity|].
    split; [exact E|]. apply kid_Some in E. eapply Hke; eauto.
Qed.
Lemma apart k : (In k (own_names ls) -> ~ In k sls /\ ~ In k (sub_names ks) /\ ~ In k bls) /\ (In k sls -> ~ In k (sub_names ks) /\ ~ In k bls) /\
  (In k (sub_names ks) -> ~ In k bls).
Proof.
  pose proof lv_names as Hn. assert (H2 : NoDup (sls ++ sub_names ks ++ bls)).
  { now apply NoDup_app_r in Hn. }
  assert (H3 : NoDup (sub_names ks ++ bls)) by (now apply NoDup_app_r in H2).
  split; [|split].
  - intros H. repeat split; intros H'; apply (NoDup_apart _ _ k Hn H); rewrite !in_app_iff; tauto.
  - intros H. split; intros H'; apply (NoDup_apart _ _ k H2 H); rewrite !in_app_iff; tauto.
  - intros H H'. exact (NoDup_apart _ _ k H3 H H').
Qed.
Lemma kind_of k : kind k.
Proof.
  clear wr usr.
  destruct (apart k) as (A1 & A2 & A3).
  assert (Hown : own ls k = None -> ~ In k (own_names ls)).
  { intros Hn Hi. unfold own_names in Hi. apply in_flat_map in Hi. destruct Hi as [y [Hy Hin]]. destruct (l_id y) as [n|] eqn:E; [|destruct Hin]. destruct Hin as [->|[]].
    rewrite own_leaf, <- E, (leaf_in_In _ _ lv_ids Hy) in Hn. discriminate. }
  assert (Hsub : kid ks (PSub k) = None -> ~ In k (sub_names ks)).
  { intros Hn Hi. unfold sub_names in Hi. apply in_flat_map in Hi. destruct Hi as [[s c] [Hy Hin]]. cbn [fst] in Hin. destruct s as [n|]; [|destruct Hin]. destruct Hin as [->|[]].
    rewrite (kid_In _ _ _ lv_kids Hy) in Hn. discriminate. }
  destruct (own ls k) as [s|] eqn:Eo.
  { apply (k_own k s Eo). pose proof (A1 (own_name _ _ Eo)) as (N1 & N2 & N3). intros pl x Hh Hs.
    destruct (place_cases pl x Hs) as [(n & -> & Hi)|[(n & j & -> & Hi)|[([|] & t & c & Hf' & Hk & Hi)|(n & j & t & c & Hf' & Hk & Hi)]]]; unfold head in Hh; try rewrite Hf' in Hh; cbn in Hh; subst; tauto. }
  destruct (smem k sls) eqn:Es.
  { apply k_list; auto. apply smem_In in Es. pose proof (A2 Es) as (N2 & N3). specialize (Hown eq_refl). intros pl x Hh Hs.
    destruct (place_cases pl x Hs) as [(n & -> & Hi)|[(n & j & -> & Hi)|[(n & t & c & Hf' & Hk & Hi)|(n & j & t & c & Hf' & Hk & Hi)]]]; unfold head in Hh; try rewrite Hf' in Hh; cbn in Hh; subst; try tauto. eauto. }
  assert (Ns : ~ In k sls) by (intros Hi; apply smem_In in Hi; congruence).
  destruct (kid ks (PSub k)) as [c|] eqn:Ek.
  { apply (k_sub k c); auto. specialize (Hown eq_refl). pose proof (A3 (kid_name _ _ Ek)) as N3. intros pl x Hh Hs.
    destruct (place_cases pl x Hs) as [(n & -> & Hi)|[(n & j & -> & Hi)|[(n & t & c' & Hf' & Hk & Hi)|(n & j & t & c' & Hf' & Hk & Hi)]]]; unfold head in Hh; try rewrite Hf' in Hh; cbn in Hh; subst; try tauto. eauto. }
  specialize (Hown eq_refl). specialize (Hsub eq_refl). destruct (smem k bls) eqn:Eb.
  { apply k_blist; auto. intros pl x Hh Hs.
    destruct (place_cases pl x Hs) as [(n & -> & Hi)|[(n & j & -> & Hi)|[(n & t & c' & Hf' & Hk & Hi)|(n & j & t & c' & Hf' & Hk & Hi)]]]; unfold head in Hh; try rewrite Hf' in Hh; cbn in Hh; subst; try tauto. eauto. }
  assert (Nb : ~ In k bls) by (intros Hi; apply smem_In in Hi; congruence).
  apply k_none; auto.
  - unfold attrs. cbn [b_leaves b_slists b_kids b_blists]. rewrite !in_app_iff. tauto.
  - intros pl Hh. destruct (slot_at b pl) as [x|] eqn:Hs; [|reflexivity]. exfalso.
    destruct (place_cases pl x Hs) as [(n & -> & Hi)|[(n & j & -> & Hi)|[(n & t & c' & Hf' & Hk & Hi)|(n & j & t & c' & Hf' & Hk & Hi)]]]; unfold head in Hh; try rewrite Hf' in Hh; cbn in Hh; subst; tauto.
Qed.

Context (f : bundle -> assigner).
Context (Hf : forall s c, In (s, c) ks -> frame_ok (f c) c) (He : forall s c, In (s, c) ks -> effect_ok (f c) c).
Lemma elem_ok (P : assigner -> bundle -> Prop) k : (forall s c, In (s, c) ks -> P (f c) c) -> Forall2 P (map f (kid_elems ks k)) (kid_elems ks k).
Proof.
  intros H. assert (G : forall c, In c (kid_elems ks k) -> P (f c) c).
  { intros c Hc. apply In_nth_error in Hc. destruct Hc as [j Hj]. rewrite (kid_elems_kid ks k j lv_kids (lv_kidx k)) in Hj. apply kid_Some in Hj. eauto. }
  induction (kid_elems ks k) as [|c t IH]; constructor; [apply G; now left|apply IH; intros c' Hc'; apply G; now right].
Qed.

Notation act := (act_multi wr ls sls (fs_of f ks) bls).

Lemma act_frame k x lv st i : plain x -> (forall pl, head pl = k -> holds b pl i -> look_in x pl = None) -> o_st (act lv k x st) i = st i.
Proof.
  intros Hp H. unfold act_multi. destruct (kind_of k) as [s Eo _|Eo Es _|c Eo Es Ek _|Eo Es Ek Eb _|Eo Es Ek Eb _ _].
  - rewrite Eo. cbn [just o_st]. apply write_frame. intros ->. rewrite own_slot in Eo. specialize (H ([], LSig k) eq_refl Eo). discriminate.
  - rewrite Eo, Es. cbn [just o_st]. apply sl_frame. intros j s Hj ->. rewrite (els_slot nm m ls sls ks bls ck k j lv_ids (lv_lidx k)) in Hj.
    exact (H ([], LEl k j) eq_refl Hj).
  - rewrite Eo, Es, sub_kid, Ek. cbn [option_map]. apply (Hf _ _ (kid_Some _ _ _ Ek)); [exact Hp|]. intros p l Hh.
    apply (H (PSub k :: p, l) eq_refl). unfold holds. rewrite slot_at_cons. cbn [b_kids]. now rewrite Ek.
  - rewrite Eo, Es, sub_kid, Ek. cbn [option_map]. rewrite Eb, elems_kid. apply (bl_frame _ _ (elem_ok frame_ok k Hf)).
    + intros j y _. now apply item_plain.
    + intros j c y p l Hc Hh Hy. rewrite (kid_elems_kid ks k j lv_kids (lv_kidx k)) in Hc. specialize (H (PElem k j :: p, l) eq_refl). unfold look_in in H. cbn [fst snd] in H.
      cbn [Nat.add] in Hy. rewrite Hy in H. apply H. unfold holds. rewrite slot_at_cons. cbn [b_kids]. now rewrite Hc.
  - rewrite Eo, Es, sub_kid, Ek. cbn [option_map]. rewrite Eb. reflexivity.
Qed.

Lemma act_effect k x lv st i pl y : plain x -> single b i -> head pl = k -> holds b pl i -> look_in x pl = Some y ->
  o_res (act lv k x st) = Ok tt -> wrote st (o_st (act lv k x st)) i y.
Proof.
  intros Hp Hs1 Hh Hs Hl. unfold act_multi. destruct (kind_of k) as [s Eo Hk|Eo Es Hk|c Eo Es Ek Hk|Eo Es Ek Eb Hk|Eo Es Ek Eb _ Hk].
  - rewrite Eo. cbn [just o_res o_st]. assert (E := Hk _ _ Hh Hs). subst pl. unfold holds in Hs. rewrite own_slot, Hs in Eo. injection Eo as <-. cbn in Hl. injection Hl as <-. apply write_effect.
  - rewrite Eo, Es. cbn [just o_res o_st]. destruct (Hk _ _ Hh Hs) as [j ->]. cbn in Hl. intros Hok. eapply sl_effect; eauto.
    + now rewrite (els_slot nm m ls sls ks bls ck k j lv_ids (lv_lidx k)).
    + intros j' Hj'. rewrite (els_slot nm m ls sls ks bls ck k j' lv_ids (lv_lidx k)) in Hj'. assert (E := Hs1 _ _ Hj' Hs). congruence.
  - rewrite Eo, Es, sub_kid, Ek. cbn [option_map]. destruct (Hk _ _ Hh Hs) as [t Ht]. destruct pl as [p l]. cbn [fst] in Ht. subst p. cbn in Hl.
    unfold holds in Hs. rewrite slot_at_cons in Hs. cbn [b_kids] in Hs. rewrite Ek in Hs. intros Hok.
    eapply (He _ _ (kid_Some _ _ _ Ek)); eauto. intros [p1 l1] [p2 l2] H1 H2.
    assert (E : (PSub k :: p1, l1) = (PSub k :: p2, l2)) by (apply Hs1; rewrite slot_at_cons; cbn [b_kids]; rewrite Ek; assumption). congruence.
  - rewrite Eo, Es, sub_kid, Ek. cbn [option_map]. rewrite Eb, elems_kid. destruct (Hk _ _ Hh Hs) as (j & t & Ht). destruct pl as [p l]. cbn [fst] in Ht. subst p. cbn [look_in fst snd] in Hl.
    unfold look_in in Hl. cbn [fst snd] in Hl. destruct (item x j) as [x'|] eqn:Ex; [|discriminate].
    unfold holds in Hs. rewrite slot_at_cons in Hs. cbn [b_kids] in Hs. destruct (kid ks (PElem k j)) as [c|] eqn:Ec; [|discriminate]. intros Hok.
    eapply (bl_effect _ _ (elem_ok frame_ok k Hf) (elem_ok effect_ok k He) x 0 st i j c x' t l y); eauto.
    + intros j' y' _. now apply item_plain.
    + now rewrite (kid_elems_kid ks k j lv_kids (lv_kidx k)).
    + intros [p1 l1] [p2 l2] H1 H2.
      assert (E : (PElem k j :: p1, l1) = (PElem k j :: p2, l2)) by (apply Hs1; rewrite slot_at_cons; cbn [b_kids]; rewrite Ec; assumption). congruence.
    + intros j' c' Hc' [[p1 l1] H1]. rewrite (kid_elems_kid ks k j' lv_kids (lv_kidx k)) in Hc'.
      assert (E : (PElem k j' :: p1, l1) = (PElem k j :: t, l)) by (apply Hs1; rewrite slot_at_cons; cbn [b_kids]; [rewrite Hc'|rewrite Ec]; assumption). congruence.
  - unfold holds in Hs. rewrite (Hk pl Hh) in Hs. discriminate.
Qed.
End Level.

(** * The whole tree *)
Lemma dget_In {V} (d : dict V) k x : dget d k = Some x -> In (k, x) d.
Proof. induction d as [|[k' x'] t IH]; cbn [dget]; [discriminate|]. destruct (String.eqb k k') eqn:E; [|now right; auto]. apply String.eqb_eq in E. intros [= ->]. left. congruence. Qed.
Lemma In_dget {V} (d : dict V) k x : NoDup (map fst d) -> In (k, x) d -> dget d k = Some x.
Proof.
  induction d as [|[k' x'] t IH]; cbn [dget map fst]; [intros _ []|]. intros Hn. inversion Hn as [|? ? Hni Hnt]; subst. intros [[= -> ->]|Hi]; [now rewrite String.eqb_refl|].
  destruct (String.eqb k k') eqn:E; [|auto]. apply String.eqb_eq in E. subst. exfalso. apply Hni. change k' with (fst (k', x)). now apply in_map.
Qed.

Theorem assign_main b : wf b -> shaped b ->
  frame_ok (fun v lv st => assign' true b v lv st) b /\ effect_ok (fun v lv st => assign' true b v lv st) b.
Proof.
  induction b as [nm m ls sls ks bls ck IH] using bundle_ind2. intros Hw Hsh.
  assert (Hf : forall s c, In (s, c) ks -> frame_ok (fun v lv st => assign' true c v lv st) c).
  { intros s c Hi. inversion Hw; inversion Hsh; subst. eapply IH; eauto. }
  assert (He : forall s c, In (s, c) ks -> effect_ok (fun v lv st => assign' true c v lv st) c).
  { intros s c Hi. inversion Hw; inversion Hsh; subst. eapply IH; eauto. }
  pose (f := fun c v lv st => assign' true c v lv st).
  split.
  - intros v lv st i Hp H. cbv beta. rewrite assign_B. destruct v as [|z|s|l|d|n]; try reflexivity; [|inversion Hp].
    destruct (plain_no_star d Hp) as [-> ->]. inversion Hp as [| | | |? Hn Hk]; subst. change (fun c v level st => assign' true c v level st) with f. cbv iota.
    pose proof (each_frame (act_multi wr ls sls (fs_of f ks) bls lv) d st i) as HE.
    destruct (each (act_multi wr ls sls (fs_of f ks) bls lv) d st) as [[[r st2] lg] d2] eqn:Eq. cbn [o_st fst snd] in *. apply HE.
    intros k x st' Hi. apply (act_frame nm m ls sls ks bls ck Hw Hsh f Hf); [exact (proj2 (Hk _ _ Hi))|]. intros [p l] Hh Hs.
    specialize (H p l Hs). rewrite look_head, Hh, (In_dget _ _ _ Hn Hi) in H. exact H.
  - intros v lv st i p l y Hp Hs1 Hs Hl. cbv beta. rewrite assign_B. destruct v as [|z|s|l0|d|n]; try (destruct p as [|[|]]; discriminate).
    destruct (plain_no_star d Hp) as [-> ->]. inversion Hp as [| | | |? Hn Hk]; subst. change (fun c v level st => assign' true c v level st) with f. cbv iota. rewrite look_head in Hl.
    destruct (dget d (head (p, l))) as [x|] eqn:Ed; [|discriminate]. apply dget_In in Ed.
    pose proof (each_effect (act_multi wr ls sls (fs_of f ks) bls lv) d st i (head (p, l)) x Hn Ed) as HE.
    destruct (each (act_multi wr ls sls (fs_of f ks) bls lv) d st) as [[[r st2] lg] d2] eqn:Eq. cbn [o_st o_res fst snd] in *. intros ->.
    destruct HE as (st1 & H1 & H2 & H3); [|reflexivity|].
    + intros k' x' st' Hi' Hne. apply (act_frame nm m ls sls ks bls ck Hw Hsh f Hf); [exact (proj2 (Hk _ _ Hi'))|]. intros pl Hh Hpl.
      exfalso. assert (E := Hs1 _ _ Hpl Hs). subst pl. congruence.
    + destruct (act_effect nm m ls sls ks bls ck Hw Hsh f Hf He (head (p, l)) x lv st1 i (p, l) y) as (z & Hz & Hst); auto.
      { exact (proj2 (Hk _ _ Ed)). }
      exists z. rewrite <- H1. split; [exact Hz|]. congruence.
Qed.
End Writes.
