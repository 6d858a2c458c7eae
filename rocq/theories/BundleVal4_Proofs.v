(** Flat dictionaries on trees without bundle lists. *)
From Coq Require Import List String Ascii Bool Arith ZArith Lia.
From Verif Require Import Py Dict_Proofs Bundle_Model Bundle_Spec Bundle_Proofs Bundle4_Proofs BundleVal_Model BundleVal_Spec BundleVal_Proofs BundleVal2_Proofs BundleVal3_Proofs.
Import ListNotations.
Open Scope string_scope.
Open Scope list_scope.

Lemma split_dot_none s : no_char "."%char s -> split_dot s = None.
Proof.
  induction s as [|a t IH]; [reflexivity|]. cbn [no_char split_dot]. intros [Ha Ht]. destruct (Ascii.eqb a ".") eqn:E; [apply Ascii.eqb_eq in E; contradiction|]. now rewrite IH.
Qed.
Lemma split_dot_app h r : no_char "."%char h -> split_dot (h ++ "." ++ r)%string = Some (h, r).
Proof.
  induction h as [|a t IH]; [reflexivity|]. cbn [no_char String.append split_dot]. intros [Ha Ht]. destruct (Ascii.eqb a ".") eqn:E; [apply Ascii.eqb_eq in E; contradiction|].
  cbn [String.append] in IH. now rewrite IH.
Qed.
Lemma split_dot_some s h r : split_dot s = Some (h, r) -> s = (h ++ "." ++ r)%string /\ no_char "."%char h.
Proof.
  revert h. induction s as [|a t IH]; intros h; cbn [split_dot]; [discriminate|]. destruct (Ascii.eqb a ".") eqn:E.
  - intros [= <- <-]. apply Ascii.eqb_eq in E. subst. split; [reflexivity|exact I].
  - destruct (split_dot t) as [[h' r']|]; [|discriminate]. intros [= <- <-]. destruct (IH h' eq_refl) as [-> Hn]. split; [reflexivity|]. split; [|exact Hn]. intros ->. discriminate.
Qed.
Lemma no_char_app c s t : no_char c (s ++ t)%string <-> no_char c s /\ no_char c t.
Proof. induction s as [|a s IH]; cbn [String.append no_char]; [tauto|]. rewrite IH. tauto. Qed.

(** No "*" in a key. *)
Definition key_ok (k : string) : Prop := no_char "*"%char k.
Lemma key_ok_star k : key_ok k -> k <> "*"%string. Proof. intros H ->. destruct H as [H _]. now apply H. Qed.

Lemma NoDup_app' {A} (l1 l2 : list A) : NoDup l1 -> NoDup l2 -> (forall x, In x l1 -> In x l2 -> False) -> NoDup (l1 ++ l2).
Proof.
  intros H1 H2 Hd. induction H1 as [|x l1 Hx H1 IH1]; [exact H2|]. cbn [List.app]. constructor.
  - rewrite in_app_iff. intros [H|H]; [auto|]. apply (Hd x); [now left|exact H].
  - apply IH1. intros y Hy. apply Hd. now right.
Qed.

Section Writes.
Context (wr : pin -> val -> res Z) (usr : nat -> bundle -> store -> res unit * store).
Definition aflat (c : bundle) : assigner := fun v level st => assign wr usr false c v level st.

Lemma aflat_one nm m ls sls ks bls ck k x lv st : key_ok k ->
  let o := act_flat wr ls sls (fs_of aflat ks) bls lv k x st in
  let o' := aflat (B nm m ls sls ks bls ck) (VDict [(k, x)]) lv st in
  o_res o' = o_res o /\ o_st o' = o_st o /\ o_log o' = o_log o /\ o_val o' = VDict [(k, o_val o)].
Proof.
  intros Hk. cbv zeta. unfold aflat. rewrite assign_B. assert (Hn : ~ In "*" (map fst [(k, x)])) by (intros [E|[]]; cbn in E; exact (key_ok_star _ Hk E)).
  destruct (no_star _ Hn) as [-> ->]. cbv beta iota. cbn [each]. fold aflat. set (o := act_flat wr ls sls (fs_of aflat ks) bls lv k x st).
  change (act_flat wr ls sls (fs_of (fun (c : bundle) (v : val) (level : string) (st0 : store) => assign wr usr false c v level st0) ks) bls lv k x st) with o.
  destruct (o_res o) as [u|e]; cbn [o_res o_st o_log o_val]; rewrite ?app_nil_r; [destruct u|]; auto.
Qed.

Section Level.
Context (nm : string) (m : method) (ls : list leaf) (sls : list string) (ks : list (seg * bundle)) (ck : option nat).
Notation b := (B nm m ls sls ks [] ck).
Context (Hw : wf b) (Hsh : shaped b) (Hid : idents b) (Hb : flat_tree b).
Notation act := (act_flat wr ls sls (fs_of aflat ks) []).

(** One entry. *)
Definition efr (c : bundle) : Prop := forall k x lv st i, key_ok k -> (forall p l, holds c (p, l) i -> fkey p l = k -> pick x l = None) ->
  o_st (aflat c (VDict [(k, x)]) lv st) i = st i.
Definition eef (c : bundle) : Prop := forall k x lv st i p l y, key_ok k -> single c i -> holds c (p, l) i -> fkey p l = k -> pick x l = Some y ->
  o_res (aflat c (VDict [(k, x)]) lv st) = Ok tt -> wrote wr st (o_st (aflat c (VDict [(k, x)]) lv st)) i y.
Definition leg (c : bundle) : Prop := wf c /\ shaped c /\ idents c /\ flat_tree c.
Context (Hf : forall s c, In (s, c) ks -> efr c) (He : forall s c, In (s, c) ks -> eef c).

Lemma kid_sub_only s c : kid ks s = Some c -> exists n, s = PSub n /\ ident n.
Proof.
  intros H. apply kid_Some in H. inversion Hb as [? ? ? ? ? ? _ _ H1 H2]; subst. destruct (H1 _ _ H) as (n & -> & _). exists n. split; [reflexivity|].
  inversion Hid as [? ? ? ? ? ? ? Hl Hk]; subst. apply (proj1 (Hk _ _ H)).
Qed.
Lemma leaf_ident l x : leaf_in ls l = Some x -> ident (leaf_name l).
Proof.
  intros H. apply leaf_in_Some in H. destruct H as [Hi E]. inversion Hid as [? ? ? ? ? ? ? Hl Hk]. specialize (Hl _ Hi). rewrite E in Hl. destruct l; exact Hl.
Qed.
Lemma fkey_here p l s k : slot_at b (p, l) = Some s -> fkey p l = k -> no_char "."%char k -> p = [] /\ leaf_name l = k.
Proof.
  intros Hs <- Hk. destruct p as [|sg t]; [auto|]. exfalso. rewrite slot_at_cons in Hs. cbn [b_kids] in Hs. destruct (kid ks sg) as [c|] eqn:E; [|discriminate].
  unfold fkey in Hk. cbn [dotted] in Hk. apply no_char_app in Hk. destruct Hk as [_ [Hd _]]. now apply Hd.
Qed.
Lemma fkey_below p l s h r : slot_at b (p, l) = Some s -> fkey p l = (h ++ "." ++ r)%string -> no_char "."%char h ->
  exists t c, p = PSub h :: t /\ kid ks (PSub h) = Some c /\ slot_at c (t, l) = Some s /\ fkey t l = r.
Proof.
  intros Hs E Hh. assert (E2 : split_dot (fkey p l) = Some (h, r)) by (rewrite E; now apply split_dot_app). destruct p as [|sg t].
  - exfalso. rewrite slot_at_nil in Hs. cbn [b_leaves] in Hs. destruct (leaf_in ls l) as [x|] eqn:El; [|discriminate]. destruct (leaf_ident _ _ El) as (_ & Hd & _). unfold fkey in E2. cbn [dotted leaf_label] in E2.
    rewrite split_dot_none in E2 by exact Hd. discriminate.
  - rewrite slot_at_cons in Hs. cbn [b_kids] in Hs. destruct (kid ks sg) as [c|] eqn:Ek; [|discriminate]. destruct (kid_sub_only _ _ Ek) as (n & -> & (_ & Hn & _)).
    unfold fkey in E2. cbn [dotted seg_label] in E2. rewrite split_dot_app in E2 by exact Hn. injection E2 as -> <-. exists t, c. repeat split; auto.
Qed.

Lemma flat_cases k : (exists s, own ls k = Some s /\ no_char "."%char k) \/ (own ls k = None /\ In k sls /\ ((exists j s, slot_at b ([], LEl k j) = Some s) -> no_char "."%char k)) \/
  (own ls k = None /\ ~ In k sls).
Proof.
  destruct (own ls k) as [s|] eqn:E.
  - left. exists s. split; [reflexivity|]. rewrite own_leaf in E. destruct (leaf_in ls (LSig k)) as [x|] eqn:El; [|discriminate]. apply (leaf_ident _ _ El).
  - right. destruct (in_dec string_dec k sls) as [Hi|Hn]; [left|right; auto]. split; [reflexivity|]. split; [exact Hi|]. intros (j & s & Hs). rewrite slot_at_nil in Hs. cbn [b_leaves] in Hs.
    destruct (leaf_in ls (LEl k j)) as [x|] eqn:El; [|discriminate]. apply (leaf_ident _ _ El).
Qed.

Lemma fact_frame k x lv st i : key_ok k -> (forall p l, holds b (p, l) i -> fkey p l = k -> pick x l = None) -> o_st (act lv k x st) i = st i.
Proof.
  intros Hk H. unfold act_flat. destruct (own ls k) as [s|] eqn:Eo.
  - cbn [just o_st]. apply write_frame. intros ->. rewrite (own_slot nm m ls sls ks [] ck) in Eo. specialize (H [] (LSig k) Eo eq_refl). discriminate.
  - destruct (smem k sls) eqn:Es.
    + cbn [just o_st]. apply sl_frame. intros j s Hj ->. rewrite (els_slot nm m ls sls ks [] ck k j (lv_ids _ _ _ _ _ _ _ Hw) (lv_lidx _ _ _ _ _ _ _ Hsh k)) in Hj. exact (H [] (LEl k j) Hj eq_refl).
    + destruct (split_dot k) as [[h r]|] eqn:Ed; [|reflexivity]. rewrite sub_kid. destruct (kid ks (PSub h)) as [c|] eqn:Ek; cbn [option_map]; [|reflexivity].
      cbn [o_st]. destruct (split_dot_some _ _ _ Ed) as [-> Hh]. apply (Hf _ _ (kid_Some _ _ _ Ek)).
      * apply no_char_app in Hk. destruct Hk as [_ Hk]. apply no_char_app in Hk. apply Hk.
      * intros p l Hp E. apply (H (PSub h :: p) l); [unfold holds; rewrite slot_at_cons; cbn [b_kids]; now rewrite Ek|]. unfold fkey in *. cbn [dotted seg_label]. now rewrite E.
Qed.
Lemma fact_effect k x lv st i p l y : key_ok k -> single b i -> holds b (p, l) i -> fkey p l = k -> pick x l = Some y -> o_res (act lv k x st) = Ok tt ->
  wrote wr st (o_st (act lv k x st)) i y.
Proof.
  intros Hk H1 Hs E Hy. unfold act_flat. destruct (own ls k) as [s|] eqn:Eo.
  - destruct (flat_cases k) as [(s' & _ & Hn)|[(F & _)|(F & _)]]; [|congruence|congruence]. destruct (fkey_here p l _ k Hs E Hn) as [-> E2].
    assert (l = LSig k).
    { destruct l as [n|n j]; cbn [leaf_name] in E2; subst n; [reflexivity|]. exfalso. apply (own_name ls) in Eo. destruct (apart nm m ls sls ks [] ck Hsh k) as (A1 & _ & _). apply (proj1 (A1 Eo)).
      unfold holds in Hs. rewrite slot_at_nil in Hs. cbn [b_leaves] in Hs. destruct (leaf_in ls (LEl k j)) as [w|] eqn:El; [|discriminate]. apply leaf_in_Some in El. destruct El as [Hi Ei].
      inversion Hsh as [? ? ? ? ? ? ? _ _ Hle _ _ _ _]. eapply Hle; eauto. }
    subst l. rewrite (own_slot nm m ls sls ks [] ck) in Eo. unfold holds in Hs. rewrite Hs in Eo. injection Eo as <-. cbn [pick] in Hy. injection Hy as <-. cbn [just o_res o_st]. apply write_effect.
  - destruct (smem k sls) eqn:Es.
    + apply smem_In in Es. assert (Hd : p = [] /\ leaf_name l = k).
      { destruct p as [|sg t]; [auto|]. exfalso. unfold holds in Hs. rewrite slot_at_cons in Hs. cbn [b_kids] in Hs. destruct (kid ks sg) as [c|] eqn:Ek; [|discriminate].
        destruct (kid_sub_only _ _ Ek) as (n & -> & Hn).
        assert (Hno : ~ no_char "."%char k) by (rewrite <- E; unfold fkey; cbn [dotted]; rewrite !no_char_app; cbn; tauto).
        inversion Hb as [? ? ? ? ? ? _ Hsl _ _]. destruct (Hsl k Es) as ((_ & Hd & _) & _). exact (Hno Hd). }
      destruct Hd as [-> E2]. destruct l as [n|n j]; cbn [leaf_name] in E2; subst n.
      * exfalso. unfold holds in Hs. rewrite <- (own_slot nm m ls sls ks [] ck), Eo in Hs. discriminate.
      * cbn [just o_res o_st]. cbn [pick] in Hy. intros Hok. unfold holds in Hs. rewrite <- (els_slot nm m ls sls ks [] ck k j (lv_ids _ _ _ _ _ _ _ Hw) (lv_lidx _ _ _ _ _ _ _ Hsh k)) in Hs.
        eapply sl_effect; eauto. intros j' Hj'. rewrite (els_slot nm m ls sls ks [] ck k j' (lv_ids _ _ _ _ _ _ _ Hw) (lv_lidx _ _ _ _ _ _ _ Hsh k)) in Hj'.
        rewrite (els_slot nm m ls sls ks [] ck k j (lv_ids _ _ _ _ _ _ _ Hw) (lv_lidx _ _ _ _ _ _ _ Hsh k)) in Hs. pose proof (H1 _ _ Hj' Hs) as Ej. congruence.
    + assert (Hp : exists h t c, p = PSub h :: t /\ kid ks (PSub h) = Some c /\ ident h /\ slot_at c (t, l) = Some (SPin i)).
      { destruct p as [|sg t].
        - exfalso. unfold fkey in E. cbn [dotted leaf_label] in E. destruct l as [n|n j]; cbn [leaf_name] in E; subst n.
          + unfold holds in Hs. rewrite <- (own_slot nm m ls sls ks [] ck), Eo in Hs. discriminate.
          + unfold holds in Hs. rewrite slot_at_nil in Hs. cbn [b_leaves] in Hs. destruct (leaf_in ls (LEl k j)) as [w|] eqn:El; [|discriminate]. apply leaf_in_Some in El. destruct El as [Hi Ei].
            inversion Hsh as [? ? ? ? ? ? ? _ _ Hle _ _ _ _]. assert (Hin : In k sls) by (eapply Hle; eauto). apply smem_In in Hin. congruence.
        - unfold holds in Hs. rewrite slot_at_cons in Hs. cbn [b_kids] in Hs. destruct (kid ks sg) as [c|] eqn:Ek; [|discriminate]. destruct (kid_sub_only _ _ Ek) as (n & -> & Hn). exists n, t, c. auto. }
      destruct Hp as (h & t & c & -> & Ek & (Hne & Hn & Hbr) & Hsc). unfold fkey in E. cbn [dotted seg_label] in E. fold (fkey t l) in E. subst k. rewrite split_dot_app by exact Hn. rewrite sub_kid, Ek. cbn [option_map o_res o_st].
      apply (He _ _ (kid_Some _ _ _ Ek)) with (p := t) (l := l).
      * apply no_char_app in Hk. destruct Hk as [_ Hk]. apply no_char_app in Hk. apply Hk.
      * intros [p1 l1] [p2 l2] A1 A2. assert (F : (PSub h :: p1, l1) = (PSub h :: p2, l2)).
        { apply H1; unfold holds; rewrite slot_at_cons; cbn [b_kids]; now rewrite Ek. }
        congruence.
      * exact Hsc.
      * reflexivity.
      * exact Hy.
Qed.
End Level.

Lemma leg_kid nm m ls sls ks bls ck s c : leg (B nm m ls sls ks bls ck) -> In (s, c) ks -> leg c.
Proof.
  intros (H1 & H2 & H3 & H4) Hi. inversion H1; subst. inversion H2; subst. inversion H3 as [? ? ? ? ? ? ? _ Hk]; subst. inversion H4; subst. split; [eauto|]. split; [eauto|]. split; [apply (Hk _ _ Hi)|eauto].
Qed.
Lemma flat_entry b : leg b -> efr b /\ eef b.
Proof.
  induction b as [nm m ls sls ks bls ck IH] using bundle_ind2. intros Hl. pose proof Hl as (Hw & Hsh & Hid & Hb).
  assert (bls = []) by (inversion Hb; reflexivity). subst bls.
  assert (Hf : forall s c, In (s, c) ks -> efr c) by (intros s c Hi; apply (IH _ _ Hi (leg_kid _ _ _ _ _ _ _ _ _ Hl Hi))).
  assert (He : forall s c, In (s, c) ks -> eef c) by (intros s c Hi; apply (IH _ _ Hi (leg_kid _ _ _ _ _ _ _ _ _ Hl Hi))).
  split.
  - intros k x lv st i Hk H. destruct (aflat_one nm m ls sls ks [] ck k x lv st Hk) as (_ & -> & _). apply (fact_frame nm m ls sls ks ck Hw Hsh Hf k x lv st i Hk H).
  - intros k x lv st i p l y Hk H1 H2 H3 H4. destruct (aflat_one nm m ls sls ks [] ck k x lv st Hk) as (-> & -> & _). apply (fact_effect nm m ls sls ks ck Hw Hsh Hid Hb He k x lv st i p l y Hk H1 H2 H3 H4).
Qed.

Theorem flat_main b d lv st i : leg b -> NoDup (map fst d) -> (forall k x, In (k, x) d -> key_ok k) ->
  ((forall p l, holds b (p, l) i -> flook d p l = None) -> o_st (aflat b (VDict d) lv st) i = st i) /\
  (forall p l y, single b i -> holds b (p, l) i -> flook d p l = Some y -> o_res (aflat b (VDict d) lv st) = Ok tt -> wrote wr st (o_st (aflat b (VDict d) lv st)) i y).
Proof.
  intros Hl Hn Hk. destruct b as [nm m ls sls ks bls ck]. pose proof Hl as (Hw & Hsh & Hid & Hb). assert (bls = []) by (inversion Hb; reflexivity). subst bls.
  assert (Hf : forall s c, In (s, c) ks -> efr c) by (intros s c Hi; apply flat_entry, (leg_kid _ _ _ _ _ _ _ _ _ Hl Hi)).
  assert (He : forall s c, In (s, c) ks -> eef c) by (intros s c Hi; apply flat_entry, (leg_kid _ _ _ _ _ _ _ _ _ Hl Hi)).
  assert (Hs : ~ In "*" (map fst d)).
  { intros Hi. apply in_map_iff in Hi. destruct Hi as [[k x] [E Hi]]. cbn in E. subst. exact (key_ok_star _ (Hk _ _ Hi) eq_refl). }
  unfold aflat. rewrite assign_B. destruct (no_star d Hs) as [-> ->]. cbv beta iota. fold aflat.
  change (fs_of (fun (c : bundle) (v : val) (level : string) (st0 : store) => assign wr usr false c v level st0) ks) with (fs_of aflat ks).
  pose proof (each_frame (act_flat wr ls sls (fs_of aflat ks) [] lv) d st i) as EF. pose proof (each_effect (act_flat wr ls sls (fs_of aflat ks) [] lv) d st i) as EE.
  destruct (each _ d st) as [[[r st2] lg] d2]. cbn [fst snd o_st o_res] in *. split.
  - intros H. apply EF. intros k x st' Hi. apply (fact_frame nm m ls sls ks ck Hw Hsh Hf); [eauto|]. intros p l Hp E. specialize (H p l Hp). unfold flook in H. rewrite E, (In_dget _ _ _ Hn Hi) in H. exact H.
  - intros p l y H1 H2 H3 Hok. unfold flook in H3. destruct (dget d (fkey p l)) as [x|] eqn:E; [|discriminate]. pose proof (dget_In _ _ _ E) as Hi.
    destruct (EE (fkey p l) x Hn Hi) as (st1 & E1 & E2 & E3); [|exact Hok|].
    + intros k' x' st' Hi' Hne. apply (fact_frame nm m ls sls ks ck Hw Hsh Hf); [eauto|]. intros p' l' Hp' E'. pose proof (H1 _ _ Hp' H2) as F. injection F as -> ->. congruence.
    + destruct (fact_effect nm m ls sls ks ck Hw Hsh Hid Hb He (fkey p l) x lv st1 i p l y (Hk _ _ Hi) H1 H2 eq_refl H3 E2) as (z & Hz & F). exists z. rewrite E3, <- E1. auto.
Qed.

(** * What as_dict says *)
Definition flat_all (st : store) := fix go (ks : list (seg * bundle)) : list (seg * res (list (string * val))) :=
  match ks with [] => [] | (s, c) :: t => (s, as_dict_flat c st) :: go t end.
Lemma flat_all_map st ks : flat_all st ks = map (fun x => (fst x, as_dict_flat (snd x) st)) ks.
Proof. induction ks as [|[s c] t IH]; [reflexivity|]. cbn [flat_all map fst snd]. fold (flat_all st). now rewrite IH. Qed.
Lemma flat_B nm m ls sls ks bls ck st : as_dict_flat (B nm m ls sls ks bls ck) st =
  rbind (own_values ls st) (fun d1 => rbind (list_values ls sls st) (fun d2 =>
  rbind (flat_kids (map (fun x => (fst x, as_dict_flat (snd x) st)) ks)) (fun d3 => Ok (d1 ++ d2 ++ d3)))).
Proof. rewrite <- flat_all_map. reflexivity. Qed.
Definition pre (h : string) (d : list (string * val)) : list (string * val) := map (fun kv => ((h ++ "." ++ fst kv)%string, snd kv)) d.

Lemma flat_kids_in st ks d : flat_kids (map (fun x => (fst x, as_dict_flat (snd x) st)) ks) = Ok d -> forall k x,
  In (k, x) d <-> exists s c dc k', In (s, c) ks /\ as_dict_flat c st = Ok dc /\ In (k', x) dc /\ k = (seg_label s ++ "." ++ k')%string.
Proof.
  revert d. induction ks as [|[s c] t IH]; intros d; cbn [map fst snd flat_kids].
  - intros [= <-] k x. split; [intros []|]. intros (s & c & dc & k' & [] & _).
  - destruct (as_dict_flat c st) as [dc|] eqn:Ec; cbn [rbind]; [|discriminate]. destruct (flat_kids _) as [dt|]; cbn [rbind]; [|discriminate]. intros [= <-] k x. rewrite in_app_iff, (IH dt eq_refl). split.
    + intros [H|(s' & c' & dc' & k' & Hi & H)]; [|exists s', c', dc', k'; split; [now right|exact H]]. apply in_map_iff in H. destruct H as ([k' x'] & E & Hi). cbn [fst snd] in E. injection E as <- <-.
      exists s, c, dc, k'. split; [now left|auto].
    + intros (s' & c' & dc' & k' & [[= <- <-]|Hi] & H1 & H2 & ->); [left|right; exists s', c', dc', k'; auto]. rewrite Ec in H1. injection H1 as <-. apply in_map_iff. exists (k', x). auto.
Qed.
Lemma sapp_inj2 a b c : (a ++ b = a ++ c)%string -> b = c.
Proof. induction a as [|x a IH]; cbn [String.append]; [auto|]. intros [= H]. auto. Qed.
Lemma dot_inj h h' r r' : no_char "."%char h -> no_char "."%char h' -> (h ++ "." ++ r = h' ++ "." ++ r')%string -> h = h' /\ r = r'.
Proof. intros H H' E. apply (f_equal split_dot) in E. rewrite !split_dot_app in E by assumption. injection E as -> ->. auto. Qed.
Lemma flat_kids_nodup st ks d : NoDup (map fst ks) -> (forall s c, In (s, c) ks -> exists n, s = PSub n /\ no_char "."%char n) ->
  (forall s c dc, In (s, c) ks -> as_dict_flat c st = Ok dc -> NoDup (map fst dc)) ->
  flat_kids (map (fun x => (fst x, as_dict_flat (snd x) st)) ks) = Ok d -> NoDup (map fst d).
Proof.
  revert d. induction ks as [|[s c] t IH]; intros d Hn Hs Hc H.
  - cbn in H. injection H as <-. constructor.
  - cbn [map fst snd flat_kids] in H, Hn. destruct (as_dict_flat c st) as [dc|] eqn:Ec; cbn [rbind] in H; [|discriminate]. destruct (flat_kids _) as [dt|] eqn:Et; cbn [rbind] in H; [|discriminate]. injection H as <-.
    inversion Hn as [|? ? Hni Hnt]; subst. destruct (Hs s c (or_introl eq_refl)) as (n & -> & Hnd). rewrite map_app, map_map. cbn [fst].
    apply NoDup_app'.
    + pose proof (Hc _ _ _ (or_introl eq_refl) Ec) as Hd. clear - Hd. induction dc as [|[k x] dc IH]; [constructor|]. cbn [map fst] in *. inversion Hd as [|? ? Hi Hd']; subst. constructor; [|auto].
      intros Hin. apply Hi. apply in_map_iff in Hin. destruct Hin as ([k' x'] & E & Hin). cbn [fst] in E. apply sapp_inj2 in E. injection E as ->. change k with (fst (k, x')). now apply in_map.
    + apply (IH dt); auto; [intros s' c' Hi; apply (Hs s' c'); now right|intros s' c' dc' Hi; apply (Hc s' c'); now right].
    + intros k Hk1 Hk2. apply in_map_iff in Hk1. destruct Hk1 as ([k1 x1] & <- & _). apply in_map_iff in Hk2. destruct Hk2 as ([k2 x2] & E & Hk2). cbn [fst] in E.
      apply (flat_kids_in _ _ _ Et) in Hk2. destruct Hk2 as (s' & c' & dc' & k' & Hi & _ & _ & ->). destruct (Hs s' c' (or_intror Hi)) as (n' & -> & Hnd'). cbn [seg_label] in E.
      apply dot_inj in E; [|assumption|assumption]. destruct E as [-> _]. apply Hni. change (PSub n) with (fst (PSub n, c')). now apply in_map.
Qed.

Lemma list_values_keys ls sls st d : list_values ls sls st = Ok d -> map fst d = sls.
Proof.
  intros H. unfold list_values in H. destruct (list_spec (fun n => n) (fun n => all_ok (map (read_slot st) (els ls n))) _ _ H) as [K _]. now rewrite map_id in K.
Qed.
Lemma no_dot_own ls k : (forall l, In l ls -> leafid_ok (l_id l)) -> In k (own_names ls) -> no_char "."%char k.
Proof.
  intros Hl H. unfold own_names in H. apply in_flat_map in H. destruct H as (x & Hx & H). specialize (Hl _ Hx). destruct (l_id x) as [n|n j]; [|destruct H]. destruct H as [<-|[]]. apply Hl.
Qed.

Lemma flat_nodup b : leg b -> forall st d, as_dict_flat b st = Ok d -> NoDup (map fst d) /\ (forall k x, In (k, x) d -> key_ok k).
Proof.
  induction b as [nm m ls sls ks bls ck IH] using bundle_ind2. intros Hl st d. pose proof Hl as (Hw & Hsh & Hid & Hb). rewrite flat_B.
  inversion Hw as [? ? ? ? ? ? ? Hni Hnn Hnk Hwk]; subst. inversion Hsh as [? ? ? ? ? ? ? Hnd Hstar Hle Hke Hli Hki Hshk]; subst.
  inversion Hid as [? ? ? ? ? ? ? Hil Hik]; subst. inversion Hb as [? ? ? ? ? ? Hfl Hfs Hfk Hft]; subst.
  destruct (own_values ls st) as [d1|] eqn:E1; cbn [rbind]; [|discriminate]. destruct (list_values ls sls st) as [d2|] eqn:E2; cbn [rbind]; [|discriminate].
  destruct (flat_kids _) as [d3|] eqn:E3; cbn [rbind]; [|discriminate]. intros [= <-].
  destruct (own_values_spec _ _ _ (NoDup_app_l' _ _ Hnd) E1) as [K1 _]. pose proof (list_values_keys _ _ _ _ E2) as K2.
  assert (Hks : forall s c, In (s, c) ks -> exists n, s = PSub n /\ no_char "."%char n /\ no_char "*"%char n).
  { intros s c Hi. destruct (Hfk _ _ Hi) as (n & -> & Hn). exists n. split; [reflexivity|]. destruct (Hik _ _ Hi) as [(_ & Hd & _) _]. auto. }
  assert (Hnd12 : forall k, In k (own_names ls) \/ In k sls -> no_char "."%char k /\ no_char "*"%char k).
  { intros k [Hi|Hi]; [|destruct (Hfs _ Hi) as ((_ & A & _) & B'); auto]. split; [eapply no_dot_own; eauto|]. unfold own_names in Hi. apply in_flat_map in Hi. destruct Hi as (x & Hx & Hi). specialize (Hfl _ Hx).
    destruct (l_id x) as [n|n j]; [|destruct Hi]. destruct Hi as [<-|[]]. exact Hfl. }
  split.
  - rewrite !map_app, K1, K2, app_assoc. rewrite app_assoc in Hnd. apply NoDup_app'.
    + exact (NoDup_app_l' _ _ Hnd).
    + eapply flat_kids_nodup; [exact Hnk| | |exact E3].
      * intros s c Hi. destruct (Hks _ _ Hi) as (n & -> & Hn & _). eauto.
      * intros s c dc Hi Hc. apply (IH _ _ Hi (leg_kid _ _ _ _ _ _ _ _ _ Hl Hi) st dc Hc).
    + intros k Hk1 Hk2. apply in_app_iff in Hk1. destruct (Hnd12 _ Hk1) as [Hd _]. apply in_map_iff in Hk2. destruct Hk2 as ([k2 x2] & E & Hk2). cbn [fst] in E. subst k2.
      apply (flat_kids_in _ _ _ E3) in Hk2. destruct Hk2 as (s' & c' & dc' & k' & _ & _ & _ & ->). apply no_char_app in Hd. destruct Hd as [_ [Hd _]]. now apply Hd.
  - intros k x Hi. rewrite app_assoc in Hi. apply in_app_iff in Hi. destruct Hi as [Hi|Hi].
    + apply Hnd12. apply (in_map fst) in Hi. rewrite map_app, K1, K2 in Hi. now apply in_app_iff in Hi.
    + apply (flat_kids_in _ _ _ E3) in Hi. destruct Hi as (s & c & dc & k' & Hin & Hc & Hk' & ->). destruct (Hks _ _ Hin) as (n & -> & _ & Hn). unfold key_ok. rewrite !no_char_app. split; [exact Hn|]. split; [cbn; split; [discriminate|exact I]|].
      apply (proj2 (IH _ _ Hin (leg_kid _ _ _ _ _ _ _ _ _ Hl Hin) st dc Hc) _ _ Hk').
Qed.

(** Every place is said to hold what it reads. *)
Lemma flat_look b : leg b -> forall st d, as_dict_flat b st = Ok d -> forall p l s, slot_at b (p, l) = Some s ->
  exists x, read_slot st s = Ok x /\ flook d p l = Some x.
Proof.
  induction b as [nm m ls sls ks bls ck IH] using bundle_ind2. intros Hl st d Hd p l s Hs. destruct (flat_nodup _ Hl st d Hd) as [Hnod _]. pose proof Hl as (Hw & Hsh & Hid & Hb). rewrite flat_B in Hd.
  inversion Hw as [? ? ? ? ? ? ? Hni Hnn Hnk Hwk]; subst. inversion Hsh as [? ? ? ? ? ? ? Hnd Hstar Hle Hke Hli Hki Hshk]; subst.
  inversion Hid as [? ? ? ? ? ? ? Hil Hik]; subst. inversion Hb as [? ? ? ? ? ? Hfl Hfs Hfk Hft]; subst.
  destruct (own_values ls st) as [d1|] eqn:E1; cbn [rbind] in Hd; [|discriminate]. destruct (list_values ls sls st) as [d2|] eqn:E2; cbn [rbind] in Hd; [|discriminate].
  destruct (flat_kids _) as [d3|] eqn:E3; cbn [rbind] in Hd; [|discriminate]. injection Hd as <-.
  destruct (own_values_spec _ _ _ (NoDup_app_l' _ _ Hnd) E1) as [K1 V1]. unfold list_values in E2.
  destruct (list_spec (fun n => n) (fun n => all_ok (map (read_slot st) (els ls n))) _ _ E2) as [K2 V2]. rewrite map_id in *. specialize (V2 (NoDup_app_l' _ _ (NoDup_app_r _ _ Hnd))).
  destruct p as [|sg t].
  - destruct l as [n|n j].
    + pose proof Hs as Ho. rewrite <- (own_slot nm m ls sls ks [] ck) in Ho. destruct (V1 _ _ Ho) as (x & Hr & Hg). exists x. split; [exact Hr|]. unfold flook, fkey. cbn [dotted leaf_label leaf_name pick]. now rewrite dget_app, Hg.
    + assert (Hin : In n sls).
      { rewrite slot_at_nil in Hs. cbn [b_leaves] in Hs. destruct (leaf_in ls (LEl n j)) as [w|] eqn:El; [|discriminate]. apply leaf_in_Some in El. destruct El. eauto. }
      destruct (V2 _ Hin) as (xs & Hr & Hg). apply all_ok_Some in Hr. apply Forall2_map_l in Hr. pose proof (Forall2_nth _ _ _ Hr j) as Hj.
      rewrite (els_slot nm m ls sls ks [] ck n j Hni (Hli n)), Hs in Hj. destruct (nth_error xs j) as [x|] eqn:Ex; [|contradiction]. exists x. split; [exact Hj|].
      unfold flook, fkey. cbn [dotted leaf_label leaf_name]. rewrite dget_app. replace (dget d1 n) with (@None val).
      2:{ symmetry. apply dget_None. rewrite K1. intros Hi. eapply NoDup_apart; [exact Hnd|exact Hi|apply in_app_iff; auto]. }
      rewrite dget_app, Hg. cbn [pick]. unfold item. cbn [vidx]. now rewrite Ex.
  - rewrite slot_at_cons in Hs. cbn [b_kids] in Hs. destruct (kid ks sg) as [c|] eqn:Ek; [|discriminate]. pose proof (kid_Some _ _ _ Ek) as Hin. destruct (Hfk _ _ Hin) as (n & -> & _).
    assert (Edc : exists dc, as_dict_flat c st = Ok dc).
    { clear - E3 Hin. revert d3 E3. induction ks as [|[s' c'] t IH]; intros d3 E3; [destruct Hin|]. cbn [map fst snd flat_kids] in E3. destruct (as_dict_flat c' st) as [dc|] eqn:Ec; cbn [rbind] in E3; [|discriminate].
      destruct (flat_kids _) as [dt|] eqn:Et; [|discriminate]. destruct Hin as [[= -> ->]|Hin]; [eauto|]. eapply IH; eauto. }
    destruct Edc as [dc Edc]. destruct (IH _ _ Hin (leg_kid _ _ _ _ _ _ _ _ _ Hl Hin) st dc Edc t l s Hs) as (x & Hr & Hlk). exists x. split; [exact Hr|].
    unfold flook in *. unfold fkey in *. cbn [dotted seg_label]. destruct (dget dc (dotted t (LSig (leaf_name l)))) as [y|] eqn:Ey; [|discriminate].
    rewrite (In_dget _ (n ++ "." ++ dotted t (LSig (leaf_name l)))%string y Hnod); [exact Hlk|]. rewrite !in_app_iff. right. right. apply (flat_kids_in _ _ _ E3). exists (PSub n), c, dc, (dotted t (LSig (leaf_name l))).
    split; [exact Hin|]. split; [exact Edc|]. split; [now apply dget_In|reflexivity].
Qed.

(** Assigning what was read succeeds. *)
Lemma flat_fine (Inv : store -> Prop) b : leg b -> forall st0 d0, as_dict_flat b st0 = Ok d0 -> forall k x lv st, In (k, x) d0 ->
  (forall p l s y, slot_at b (p, l) = Some s -> fkey p l = k -> pick x l = Some y -> can wr Inv s y) -> Inv st ->
  fine Inv (aflat b (VDict [(k, x)]) lv st) (VDict [(k, x)]).
Proof.
  induction b as [nm m ls sls ks bls ck IH] using bundle_ind2. intros Hl st0 d0 Hd k x lv st Hkx Hg Hi. destruct (flat_nodup _ Hl st0 d0 Hd) as [Hnod Hkeys]. pose proof Hl as (Hw & Hsh & Hid & Hb). rewrite flat_B in Hd.
  inversion Hw as [? ? ? ? ? ? ? Hni Hnn Hnk Hwk]; subst. inversion Hsh as [? ? ? ? ? ? ? Hnd Hstar Hle Hke Hli Hki Hshk]; subst.
  inversion Hid as [? ? ? ? ? ? ? Hil Hik]; subst. inversion Hb as [? ? ? ? ? ? Hfl Hfs Hfk Hft]; subst.
  destruct (own_values ls st0) as [d1|] eqn:E1; cbn [rbind] in Hd; [|discriminate]. destruct (list_values ls sls st0) as [d2|] eqn:E2; cbn [rbind] in Hd; [|discriminate].
  destruct (flat_kids _) as [d3|] eqn:E3; cbn [rbind] in Hd; [|discriminate]. injection Hd as <-.
  destruct (own_values_spec _ _ _ (NoDup_app_l' _ _ Hnd) E1) as [K1 V1]. unfold list_values in E2.
  destruct (list_spec (fun n => n) (fun n => all_ok (map (read_slot st0) (els ls n))) _ _ E2) as [K2 V2]. rewrite map_id in *. specialize (V2 (NoDup_app_l' _ _ (NoDup_app_r _ _ Hnd))).
  pose proof (Hkeys _ _ Hkx) as Hko. destruct (aflat_one nm m ls sls ks [] ck k x lv st Hko) as (A1 & A2 & A3 & A4). unfold fine. rewrite A1, A2, A3, A4.
  assert (G : fine Inv (act_flat wr ls sls (fs_of aflat ks) [] lv k x st) x); [|destruct G as (-> & -> & -> & G); repeat split; exact G].
  clear A1 A2 A3 A4. unfold act_flat. rewrite !in_app_iff in Hkx. destruct Hkx as [Hkx|[Hkx|Hkx]].
  - assert (Hin : In k (own_names ls)) by (rewrite <- K1; change k with (fst (k, x)); now apply in_map).
    destruct (own ls k) as [s|] eqn:Eo; [|exfalso; clear - Hin Eo; unfold own_names in Hin; apply in_flat_map in Hin; destruct Hin as (w & Hw & Hin); destruct (l_id w) as [n|n j] eqn:Ew; [|destruct Hin]; destruct Hin as [<-|[]];
      induction ls as [|a t IHl]; [destruct Hw|]; cbn [own] in Eo; destruct Hw as [<-|Hw]; [rewrite Ew, String.eqb_refl in Eo; discriminate|]; destruct (l_id a) as [n'|n' j']; [destruct (String.eqb n n'); [discriminate|auto]|auto]].
    destruct (V1 _ _ Eo) as (y & Hr & Hgt). assert (y = x).
    { pose proof (In_dget d1 k x) as H. rewrite K1 in H. specialize (H (NoDup_app_l' _ _ Hnd) Hkx). congruence. }
    subst y. assert (Hrs : readable s) by (apply (read_ok st0); eauto). destruct (write_fine wr Inv s x st Hrs) as [G1 G2]; [|exact Hi|].
    { rewrite (own_slot nm m ls sls ks [] ck) in Eo. apply (Hg [] (LSig k) s x Eo); reflexivity. }
    split; [exact G1|]. split; [reflexivity|]. split; [reflexivity|exact G2].
  - assert (Hin : In k sls) by (rewrite <- K2; change k with (fst (k, x)); now apply in_map).
    destruct (own ls k) as [s|] eqn:Eo.
    { exfalso. apply (own_name ls) in Eo. eapply NoDup_apart; [exact Hnd|exact Eo|apply in_app_iff; auto]. }
    pose proof (proj2 (smem_In k sls) Hin) as Es. rewrite Es. destruct (V2 _ Hin) as (xs & Hr & Hgt). assert (x = VList xs).
    { pose proof (In_dget d2 k x) as H. rewrite K2 in H. specialize (H (NoDup_app_l' _ _ (NoDup_app_r _ _ Hnd)) Hkx). congruence. }
    subst x. apply all_ok_Some in Hr. apply Forall2_map_l in Hr. unfold sl_assign. cbn [vlen]. rewrite <- (Forall2_len _ _ _ Hr), Nat.eqb_refl.
    destruct (write_list_fine wr Inv (els ls k) (VList xs) 0 st) as [G1 G2]; [| |exact Hi|].
    + intros s Hs. apply In_nth_error in Hs. destruct Hs as [j Hj]. pose proof (Forall2_nth _ _ _ Hr j) as H. rewrite Hj in H. destruct (nth_error xs j) as [y|]; [|contradiction]. apply (read_ok st0). eauto.
    + intros j s Hj. pose proof (Forall2_nth _ _ _ Hr j) as H. rewrite Hj in H. destruct (nth_error xs j) as [y|] eqn:Ey; [|contradiction]. exists y. cbn [vidx Nat.add]. rewrite Ey. split; [reflexivity|].
      rewrite (els_slot nm m ls sls ks [] ck k j Hni (Hli k)) in Hj. apply (Hg [] (LEl k j) s y Hj); [reflexivity|]. cbn [pick]. unfold item. cbn [vidx]. now rewrite Ey.
    + split; [exact G1|]. split; [reflexivity|]. split; [reflexivity|exact G2].
  - apply (flat_kids_in _ _ _ E3) in Hkx. destruct Hkx as (s & c & dc & k' & Hin & Hc & Hk' & ->). destruct (Hfk _ _ Hin) as (n & -> & _). destruct (Hik _ _ Hin) as [(_ & Hnd' & _) _]. cbn [seg_label] in *.
    assert (Hnot : ~ no_char "."%char (n ++ "." ++ k')%string) by (rewrite !no_char_app; cbn; tauto).
    destruct (own ls _) as [s|] eqn:Eo; [exfalso; apply (own_name ls) in Eo; apply Hnot; eapply no_dot_own; eauto|].
    destruct (smem _ sls) eqn:Es; [exfalso; apply smem_In in Es; apply Hnot; destruct (Hfs _ Es) as ((_ & A & _) & _); exact A|].
    rewrite split_dot_app by exact Hnd'. rewrite sub_kid. rewrite (kid_In _ _ _ Hnk Hin). cbn [option_map].
    destruct (IH _ _ Hin (leg_kid _ _ _ _ _ _ _ _ _ Hl Hin) st0 dc Hc k' x (append_level lv n) st Hk') as (G1 & G2 & G3 & G4); [|exact Hi|].
    + intros p l s y Hs E Hy. apply (Hg (PSub n :: p) l s y); [rewrite slot_at_cons; cbn [b_kids]; now rewrite (kid_In _ _ _ Hnk Hin)|unfold fkey in *; cbn [dotted seg_label]; now rewrite E|exact Hy].
    + unfold fine. cbn [o_res o_st o_log o_val]. rewrite G1, G2, G3. repeat split; exact G4.
Qed.
Lemma flat_all_fine (Inv : store -> Prop) b st0 d0 lv st : leg b -> as_dict_flat b st0 = Ok d0 ->
  (forall p l s y, slot_at b (p, l) = Some s -> flook d0 p l = Some y -> can wr Inv s y) -> Inv st -> fine Inv (aflat b (VDict d0) lv st) (VDict d0).
Proof.
  intros Hl Hd Hg Hi. destruct (flat_nodup _ Hl st0 d0 Hd) as [Hnod Hkeys]. pose proof (flat_fine Inv b Hl st0 d0 Hd) as HF. destruct b as [nm m ls sls ks bls ck].
  assert (Hs : ~ In "*" (map fst d0)).
  { intros Hi'. apply in_map_iff in Hi'. destruct Hi' as [[k x] [E Hi']]. cbn in E. subst. exact (key_ok_star _ (Hkeys _ _ Hi') eq_refl). }
  destruct (each_fine Inv (act_flat wr ls sls (fs_of aflat ks) bls lv) d0 st) as (st2 & E & H2); [|exact Hi|].
  - intros k x st' Hkx Hi'. destruct (aflat_one nm m ls sls ks bls ck k x lv st' (Hkeys _ _ Hkx)) as (A1 & A2 & A3 & A4).
    destruct (HF k x lv st' Hkx) as (G1 & G2 & G3 & G4); [|exact Hi'|].
    + intros p l s y Hs' E Hy. apply (Hg p l s y Hs'). unfold flook. rewrite E, (In_dget _ _ _ Hnod Hkx). exact Hy.
    + rewrite A1 in G1. rewrite A3 in G2. rewrite A4 in G3. rewrite A2 in G4. injection G3 as G3. repeat split; assumption.
  - unfold aflat. rewrite assign_B. destruct (no_star d0 Hs) as [-> ->]. cbv beta iota. unfold aflat in E. rewrite E. repeat split; exact H2.
Qed.
End Writes.
