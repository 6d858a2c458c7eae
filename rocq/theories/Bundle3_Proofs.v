(** Lemmas about rebinding, specific detection, enumeration and rules. *)
From Coq Require Import List String Ascii Bool Arith ZArith Lia Permutation Decimal DecimalString DecimalNat.
From Verif Require Import Py Bundle_Model Bundle_Spec Bundle_Proofs Bundle2_Proofs.
Import ListNotations.
Open Scope string_scope.
Open Scope list_scope.

(** * The tree without what it holds *)
Definition erase_leaf (l : leaf) : leaf := mk_leaf (l_id l) (l_name l) (l_decl l) SAbsent.
Fixpoint erase (b : bundle) : bundle :=
  match b with
  | B nm m ls sls ks bls ck => B nm m (map erase_leaf ls) sls (map (fun x => (fst x, erase (snd x))) ks) bls None
  end.
Lemma erase_ids ls : map l_id (map erase_leaf ls) = map l_id ls.
Proof. rewrite map_map. reflexivity. Qed.
Lemma erase_names ls : map l_name (map erase_leaf ls) = map l_name ls.
Proof. rewrite map_map. reflexivity. Qed.
Lemma erase_fst ks : map fst (map (fun x : seg * bundle => (fst x, erase (snd x))) ks) = map fst ks.
Proof. rewrite map_map. reflexivity. Qed.
Lemma erase_route b : forall s, route (erase b) s = route b s.
Proof.
  induction b as [nm m ls sls ks bls ck IH] using bundle_ind2. intros s. cbn [erase]. rewrite !route_B.
  destruct (translate m s) as [n|]; [|reflexivity].
  assert (H : leaf_of (map erase_leaf ls) n = leaf_of ls n).
  { clear. induction ls as [|l t IH]; [reflexivity|]. cbn [map leaf_of erase_leaf l_name l_id]. now rewrite IH. }
  rewrite H. destruct (leaf_of ls n); [reflexivity|]. clear H. induction ks as [|[sg c] t IHt]; [reflexivity|].
  cbn [map fst snd route_kids]. fold (route_kids n). rewrite (IH sg c (or_introl eq_refl)), IHt; [reflexivity|].
  intros s0 c0 H0. apply (IH s0 c0). now right.
Qed.
Lemma erase_wf b : wf (erase b) <-> wf b.
Proof.
  induction b as [nm m ls sls ks bls ck IH] using bundle_ind2. cbn [erase]. split; intros H; inversion H as [? ? ? ? ? ? ? H1 H2 H3 H4]; subst.
  - rewrite erase_ids in H1. rewrite erase_names in H2. rewrite erase_fst in H3. constructor; auto.
    intros s c Hi. apply (IH _ _ Hi). apply (H4 s). apply in_map_iff. exists (s, c). auto.
  - constructor; rewrite ?erase_ids, ?erase_names, ?erase_fst; auto. intros s c Hi. apply in_map_iff in Hi.
    destruct Hi as [[s0 c0] [[= <- <-] Hi]]. apply (IH _ _ Hi). eauto.
Qed.
Lemma erase_places b : places (erase b) = places b.
Proof.
  induction b as [nm m ls sls ks bls ck IH] using bundle_ind2. cbn [erase]. rewrite !places_B, map_map. cbn [erase_leaf l_id]. f_equal.
  induction ks as [|[sg c] t IHt]; [reflexivity|]. cbn [map fst snd places_kids]. fold places_kids.
  rewrite (IH sg c (or_introl eq_refl)), IHt; [reflexivity|]. intros s0 c0 H0. apply (IH s0 c0). now right.
Qed.

Lemma erase_leaves_F2 R ls ls1 : Forall2 R ls ls1 -> (forall x y, R x y -> same_leaf x y) -> map erase_leaf ls1 = map erase_leaf ls.
Proof.
  intros H HR. induction H as [|x y l1 l2 H1 H2 IH]; [reflexivity|]. cbn [map]. rewrite IH. f_equal.
  destruct (HR _ _ H1) as (Ha & Hb & Hc). unfold erase_leaf. congruence.
Qed.

Lemma bind_erase acc b : wf b -> forall stack es st b1 st1 rest,
  bind_b acc stack b es st = Ok (b1, st1, rest) -> erase b1 = erase b.
Proof.
  induction b as [nm m ls sls ks bls ck IH] using bundle_ind2. intros Hwf stack es st b1 st1 rest.
  rewrite bind_B. cbv zeta. set (stack1 := stack ++ _). set (h := bind_here m es ls ck st).
  inversion Hwf as [? ? ? ? ? ? ? Hni Hnn Hnk Hwk]; subst.
  destruct (missing acc stack1 (h_conn h) (h_ls h)) as [ls1|] eqn:Em; [|discriminate].
  assert (Hls := level_ls _ _ _ _ _ _ _ _ Hnn Em).
  assert (HK : forall ks' es' st' ck' ks1 st1 rest1 ck1, incl ks' ks ->
    bind_kids acc stack1 ks' es' st' ck' = Ok (ks1, st1, rest1, ck1) ->
    map (fun x => (fst x, erase (snd x))) ks1 = map (fun x => (fst x, erase (snd x))) ks').
  { induction ks' as [|[s c] t IHt]; intros es' st' ck' ks1 st1' rest1 ck1 Hsub; cbn [bind_kids]; [intros [= <- _ _ _]; reflexivity|].
    destruct (bind_b acc stack1 c es' st') as [[[c1 stc] esc]|] eqn:Ec; [|discriminate]. fold (bind_kids acc stack1).
    destruct (bind_kids acc stack1 t esc stc (next_clk s (b_clk c1) ck')) as [[[[t1 stt] est] ckt]|] eqn:Et; [|discriminate].
    intros [= <- _ _ _]. assert (Hin : In (s, c) ks) by (apply Hsub; now left). cbn [map fst snd].
    rewrite (IH _ _ Hin (Hwk _ _ Hin) _ _ _ _ _ _ Ec), (IHt _ _ _ _ _ _ _ (fun x Hx => Hsub x (or_intror Hx)) Et). reflexivity. }
  destruct (bind_kids acc stack1 ks (h_match h) (h_st h) (h_ck h)) as [[[[ks1 stk] restk] ckk]|] eqn:Ek; [|discriminate].
  intros [= <- _ _]. cbn [erase]. rewrite (HK _ _ _ _ _ _ _ _ (incl_refl _) Ek).
  rewrite (erase_leaves_F2 _ _ _ Hls (fun x y Hxy => proj1 Hxy)). reflexivity.
Qed.

(** * Unbinding *)
Definition slot_pin (s : slot) : list nat := match s with SPin i => [i] | _ => [] end.
Fixpoint pins_of (b : bundle) : list nat :=
  match b with
  | B _ _ ls _ ks _ _ => flat_map (fun l => slot_pin (l_slot l)) ls ++ flat_map (fun x => pins_of (snd x)) ks
  end.
Definition cnt (i : nat) (l : list nat) : nat := count_occ Nat.eq_dec l i.
Lemma cnt_app i a b : cnt i (a ++ b) = cnt i a + cnt i b.
Proof. apply count_occ_app. Qed.

(** Every signal is a pin or a dummy. *)
Definition settled (b : bundle) : Prop := forall pl s, slot_at b pl = Some s -> s = SDummy \/ exists i, s = SPin i.

Definition unbind_kids := fix go (ks : list (seg * bundle)) (st : store) : res (list (seg * bundle) * store) :=
  match ks with
  | [] => Ok ([], st)
  | (s, c) :: t =>
      match (match s with PSub _ => unbind_b c st | PElem _ _ => Ok (c, st) end) with
      | Exn x => Exn x
      | Ok (c1, st1) => match go t st1 with Exn x => Exn x | Ok (t1, st2) => Ok ((s, c1) :: t1, st2) end
      end
  end.
Lemma unbind_B nm m ls sls ks bls ck st :
  unbind_b (B nm m ls sls ks bls ck) st =
  match remove_attrs ls st with
  | Exn x => Exn x
  | Ok (ls1, st1) =>
      match unbind_kids ks st1 with Exn x => Exn x | Ok (ks1, st2) => Ok (B nm m ls1 sls ks1 bls ck, st2) end
  end.
Proof. reflexivity. Qed.

Lemma remove_attrs_ok ls : forall st, (forall l, In l ls -> exists n, l_id l = LSig n) ->
  (forall l, In l ls -> l_slot l = SDummy \/ exists i, l_slot l = SPin i) ->
  exists ls1 st1, remove_attrs ls st = Ok (ls1, st1) /\ map erase_leaf ls1 = map erase_leaf ls /\
    forall i, nconn st1 i = nconn st i - cnt i (flat_map (fun l => slot_pin (l_slot l)) ls).
Proof.
  induction ls as [|l t IH]; intros st Hs Hp.
  - exists [], st. repeat split. intros i. unfold cnt. cbn. lia.
  - cbn [remove_attrs]. destruct (Hs l (or_introl eq_refl)) as [n ->].
    assert (Ht1 : forall l0, In l0 t -> exists n, l_id l0 = LSig n) by (intros; apply Hs; now right).
    assert (Ht2 : forall l0, In l0 t -> l_slot l0 = SDummy \/ exists i, l_slot l0 = SPin i) by (intros; apply Hp; now right).
    unfold remove_attr. destruct (Hp l (or_introl eq_refl)) as [E|[j E]]; rewrite E.
    + destruct (IH st Ht1 Ht2) as (ls1 & st1 & H1 & H2 & H3). rewrite H1. cbn [rbind]. eexists _, _. split; [reflexivity|]. cbn [map]. rewrite H2. split; [reflexivity|].
      intros i. rewrite H3. cbn [flat_map slot_pin]. rewrite E. reflexivity.
    + match goal with |- context [remove_attrs t ?x] => set (st' := x) end.
      destruct (IH st' Ht1 Ht2) as (ls1 & st1 & H1 & H2 & H3). rewrite H1. cbn [rbind]. eexists _, _. split; [reflexivity|]. cbn [map]. rewrite H2. split; [reflexivity|].
      intros i. rewrite H3. cbn [flat_map]. rewrite E. unfold cnt, slot_pin at 2. simpl List.app. cbn [count_occ].
      assert (Hst : nconn st' i = nconn st i - if Nat.eq_dec j i then 1 else 0).
      { unfold st', nconn. destruct (p_nconn (st j)) as [k|] eqn:Ej.
        - unfold upd. destruct (Nat.eqb i j) eqn:Eij.
          + apply Nat.eqb_eq in Eij. subst i. cbn [set_nconn p_nconn]. rewrite Ej. destruct (Nat.eq_dec j j); [|contradiction].
            destruct (Nat.eqb (k - 1) 0) eqn:Ek; [apply Nat.eqb_eq in Ek; lia|lia].
          + apply Nat.eqb_neq in Eij. destruct (Nat.eq_dec j i); [congruence|lia].
        - destruct (Nat.eq_dec j i) as [<-|]; [rewrite Ej; lia|lia]. }
      rewrite Hst. destruct (Nat.eq_dec j i); lia.
Qed.

Lemma settled_leaves nm m ls sls ks bls ck : wf (B nm m ls sls ks bls ck) -> settled (B nm m ls sls ks bls ck) ->
  (forall l, In l ls -> l_slot l = SDummy \/ exists i, l_slot l = SPin i) /\ (forall s c, In (s, c) ks -> settled c).
Proof.
  intros Hwf Hs. inversion Hwf as [? ? ? ? ? ? ? Hni Hnn Hnk Hwk]; subst. split.
  - intros l Hl. apply (Hs ([], l_id l)). rewrite slot_at_nil. cbn [b_leaves]. now rewrite (leaf_in_In _ _ Hni Hl).
  - intros s c Hi [p l] x Hx. apply (Hs (s :: p, l)). rewrite slot_at_cons. cbn [b_kids]. now rewrite (kid_In _ _ _ Hnk Hi).
Qed.

Lemma unbind_ok b : wf b -> no_lists b -> settled b -> forall st,
  exists b1 st1, unbind_b b st = Ok (b1, st1) /\ erase b1 = erase b /\ forall i, nconn st1 i = nconn st i - cnt i (pins_of b).
Proof.
  induction b as [nm m ls sls ks bls ck IH] using bundle_ind2. intros Hwf Hnl Hs st. rewrite unbind_B.
  destruct (settled_leaves _ _ _ _ _ _ _ Hwf Hs) as [Hsl Hsk].
  inversion Hwf as [? ? ? ? ? ? ? Hni Hnn Hnk Hwk]; subst. inversion Hnl as [? ? ? ? ? Hl1 Hk1 Hk2]; subst.
  destruct (remove_attrs_ok ls st Hl1 Hsl) as (ls1 & st1 & -> & Hel & Hc1).
  assert (G : forall ks' st', incl ks' ks -> exists ks1 st2, unbind_kids ks' st' = Ok (ks1, st2) /\
     map (fun x => (fst x, erase (snd x))) ks1 = map (fun x => (fst x, erase (snd x))) ks' /\
     forall i, nconn st2 i = nconn st' i - cnt i (flat_map (fun x => pins_of (snd x)) ks')).
  { induction ks' as [|[s c] t IHt]; intros st' Hi.
    - exists [], st'. repeat split. intros i. unfold cnt. cbn. lia.
    - assert (Hin : In (s, c) ks) by (apply Hi; now left). cbn [unbind_kids]. destruct (Hk1 _ _ Hin) as [n ->].
      destruct (IH _ _ Hin (Hwk _ _ Hin) (Hk2 _ _ Hin) (Hsk _ _ Hin) st') as (c1 & sc & -> & Hec & Hcc). fold unbind_kids.
      destruct (IHt sc (fun x Hx => Hi x (or_intror Hx))) as (t1 & s2 & -> & Het & Hct).
      eexists _, _. split; [reflexivity|]. cbn [map fst snd]. rewrite Hec, Het. split; [reflexivity|].
      intros i. rewrite Hct, Hcc. cbn [flat_map snd]. rewrite cnt_app. lia. }
  destruct (G ks st1 (incl_refl _)) as (ks1 & st2 & -> & Hek & Hck). eexists _, _. split; [reflexivity|].
  cbn [erase]. rewrite Hel, Hek. split; [reflexivity|]. intros i. rewrite Hck, Hc1. cbn [pins_of]. rewrite cnt_app. lia.
Qed.

(** Pins held, by place. *)
Definition is_pin (b : bundle) (i : nat) (pl : place) : bool :=
  match slot_at b pl with Some (SPin j) => Nat.eqb j i | _ => false end.
Lemma pins_places b : wf b -> forall i, cnt i (pins_of b) = List.length (filter (is_pin b i) (places b)).
Proof.
  induction b as [nm m ls sls ks bls ck IH] using bundle_ind2. intros Hwf i.
  inversion Hwf as [? ? ? ? ? ? ? Hni Hnn Hnk Hwk]; subst. rewrite places_B, filter_app, app_length. cbn [pins_of]. rewrite cnt_app. f_equal.
  - assert (G : forall ls', incl ls' ls -> cnt i (flat_map (fun l => slot_pin (l_slot l)) ls') =
       List.length (filter (is_pin (B nm m ls sls ks bls ck) i) (map (fun x => ([], l_id x)) ls'))); [|apply G; apply incl_refl].
    induction ls' as [|l t IHt]; intros Hi; [reflexivity|]. cbn [flat_map map filter]. rewrite cnt_app, IHt by (intros x Hx; apply Hi; now right).
    assert (Hp : is_pin (B nm m ls sls ks bls ck) i ([], l_id l) = match l_slot l with SPin j => Nat.eqb j i | _ => false end).
    { unfold is_pin. rewrite slot_at_nil. cbn [b_leaves]. rewrite (leaf_in_In _ _ Hni (Hi l (or_introl eq_refl))). reflexivity. }
    rewrite Hp. destruct (l_slot l) as [| | |j]; try reflexivity. unfold cnt at 1. cbn [slot_pin count_occ].
    destruct (Nat.eq_dec j i) as [->|Hne]; [rewrite Nat.eqb_refl; reflexivity|]. apply Nat.eqb_neq in Hne. rewrite Hne. reflexivity.
  - assert (G : forall ks', incl ks' ks -> cnt i (flat_map (fun x => pins_of (snd x)) ks') =
       List.length (filter (is_pin (B nm m ls sls ks bls ck) i) (places_kids ks'))); [|apply G; apply incl_refl].
    induction ks' as [|[s c] t IHt]; intros Hi; [reflexivity|]. cbn [flat_map places_kids snd]. fold places_kids.
    rewrite cnt_app, filter_app, app_length, IHt by (intros x Hx; apply Hi; now right). f_equal.
    assert (Hin : In (s, c) ks) by (apply Hi; now left). rewrite (IH _ _ Hin (Hwk _ _ Hin)).
    generalize (places c). intros ps. induction ps as [|[p l] ps IHp]; [reflexivity|]. cbn [map filter fst snd].
    assert (Hp : is_pin (B nm m ls sls ks bls ck) i (s :: p, l) = is_pin c i (p, l)).
    { unfold is_pin. rewrite slot_at_cons. cbn [b_kids]. now rewrite (kid_In _ _ _ Hnk Hin). }
    rewrite Hp. destruct (is_pin c i (p, l)); cbn [List.length]; now rewrite IHp.
Qed.

Lemma filter_none {A} (f : A -> bool) l : (forall y, In y l -> f y = false) -> List.length (filter f l) = 0.
Proof.
  induction l as [|a t IH]; intros H; [reflexivity|]. cbn [filter]. rewrite (H a (or_introl eq_refl)). apply IH. intros; apply H. now right.
Qed.
Lemma filter_unique {A} (f : A -> bool) l x : NoDup l -> In x l -> f x = true -> (forall y, In y l -> f y = true -> y = x) ->
  List.length (filter f l) = 1.
Proof.
  induction l as [|a t IH]; intros Hn Hi Hf Hu; [destruct Hi|]. inversion Hn as [|? ? Hna Hnt]; subst. cbn [filter].
  destruct (f a) eqn:E.
  - assert (a = x) by (apply Hu; [now left|exact E]). subst a. cbn [List.length]. f_equal. apply filter_none.
    intros y Hy. destruct (f y) eqn:Ey; [|reflexivity]. exfalso. apply Hna. rewrite <- (Hu y (or_intror Hy) Ey). exact Hy.
  - destruct Hi as [->|Hi]; [congruence|]. apply IH; auto. intros y Hy. apply Hu. now right.
Qed.

(** After binding a created tree, where each place gets at most one pin, the held pins are those counted. *)
Lemma held_counted b d b1 st st1 rest : wf b -> unbound b -> dut_ok d -> one_pin_each b d ->
  bind_b true [] b (entries d) st = Ok (b1, st1, rest) ->
  forall i, cnt i (pins_of b1) = pinhits i (fun e => negb (unrouted b e)) (entries d).
Proof.
  intros Hwf Hub Hd Hinj Hb i.
  assert (Ho : NoDup (map e_org (entries d))) by (rewrite entries_orgs; apply Hd).
  destruct (bind_main _ _ Hwf _ _ _ _ _ _ Ho Hb) as (_ & Hslot & _).
  assert (He := bind_erase _ _ Hwf _ _ _ _ _ _ Hb).
  assert (Hwf1 : wf b1) by (apply erase_wf; rewrite He; now apply erase_wf).
  assert (Hpl : places b1 = places b) by (rewrite <- (erase_places b1), He; apply erase_places).
  rewrite (pins_places _ Hwf1), pinhits_entries, Hpl by exact Hd.
  destruct (find (fun e => Nat.eqb (e_pin e) i) (entries d)) as [e|] eqn:Ef.
  - apply find_some in Ef. destruct Ef as [Hie Epin]. apply Nat.eqb_eq in Epin.
    assert (Huniq : forall e', In e' (entries d) -> e_pin e' = i -> e' = e).
    { intros e' Hi' Hp'. apply In_entries in Hi', Hie. destruct Hi' as [Ho' Hi'], Hie as [Hoe Hie].
      assert (E1 := find_entry d _ _ Hd Hi'). assert (E2 := find_entry d _ _ Hd Hie). rewrite Hp' in E1. rewrite Epin in E2. rewrite E1 in E2.
      injection E2 as E2. destruct e, e'. cbn in *. congruence. }
    assert (Hpin : forall pl, In pl (places b) -> (is_pin b1 i pl = true <-> route b (e_name e) = Some pl)).
    { intros pl Hin. apply place_slot in Hin; [|exact Hwf]. specialize (Hslot pl). destruct (slot_at b pl) as [s|]; [|contradiction].
      destruct Hslot as [s1 [Hs1 Hd1]]. unfold is_pin. rewrite Hs1. split.
      - intros H. destruct s1 as [| | |j]; try discriminate. apply Nat.eqb_eq in H. subst j. destruct Hd1 as [[e' [Hi' [Hr [= Hp]]]]|[_ E]].
        + rewrite <- (Huniq e' Hi'); congruence.
        + discriminate E.
      - intros Hr. destruct Hd1 as [[e' [Hi' [Hr' ->]]]|[Ha _]].
        + assert (e_name e' = e_name e).
          { apply (Hinj (e_name e') (e_pin e') (e_name e) (e_pin e) pl); try (now apply In_entries); now apply route_goes_to. }
          assert (e' = e); [|subst; now apply Nat.eqb_eq].
          apply In_entries in Hi'. assert (Hie2 := proj1 (In_entries _ _) Hie).
          assert (Hpins : NoDup (map fst (d_pins d))) by apply Hd.
          assert (e_pin e' = e_pin e).
          { destruct Hi' as [_ Hi'], Hie2 as [_ Hie2]. rewrite H in Hi'. clear - Hi' Hie2 Hpins. induction (d_pins d) as [|[x y] t IHt]; [destruct Hi'|].
            cbn [map fst] in Hpins. inversion Hpins as [|? ? Hn Hp]; subst.
            destruct Hi' as [E1|Hi'], Hie2 as [E2|Hie2]; [congruence| | |auto]; exfalso; apply Hn.
            - injection E1 as -> _. change (e_name e) with (fst (e_name e, e_pin e)). now apply in_map.
            - injection E2 as -> _. change (e_name e) with (fst (e_name e, e_pin e')). now apply in_map. }
          destruct e, e'. cbn in *. destruct Hi', Hie2. congruence.
        + exfalso. exact (Ha e Hie Hr). }
    destruct (route b (e_name e)) as [pl|] eqn:Er.
    + assert (Hplin : In pl (places b)).
      { apply route_goes_to in Er; [|exact Hwf]. destruct Er as (l1 & l2 & -> & _). apply in_app_iff. right. now left. }
      rewrite (filter_unique _ _ pl (wf_places _ Hwf) Hplin); [|now apply Hpin|].
      * unfold unrouted. rewrite Er. reflexivity.
      * intros y Hy Hf. apply Hpin in Hf; [congruence|exact Hy].
    + rewrite filter_none; [unfold unrouted; rewrite Er; reflexivity|]. intros y Hy. destruct (is_pin b1 i y) eqn:E; [|reflexivity].
      apply Hpin in E; [discriminate|exact Hy].
  - apply filter_none. intros pl Hin. apply place_slot in Hin; [|exact Hwf]. specialize (Hslot pl). destruct (slot_at b pl) as [s|]; [|contradiction].
    destruct Hslot as [s1 [Hs1 Hd1]]. unfold is_pin. rewrite Hs1. destruct Hd1 as [[e' [Hi' [_ ->]]]|[_ ->]]; [|reflexivity].
    apply find_none with (x := e') in Ef; [exact Ef|exact Hi'].
Qed.
