(** Reading bundles, and round trips of as_dict and assign. *)
From Coq Require Import List String Ascii Bool Arith ZArith Lia.
From Verif Require Import Py Dict_Proofs Bundle_Model Bundle_Spec Bundle_Proofs Bundle4_Proofs BundleVal_Model BundleVal_Spec BundleVal_Proofs.
Import ListNotations.
Open Scope string_scope.
Open Scope list_scope.

Lemma NoDup_app_l' {A} (l1 l2 : list A) : NoDup (l1 ++ l2) -> NoDup l1.
Proof. induction l1 as [|x t IH]; [constructor|]. cbn. intros H. inversion H; subst. constructor; [|auto]. rewrite in_app_iff in *. tauto. Qed.
Lemma all_ok_Some {A} (l : list (res A)) xs : all_ok l = Ok xs <-> Forall2 (fun r x => r = Ok x) l xs.
Proof.
  revert xs. induction l as [|r t IH]; intros xs; cbn [all_ok].
  - split; [intros [= <-]; constructor|]. intros H. inversion H. reflexivity.
  - split.
    + destruct r as [x|]; cbn [rbind]; [|discriminate]. destruct (all_ok t) as [ys|]; cbn [rbind]; [|discriminate]. intros [= <-]. constructor; [reflexivity|]. now apply IH.
    + intros H. inversion H as [|? x ? ys H1 H2]; subst. cbn [rbind]. apply IH in H2. rewrite H2. reflexivity.
Qed.
Lemma Forall2_len {A C} (P : A -> C -> Prop) l l' : Forall2 P l l' -> List.length l = List.length l'.
Proof. induction 1; cbn; congruence. Qed.
Lemma Forall2_map_l {A C D} (f : A -> C) (P : C -> D -> Prop) l l' : Forall2 P (map f l) l' <-> Forall2 (fun a d => P (f a) d) l l'.
Proof.
  revert l'. induction l as [|a t IH]; intros l'; cbn [map]; split; intros H; inversion H; subst; constructor; auto; now apply IH.
Qed.

(** * Entries of as_dict *)
Definition as_kids (st : store) := fix go (ks : list (seg * bundle)) : list (seg * res (list (string * val))) :=
  match ks with [] => [] | (s, c) :: t => (s, as_dict c st) :: go t end.
Lemma as_kids_map st ks : as_kids st ks = map (fun x => (fst x, as_dict (snd x) st)) ks.
Proof. induction ks as [|[s c] t IH]; [reflexivity|]. cbn [as_kids map fst snd]. fold (as_kids st). now rewrite IH. Qed.
Lemma as_dict_B nm m ls sls ks bls ck st :
  as_dict (B nm m ls sls ks bls ck) st =
  rbind (own_values ls st) (fun d1 => rbind (list_values ls sls st) (fun d2 =>
  rbind (sub_values (map (fun x => (fst x, as_dict (snd x) st)) ks)) (fun d3 =>
  rbind (all_ok (map (fun n => rbind (all_ok (elem_values (map (fun x => (fst x, as_dict (snd x) st)) ks) n)) (fun xs => Ok (n, VList xs))) bls)) (fun d4 =>
  Ok (d1 ++ d2 ++ d3 ++ d4))))).
Proof. rewrite <- as_kids_map. reflexivity. Qed.

Definition dict_of (st : store) (c : bundle) : res val := rbind (as_dict c st) (fun d => Ok (VDict d)).
Lemma elem_values_kids st ks n : elem_values (map (fun x => (fst x, as_dict (snd x) st)) ks) n = map (dict_of st) (kid_elems ks n).
Proof.
  induction ks as [|[[k|k i] c] t IH]; [reflexivity|exact IH|]. cbn [map fst snd elem_values kid_elems]. destruct (String.eqb n k); [|exact IH]. cbn [map]. now rewrite IH.
Qed.
Lemma own_values_spec ls st d : NoDup (own_names ls) -> own_values ls st = Ok d ->
  map fst d = own_names ls /\ forall k s, own ls k = Some s -> exists x, read_slot st s = Ok x /\ dget d k = Some x.
Proof.
  revert d. induction ls as [|l t IH]; intros d Hn; cbn [own_values own].
  - intros [= <-]. split; [reflexivity|discriminate].
  - unfold own_names in *. cbn [flat_map] in *. destruct (l_id l) as [n|n i].
    + cbn [List.app] in *. inversion Hn as [|? ? Hni Hnt]; subst. destruct (read_slot st (l_slot l)) as [x|] eqn:Er; cbn [rbind]; [|discriminate].
      destruct (own_values t st) as [xs|] eqn:Et; cbn [rbind]; [|discriminate]. intros [= <-]. destruct (IH xs Hnt eq_refl) as [H1 H2]. split.
      * cbn [map fst]. now rewrite H1.
      * intros k s. cbn [dget]. destruct (String.eqb k n); [intros [= <-]; eauto|apply H2].
    + intros H. apply IH; auto.
Qed.
Lemma list_spec {A} (f : A -> string) (g : A -> res (list val)) ns d :
  all_ok (map (fun n => rbind (g n) (fun xs => Ok (f n, VList xs))) ns) = Ok d ->
  map fst d = map f ns /\ (NoDup (map f ns) -> forall n, In n ns -> exists xs, g n = Ok xs /\ dget d (f n) = Some (VList xs)).
Proof.
  revert d. induction ns as [|n t IH]; intros d; cbn [map all_ok].
  - intros [= <-]. split; [reflexivity|intros _ n []].
  - destruct (g n) as [xs|] eqn:E; cbn [rbind]; [|discriminate]. destruct (all_ok _) as [d'|]; cbn [rbind]; [|discriminate]. intros [= <-].
    destruct (IH d' eq_refl) as [H1 H2]. split; [cbn [map fst]; now rewrite H1|]. intros Hn. inversion Hn as [|? ? Hni Hnt]; subst. intros n' [<-|Hi].
    + exists xs. split; [exact E|]. cbn [dget]. now rewrite String.eqb_refl.
    + destruct (H2 Hnt n' Hi) as (xs' & H3 & H4). exists xs'. split; [exact H3|]. cbn [dget]. destruct (String.eqb (f n') (f n)) eqn:E'; [|exact H4].
      apply String.eqb_eq in E'. exfalso. apply Hni. rewrite <- E'. now apply in_map.
Qed.
Lemma sub_values_spec st ks d : NoDup (sub_names ks) -> sub_values (map (fun x => (fst x, as_dict (snd x) st)) ks) = Ok d ->
  map fst d = sub_names ks /\ forall k c, kid ks (PSub k) = Some c -> exists dc, as_dict c st = Ok dc /\ dget d k = Some (VDict dc).
Proof.
  revert d. induction ks as [|[s c] t IH]; intros d Hn; cbn [map sub_values kid fst snd].
  - intros [= <-]. split; [reflexivity|discriminate].
  - unfold sub_names in *. cbn [flat_map fst] in *. destruct s as [n|n i].
    + cbn [List.app] in *. inversion Hn as [|? ? Hni Hnt]; subst. destruct (as_dict c st) as [dc|] eqn:Er; cbn [rbind]; [|discriminate].
      destruct (sub_values _) as [xs|] eqn:Et; cbn [rbind]; [|discriminate]. intros [= <-]. destruct (IH xs Hnt eq_refl) as [H1 H2]. split.
      * cbn [map fst]. now rewrite H1.
      * intros k c'. cbn [dget]. destruct (seg_eq_dec (PSub k) (PSub n)) as [E|E].
        -- injection E as ->. rewrite String.eqb_refl. intros [= <-]. eauto.
        -- destruct (String.eqb k n) eqn:E2; [apply String.eqb_eq in E2; congruence|apply H2].
    + intros H. destruct (IH d Hn H) as [H1 H2]. split; [exact H1|]. intros k c'. destruct (seg_eq_dec (PSub k) (PElem n i)); [discriminate|apply H2].
Qed.
Lemma dget_app {V} (d1 d2 : dict V) k : dget (d1 ++ d2) k = match dget d1 k with Some x => Some x | None => dget d2 k end.
Proof. induction d1 as [|[k' x] t IH]; [reflexivity|]. cbn [List.app dget]. destruct (String.eqb k k'); auto. Qed.
Lemma dget_None {V} (d : dict V) k : ~ In k (map fst d) <-> dget d k = None.
Proof.
  induction d as [|[k' x] t IH]; cbn [map fst In dget]; [tauto|]. destruct (String.eqb k k') eqn:E.
  - apply String.eqb_eq in E. split; [intros H; exfalso; auto|discriminate].
  - apply String.eqb_neq in E. rewrite <- IH. split; [tauto|]. intros H [H'|H']; auto.
Qed.

Lemma as_dict_keys nm m ls sls ks bls ck st d : shaped (B nm m ls sls ks bls ck) -> as_dict (B nm m ls sls ks bls ck) st = Ok d ->
  map fst d = attrs (B nm m ls sls ks bls ck) /\
  (forall k s, own ls k = Some s -> exists x, read_slot st s = Ok x /\ dget d k = Some x) /\
  (forall k, In k sls -> exists xs, Forall2 (fun s x => read_slot st s = Ok x) (els ls k) xs /\ dget d k = Some (VList xs)) /\
  (forall k c, kid ks (PSub k) = Some c -> exists dc, as_dict c st = Ok dc /\ dget d k = Some (VDict dc)) /\
  (forall k, In k bls -> exists xs, Forall2 (fun c x => dict_of st c = Ok x) (kid_elems ks k) xs /\ dget d k = Some (VList xs)).
Proof.
  intros Hsh. rewrite as_dict_B. unfold list_values.
  assert (Hn : NoDup (own_names ls ++ sls ++ sub_names ks ++ bls)) by (inversion Hsh; assumption).
  assert (N2 := NoDup_app_r _ _ Hn). assert (N3 := NoDup_app_r _ _ N2). assert (N4 := NoDup_app_r _ _ N3).
  assert (M1 : NoDup (own_names ls)) by (eapply NoDup_app_l'; exact Hn).
  assert (M2 : NoDup sls) by (eapply NoDup_app_l'; exact N2). assert (M3 : NoDup (sub_names ks)) by (eapply NoDup_app_l'; exact N3).
  destruct (own_values ls st) as [d1|] eqn:E1; cbn [rbind]; [|discriminate].
  destruct (all_ok (map _ sls)) as [d2|] eqn:E2; cbn [rbind]; [|discriminate].
  destruct (sub_values _) as [d3|] eqn:E3; cbn [rbind]; [|discriminate].
  destruct (all_ok (map _ bls)) as [d4|] eqn:E4; cbn [rbind]; [|discriminate]. intros [= <-].
  destruct (own_values_spec _ _ _ M1 E1) as [K1 V1]. destruct (list_spec (fun n => n) (fun n => all_ok (map (read_slot st) (els ls n))) _ _ E2) as [K2 V2]. rewrite map_id in *.
  destruct (sub_values_spec _ _ _ M3 E3) as [K3 V3].
  destruct (list_spec (fun n => n) (fun n => all_ok (elem_values (map (fun x => (fst x, as_dict (snd x) st)) ks) n)) _ _ E4) as [K4 V4]. rewrite map_id in *.
  split; [unfold attrs; cbn [b_leaves b_slists b_kids b_blists]; now rewrite !map_app, K1, K2, K3, K4|].
  split; [|split; [|split]].
  - intros k s Hs. destruct (V1 k s Hs) as (x & Hr & Hd). exists x. split; [exact Hr|]. now rewrite dget_app, Hd.
  - intros k Hk. destruct (V2 M2 k Hk) as (xs & Hr & Hd). exists xs. split; [apply all_ok_Some in Hr; now apply Forall2_map_l in Hr|].
    rewrite dget_app. replace (dget d1 k) with (@None val); [now rewrite dget_app, Hd|]. symmetry. apply dget_None. rewrite K1. intros Hi.
    eapply NoDup_apart; [exact Hn|exact Hi|apply in_app_iff; auto].
  - intros k c Hk. destruct (V3 k c Hk) as (dc & Hr & Hd). exists dc. split; [exact Hr|]. assert (Hin : In k (sub_names ks)) by (eapply kid_name; eauto).
    rewrite dget_app. replace (dget d1 k) with (@None val).
    2:{ symmetry. apply dget_None. rewrite K1. intros Hi. eapply NoDup_apart; [exact Hn|exact Hi|rewrite !in_app_iff; auto]. }
    rewrite dget_app. replace (dget d2 k) with (@None val); [now rewrite dget_app, Hd|]. symmetry. apply dget_None. rewrite K2. intros Hi.
    eapply NoDup_apart; [exact N2|exact Hi|apply in_app_iff; auto].
  - intros k Hk. destruct (V4 N4 k Hk) as (xs & Hr & Hd). exists xs. split.
    { rewrite elem_values_kids in Hr. apply all_ok_Some in Hr. now apply Forall2_map_l in Hr. }
    rewrite dget_app. replace (dget d1 k) with (@None val).
    2:{ symmetry. apply dget_None. rewrite K1. intros Hi. eapply NoDup_apart; [exact Hn|exact Hi|rewrite !in_app_iff; auto]. }
    rewrite dget_app. replace (dget d2 k) with (@None val).
    2:{ symmetry. apply dget_None. rewrite K2. intros Hi. eapply NoDup_apart; [exact N2|exact Hi|rewrite !in_app_iff; auto]. }
    rewrite dget_app. replace (dget d3 k) with (@None val); [exact Hd|]. symmetry. apply dget_None. rewrite K3. intros Hi.
    eapply NoDup_apart; [exact N3|exact Hi|exact Hk].
Qed.

(** Whether as_dict raises depends on what the signals are connected to, not on the values. *)
Definition readable (s : slot) : Prop := match s with SPin _ | SDummy => True | SPlaceholder | SAbsent => False end.
Lemma read_ok st s : readable s <-> exists x, read_slot st s = Ok x.
Proof. destruct s; cbn; split; try tauto; try (intros [x H]; discriminate); eauto. Qed.
Lemma all_ok_ex {A} (l : list (res A)) : (forall r, In r l -> exists x, r = Ok x) -> exists xs, all_ok l = Ok xs.
Proof.
  induction l as [|r t IH]; intros H; [cbn; eauto|]. destruct (H r (or_introl eq_refl)) as [x ->]. destruct IH as [xs Hx]; [intros r' Hr; apply H; now right|].
  cbn [all_ok rbind]. rewrite Hx. cbn [rbind]. eauto.
Qed.
Lemma els_in ls k s : In s (els ls k) -> exists l, In l ls /\ l_slot l = s.
Proof.
  induction ls as [|l t IH]; [intros []|]. cbn [els]. destruct (l_id l) as [n|n i].
  - intros H. destruct (IH H) as (x & Hx & E). exists x. split; [now right|exact E].
  - destruct (String.eqb k n).
    + intros [<-|H]; [exists l; split; [now left|reflexivity]|]. destruct (IH H) as (x & Hx & E). exists x. split; [now right|exact E].
    + intros H. destruct (IH H) as (x & Hx & E). exists x. split; [now right|exact E].
Qed.
Lemma kid_elems_in ks k c : In c (kid_elems ks k) -> exists s, In (s, c) ks.
Proof.
  induction ks as [|[[n|n i] c'] t IH]; [intros []| |]; cbn [kid_elems].
  - intros H. destruct (IH H) as [s Hs]. exists s. now right.
  - destruct (String.eqb k n).
    + intros [<-|H]; [exists (PElem n i); now left|]. destruct (IH H) as [s Hs]. exists s. now right.
    + intros H. destruct (IH H) as [s Hs]. exists s. now right.
Qed.
Lemma as_dict_ok b : wf b -> forall st, (forall pl s, slot_at b pl = Some s -> readable s) -> exists d, as_dict b st = Ok d.
Proof.
  induction b as [nm m ls sls ks bls ck IH] using bundle_ind2. intros Hw st H. inversion Hw as [? ? ? ? ? ? ? Hni Hnn Hnk Hwk]; subst. rewrite as_dict_B.
  assert (Hl : forall l, In l ls -> readable (l_slot l)).
  { intros l Hl. apply (H ([], l_id l)). rewrite slot_at_nil. cbn [b_leaves]. now rewrite (leaf_in_In _ _ Hni Hl). }
  assert (Hk : forall s c, In (s, c) ks -> exists d, as_dict c st = Ok d).
  { intros s c Hi. apply (IH _ _ Hi (Hwk _ _ Hi)). intros [p l] x Hx. apply (H (s :: p, l)). rewrite slot_at_cons. cbn [b_kids]. now rewrite (kid_In _ _ _ Hnk Hi). }
  assert (E1 : exists d, own_values ls st = Ok d).
  { clear - Hl. induction ls as [|l t IHt]; [cbn; eauto|]. cbn [own_values]. destruct IHt as [d Hd]; [intros x Hx; apply Hl; now right|].
    destruct (l_id l); [|eauto]. destruct (proj1 (read_ok st _) (Hl l (or_introl eq_refl))) as [x ->]. cbn [rbind]. rewrite Hd. cbn [rbind]. eauto. }
  destruct E1 as [d1 ->]. cbn [rbind].
  destruct (all_ok_ex (map (fun n => rbind (all_ok (map (read_slot st) (els ls n))) (fun xs => Ok (n, VList xs))) sls)) as [d2 E2].
  { intros r Hr. apply in_map_iff in Hr. destruct Hr as [n [<- _]]. destruct (all_ok_ex (map (read_slot st) (els ls n))) as [xs ->]; [|cbn; eauto].
    intros r Hr. apply in_map_iff in Hr. destruct Hr as [s [<- Hs]]. destruct (els_in _ _ _ Hs) as (l & Hi & <-). apply read_ok. auto. }
  unfold list_values. rewrite E2. cbn [rbind].
  assert (E3 : exists d, sub_values (map (fun x => (fst x, as_dict (snd x) st)) ks) = Ok d).
  { clear - Hk. induction ks as [|[s c] t IHt]; [cbn; eauto|]. cbn [map fst snd sub_values]. destruct IHt as [d Hd]; [intros x y Hx; apply (Hk x); now right|].
    destruct s as [n|n i]; [|eauto]. destruct (Hk _ _ (or_introl eq_refl)) as [dc ->]. cbn [rbind]. rewrite Hd. cbn [rbind]. eauto. }
  destruct E3 as [d3 ->]. cbn [rbind].
  destruct (all_ok_ex (map (fun n => rbind (all_ok (elem_values (map (fun x => (fst x, as_dict (snd x) st)) ks) n)) (fun xs => Ok (n, VList xs))) bls)) as [d4 E4].
  { intros r Hr. apply in_map_iff in Hr. destruct Hr as [n [<- _]]. rewrite elem_values_kids. destruct (all_ok_ex (map (dict_of st) (kid_elems ks n))) as [xs ->]; [|cbn; eauto].
    intros r Hr. apply in_map_iff in Hr. destruct Hr as [c [<- Hc]]. destruct (kid_elems_in _ _ _ Hc) as [s Hs]. destruct (Hk _ _ Hs) as [dc E]. unfold dict_of. rewrite E. cbn. eauto. }
  rewrite E4. cbn [rbind]. eauto.
Qed.

(** as_dict says about every place what its signal reads. *)
Lemma Forall2_nth {A C} (P : A -> C -> Prop) l l' : Forall2 P l l' -> forall j,
  match nth_error l j, nth_error l' j with Some a, Some c => P a c | None, None => True | _, _ => False end.
Proof. induction 1 as [|a c l l' H HF IH]; intros [|j]; cbn [nth_error]; auto. apply IH. Qed.

Lemma as_dict_look b : wf b -> shaped b -> forall st d, as_dict b st = Ok d -> forall p l s, slot_at b (p, l) = Some s ->
  exists x, read_slot st s = Ok x /\ look (VDict d) p l = Some x.
Proof.
  induction b as [nm m ls sls ks bls ck IH] using bundle_ind2. intros Hw Hsh st d Hd p l s Es.
  destruct (as_dict_keys _ _ _ _ _ _ _ _ _ Hsh Hd) as (K & V1 & V2 & V3 & V4). inversion Hw as [? ? ? ? ? ? ? Hni Hnn Hnk Hwk]; subst.
  inversion Hsh as [? ? ? ? ? ? ? Hnd Hstar Hle Hke Hli Hki Hshk]; subst.
  pose proof (kind_of nm m ls sls ks bls ck Hw Hsh (head (p, l))) as KN. remember (head (p, l)) as k eqn:Eh.
  rewrite look_head, <- Eh. symmetry in Eh. destruct KN as [s' Eo Hk|Eo Es' Hk|c Eo Es' Ek Hk|Eo Es' Ek Eb Hk|Eo Es' Ek Eb Hna Hk].
  - destruct (V1 _ _ Eo) as (x & Hr & ->). pose proof (Hk _ _ Eh Es) as E. injection E as -> ->.
    rewrite (own_slot nm m ls sls ks bls ck), Es in Eo. injection Eo as <-. exists x. split; [exact Hr|reflexivity].
  - destruct (Hk _ _ Eh Es) as [j E]. injection E as -> ->. apply smem_In in Es'. destruct (V2 _ Es') as (xs & HF & ->).
    pose proof (Forall2_nth _ _ _ HF j) as Hj. rewrite (els_slot nm m ls sls ks bls ck k j Hni (Hli k)), Es in Hj.
    unfold look_in. cbn [fst snd]. unfold item. cbn [vidx]. destruct (nth_error xs j) as [x|]; [|contradiction]. eauto.
  - destruct (Hk _ _ Eh Es) as [t E]. cbn [fst] in E. subst p. destruct (V3 _ _ Ek) as (dc & Hdc & ->). rewrite slot_at_cons in Es. cbn [b_kids] in Es.
    rewrite Ek in Es. exact (IH _ _ (kid_Some _ _ _ Ek) (Hwk _ _ (kid_Some _ _ _ Ek)) (Hshk _ _ (kid_Some _ _ _ Ek)) st dc Hdc t l s Es).
  - destruct (Hk _ _ Eh Es) as (j & t & E). cbn [fst] in E. subst p. apply smem_In in Eb. destruct (V4 _ Eb) as (xs & HF & ->).
    rewrite slot_at_cons in Es. cbn [b_kids] in Es. destruct (kid ks (PElem k j)) as [c|] eqn:Ec; [|discriminate].
    pose proof (Forall2_nth _ _ _ HF j) as Hj. rewrite (kid_elems_kid ks k j Hnk (Hki k)), Ec in Hj.
    unfold look_in. cbn [fst snd]. unfold item. cbn [vidx]. destruct (nth_error xs j) as [x|]; [|contradiction].
    unfold dict_of in Hj. destruct (as_dict c st) as [dc|] eqn:Edc; [|discriminate]. cbn [rbind] in Hj. injection Hj as <-.
    exact (IH _ _ (kid_Some _ _ _ Ec) (Hwk _ _ (kid_Some _ _ _ Ec)) (Hshk _ _ (kid_Some _ _ _ Ec)) st dc Edc t l s Es).
  - rewrite (Hk (p, l) Eh) in Es. discriminate.
Qed.

(** * Structure of the assigned value *)
Lemma alike_VList l x : alike (VList l) x -> exists l', x = VList l' /\ Forall2 alike l l'.
Proof. intros H. inversion H; subst. eauto. Qed.
Lemma alike_VDict d x : alike (VDict d) x -> exists d', x = VDict d' /\ NoDup (map fst d') /\ (forall k, dget d k = None <-> dget d' k = None) /\
  (forall k x x', dget d k = Some x -> dget d' k = Some x' -> alike x x').
Proof. intros H. inversion H; subst. eauto. Qed.
Lemma Forall2_nth2 {A C} (P : A -> C -> Prop) l l' j c : Forall2 P l l' -> nth_error l' j = Some c -> exists a, nth_error l j = Some a /\ P a c.
Proof. intros HF Hc. pose proof (Forall2_nth _ _ _ HF j) as H. rewrite Hc in H. destruct (nth_error l j); [eauto|contradiction]. Qed.

Lemma Forall2_nth_intro {A C} (P : A -> C -> Prop) l l' : List.length l = List.length l' ->
  (forall j a c, nth_error l j = Some a -> nth_error l' j = Some c -> P a c) -> Forall2 P l l'.
Proof.
  revert l'. induction l as [|a t IH]; intros [|c t']; try discriminate; [constructor|]. intros [= E] H. constructor; [apply (H 0); reflexivity|].
  apply IH; [exact E|]. intros j. apply (H (S j)).
Qed.
Section Success.
Context (wr : pin -> val -> res Z) (usr : nat -> bundle -> store -> res unit * store).
Context (Inv : store -> Prop).
Definition can (s : slot) (y : val) : Prop := forall i st', s = SPin i -> Inv st' -> exists z, wr (st' i) y = Ok z /\ Inv (upd st' i (set_val (st' i) z)).
Definition good (b : bundle) (v : val) : Prop := forall p l s y, slot_at b (p, l) = Some s -> look v p l = Some y -> can s y.
Definition fine (o : out) (x : val) : Prop := o_res o = Ok tt /\ o_log o = [] /\ o_val o = x /\ Inv (o_st o).

Lemma write_fine s y st : readable s -> can s y -> Inv st -> fst (write_slot wr s y st) = Ok tt /\ Inv (snd (write_slot wr s y st)).
Proof.
  destruct s as [| | |i]; cbn [readable write_slot]; try tauto. intros _ Hc Hi. destruct (Hc i st eq_refl Hi) as (z & -> & H). auto.
Qed.
Lemma write_list_fine l v : forall j st, (forall s, In s l -> readable s) -> (forall k s, nth_error l k = Some s -> exists y, vidx v (j + k) = Ok y /\ can s y) ->
  Inv st -> fst (write_list wr l v j st) = Ok tt /\ Inv (snd (write_list wr l v j st)).
Proof.
  induction l as [|s t IH]; intros j st Hr H Hi; [split; auto|]. cbn [write_list]. destruct (H 0 s eq_refl) as (y & Hy & Hc). rewrite Nat.add_0_r in Hy. rewrite Hy.
  destruct (write_fine s y st (Hr s (or_introl eq_refl)) Hc Hi) as [H1 H2]. destruct (write_slot wr s y st) as [r st1]. cbn [fst snd] in *. subst r.
  apply IH; auto; [intros s' Hs; apply Hr; now right|]. intros k s' Hk. destruct (H (S k) s' Hk) as (y' & Hy' & Hc'). exists y'. split; [|exact Hc']. now rewrite Nat.add_succ_r in Hy'.
Qed.
Lemma vset_same l j x : nth_error l j = Some x -> vset (VList l) j x = VList l.
Proof.
  intros H. cbn [vset]. f_equal. revert j H. induction l as [|y t IH]; intros [|j]; cbn [nth_error lset]; try discriminate; [congruence|]. intros H. now rewrite IH.
Qed.
Lemma bl_fine fs l : forall j st, (forall k f, nth_error fs k = Some f -> exists x, nth_error l (j + k) = Some x /\ forall st', Inv st' -> fine (f x "" st') x) ->
  Inv st -> fine (bl_assign fs (VList l) j st) (VList l).
Proof.
  induction fs as [|f t IH]; intros j st H Hi; [split; [reflexivity|split; [reflexivity|split; [reflexivity|exact Hi]]]|]. cbn [bl_assign].
  destruct (H 0 f eq_refl) as (x & Hx & Hf). rewrite Nat.add_0_r in Hx. cbn [vidx]. rewrite Hx. destruct (Hf st Hi) as (H1 & H2 & H3 & H4). rewrite H1, H3, (vset_same _ _ _ Hx).
  destruct (IH (S j) (o_st (f x "" st))) as (G1 & G2 & G3 & G4); [|exact H4|].
  - intros k f' Hk. destruct (H (S k) f' Hk) as (x' & Hx' & Hf'). exists x'. split; [|exact Hf']. now rewrite Nat.add_succ_r in Hx'.
  - split; [exact G1|]. split; [cbn [o_log]; now rewrite H2, G2|]. split; [exact G3|exact G4].
Qed.
Lemma each_fine act d : forall st, (forall k x st', In (k, x) d -> Inv st' -> fine (act k x st') x) -> Inv st ->
  exists st2, each act d st = (Ok tt, st2, [], d) /\ Inv st2.
Proof.
  induction d as [|[k x] t IH]; intros st H Hi; [exists st; split; auto|]. cbn [each]. destruct (H k x st (or_introl eq_refl) Hi) as (H1 & H2 & H3 & H4). rewrite H1, H2, H3.
  destruct (IH (o_st (act k x st))) as (st2 & -> & G); [intros k' x' st' Hi' Hs; apply H; [now right|exact Hs]|exact H4|]. eauto.
Qed.

Lemma assign_fine b : wf b -> shaped b -> forall st0 d0 v lv st, as_dict b st0 = Ok d0 -> alike (VDict d0) v -> good b v -> Inv st ->
  fine (assign wr usr true b v lv st) v.
Proof.
  induction b as [nm m ls sls ks bls ck IH] using bundle_ind2. intros Hw Hsh st0 d0 v lv st Hd Ha Hg Hi.
  destruct (as_dict_keys _ _ _ _ _ _ _ _ _ Hsh Hd) as (K & V1 & V2 & V3 & V4). inversion Hw as [? ? ? ? ? ? ? Hni Hnn Hnk Hwk]; subst.
  inversion Hsh as [? ? ? ? ? ? ? Hnd Hstar Hle Hke Hli Hki Hshk]; subst.
  destruct (alike_VDict _ _ Ha) as (d & -> & Hn & Hdom & Hval). clear Ha. rewrite assign_B.
  assert (Hns : ~ In "*" (map fst d)).
  { rewrite dget_None. apply Hdom. apply dget_None. rewrite K. exact Hstar. }
  destruct (no_star d Hns) as [-> ->].
  pose (f := fun c : bundle => (fun v level st => assign wr usr true c v level st) : assigner).
  destruct (each_fine (act_multi wr ls sls (fs_of f ks) bls lv) d st) as (st2 & E & H2).
  - intros k x st' Hkx Hi'. pose proof (In_dget d k x Hn Hkx) as Hx. destruct (dget d0 k) as [x0|] eqn:E0; [|apply Hdom in E0; congruence].
    pose proof (Hval _ _ _ E0 Hx) as Hal. unfold act_multi. destruct (kind_of nm m ls sls ks bls ck Hw Hsh k) as [s Eo _|Eo Es _|c Eo Es Ek _|Eo Es Ek Eb _|Eo Es Ek Eb Hna _].
    + rewrite Eo. destruct (V1 _ _ Eo) as (y & Hr & Hy). assert (Hrs : readable s) by (apply (read_ok st0); eauto).
      destruct (write_fine s x st' Hrs) as [G1 G2]; [|exact Hi'|].
      { rewrite (own_slot nm m ls sls ks bls ck) in Eo. apply (Hg [] (LSig k) s x Eo). cbn [look]. exact Hx. }
      split; [exact G1|]. split; [reflexivity|]. split; [reflexivity|exact G2].
    + rewrite Eo, Es. apply smem_In in Es. destruct (V2 _ Es) as (xs0 & HF & E). rewrite E in E0. injection E0 as <-. destruct (alike_VList _ _ Hal) as (xs & -> & HF2).
      unfold sl_assign. cbn [vlen]. rewrite <- (Forall2_len _ _ _ HF2), <- (Forall2_len _ _ _ HF), Nat.eqb_refl.
      destruct (write_list_fine (els ls k) (VList xs) 0 st') as [G1 G2]; [| |exact Hi'|].
      * intros s Hs. apply In_nth_error in Hs. destruct Hs as [j Hj]. pose proof (Forall2_nth _ _ _ HF j) as H. rewrite Hj in H. destruct (nth_error xs0 j) as [y|]; [|contradiction]. apply (read_ok st0). eauto.
      * intros j s Hj. pose proof (Forall2_nth _ _ _ HF j) as H. rewrite Hj in H. destruct (nth_error xs0 j) as [y0|] eqn:Ey0; [|contradiction].
        pose proof (Forall2_nth _ _ _ HF2 j) as H'. rewrite Ey0 in H'. destruct (nth_error xs j) as [y|] eqn:Ey; [|contradiction]. exists y. cbn [vidx Nat.add]. rewrite Ey. split; [reflexivity|].
        rewrite (els_slot nm m ls sls ks bls ck k j Hni (Hli k)) in Hj. apply (Hg [] (LEl k j) s y Hj). cbn [look]. rewrite Hx. unfold item. cbn [vidx]. now rewrite Ey.
      * split; [exact G1|]. split; [reflexivity|]. split; [reflexivity|exact G2].
    + rewrite Eo, Es, sub_kid, Ek. cbn [option_map]. destruct (V3 _ _ Ek) as (dc & Hdc & E). rewrite E in E0. injection E0 as <-.
      apply (IH _ _ (kid_Some _ _ _ Ek) (Hwk _ _ (kid_Some _ _ _ Ek)) (Hshk _ _ (kid_Some _ _ _ Ek)) st0 dc); auto.
      intros p l s y Hs Hl. apply (Hg (PSub k :: p) l s y); [rewrite slot_at_cons; cbn [b_kids]; now rewrite Ek|]. cbn [look]. now rewrite Hx.
    + rewrite Eo, Es, sub_kid, Ek, Eb. cbn [option_map]. apply smem_In in Eb. destruct (V4 _ Eb) as (xs0 & HF & E). rewrite E in E0. injection E0 as <-. destruct (alike_VList _ _ Hal) as (xs & -> & HF2).
      rewrite elems_kid. apply bl_fine; [|exact Hi']. intros j g Hj. rewrite nth_error_map in Hj. destruct (nth_error (kid_elems ks k) j) as [c|] eqn:Ec; [|discriminate]. injection Hj as <-.
      pose proof (Forall2_nth _ _ _ HF j) as H. rewrite Ec in H. destruct (nth_error xs0 j) as [y0|] eqn:Ey0; [|contradiction].
      pose proof (Forall2_nth _ _ _ HF2 j) as H'. rewrite Ey0 in H'. destruct (nth_error xs j) as [y|] eqn:Ey; [|contradiction]. exists y. cbn [Nat.add]. split; [exact Ey|]. intros st1 Hi1.
      unfold dict_of in H. destruct (as_dict c st0) as [dc|] eqn:Edc; [|discriminate]. cbn [rbind] in H. injection H as <-.
      rewrite (kid_elems_kid ks k j Hnk (Hki k)) in Ec. pose proof (kid_Some _ _ _ Ec) as Hin.
      apply (IH _ _ Hin (Hwk _ _ Hin) (Hshk _ _ Hin) st0 dc); auto.
      intros p l s w Hs Hl. apply (Hg (PElem k j :: p) l s w); [rewrite slot_at_cons; cbn [b_kids]; now rewrite Ec|]. cbn [look]. rewrite Hx. unfold item. cbn [vidx]. now rewrite Ey.
    + exfalso. apply Hna. rewrite <- K. apply dget_In in E0. change k with (fst (k, x0)). now apply in_map.
  - exact Hi.
  - cbv beta iota. fold f. rewrite E. split; [reflexivity|]. split; [reflexivity|]. split; [reflexivity|exact H2].
Qed.
End Success.

(** The dictionary read afterwards, if every pin has the assigned value. *)
Lemma as_dict_same b : wf b -> shaped b -> forall st0 d0 v st1 d1, as_dict b st0 = Ok d0 -> alike (VDict d0) v -> as_dict b st1 = Ok d1 ->
  (forall p l i, holds b (p, l) i -> look v p l = Some (VInt (p_val (st1 i)))) -> same (VDict d1) v.
Proof.
  induction b as [nm m ls sls ks bls ck IH] using bundle_ind2. intros Hw Hsh st0 d0 v st1 d1 Hd Ha Hd1 Hg.
  destruct (as_dict_keys _ _ _ _ _ _ _ _ _ Hsh Hd) as (K & V1 & V2 & V3 & V4). destruct (as_dict_keys _ _ _ _ _ _ _ _ _ Hsh Hd1) as (K' & V1' & V2' & V3' & V4').
  inversion Hw as [? ? ? ? ? ? ? Hni Hnn Hnk Hwk]; subst. inversion Hsh as [? ? ? ? ? ? ? Hnd Hstar Hle Hke Hli Hki Hshk]; subst.
  destruct (alike_VDict _ _ Ha) as (d & -> & Hn & Hdom & Hval). clear Ha.
  assert (Hdd : forall k, dget d1 k = None <-> dget d0 k = None) by (intros k; rewrite <- !dget_None, K, K'; reflexivity).
  constructor; [intros k; rewrite Hdd; apply Hdom|]. intros k x1 x E1 Ex.
  destruct (dget d0 k) as [x0|] eqn:E0; [|apply Hdd in E0; congruence]. pose proof (Hval _ _ _ E0 Ex) as Hal.
  destruct (kind_of nm m ls sls ks bls ck Hw Hsh k) as [s Eo _|Eo Es _|c Eo Es Ek _|Eo Es Ek Eb _|Eo Es Ek Eb Hna _].
  - destruct (V1 _ _ Eo) as (y & Hr & E). rewrite E in E0. injection E0 as ->. destruct (V1' _ _ Eo) as (y & Hr' & E'). rewrite E' in E1. injection E1 as ->.
    rewrite (own_slot nm m ls sls ks bls ck) in Eo. destruct s as [| | |i]; cbn [read_slot] in *; try discriminate; injection Hr as <-; injection Hr' as <-.
    + inversion Hal; subst. constructor.
    + specialize (Hg [] (LSig k) i Eo). cbn [look] in Hg. rewrite Ex in Hg. injection Hg as ->. constructor.
  - apply smem_In in Es. destruct (V2 _ Es) as (xs0 & HF & E). rewrite E in E0. injection E0 as <-. destruct (V2' _ Es) as (xs1 & HF1 & E'). rewrite E' in E1. injection E1 as <-.
    destruct (alike_VList _ _ Hal) as (xs & -> & HF2). constructor. apply Forall2_nth_intro.
    + rewrite <- (Forall2_len _ _ _ HF1), <- (Forall2_len _ _ _ HF2), <- (Forall2_len _ _ _ HF). reflexivity.
    + intros j y1 y Hy1 Hy. destruct (Forall2_nth2 _ _ _ _ _ HF1 Hy1) as (s & Hs & Hr1). destruct (Forall2_nth2 _ _ _ _ _ HF2 Hy) as (y0 & Hy0 & Hal'). destruct (Forall2_nth2 _ _ _ _ _ HF Hy0) as (s' & Hs' & Hr0).
      assert (s' = s) by congruence. subst s'. rewrite (els_slot nm m ls sls ks bls ck k j Hni (Hli k)) in Hs. destruct s as [| | |i]; cbn [read_slot] in *; try discriminate; injection Hr0 as <-; injection Hr1 as <-.
      * inversion Hal'; subst. constructor.
      * specialize (Hg [] (LEl k j) i Hs). cbn [look] in Hg. rewrite Ex in Hg. unfold item in Hg. cbn [vidx] in Hg. rewrite Hy in Hg. injection Hg as ->. constructor.
  - destruct (V3 _ _ Ek) as (dc & Hdc & E). rewrite E in E0. injection E0 as <-. destruct (V3' _ _ Ek) as (dc1 & Hdc1 & E'). rewrite E' in E1. injection E1 as <-.
    apply (IH _ _ (kid_Some _ _ _ Ek) (Hwk _ _ (kid_Some _ _ _ Ek)) (Hshk _ _ (kid_Some _ _ _ Ek)) st0 dc x st1 dc1); auto.
    intros p l i Hs. specialize (Hg (PSub k :: p) l i). unfold holds in Hg. rewrite slot_at_cons in Hg. cbn [b_kids] in Hg. rewrite Ek in Hg. specialize (Hg Hs). cbn [look] in Hg. now rewrite Ex in Hg.
  - apply smem_In in Eb. destruct (V4 _ Eb) as (xs0 & HF & E). rewrite E in E0. injection E0 as <-. destruct (V4' _ Eb) as (xs1 & HF1 & E'). rewrite E' in E1. injection E1 as <-.
    destruct (alike_VList _ _ Hal) as (xs & -> & HF2). constructor. apply Forall2_nth_intro.
    + rewrite <- (Forall2_len _ _ _ HF1), <- (Forall2_len _ _ _ HF2), <- (Forall2_len _ _ _ HF). reflexivity.
    + intros j y1 y Hy1 Hy. destruct (Forall2_nth2 _ _ _ _ _ HF1 Hy1) as (c & Hc & Hr1). destruct (Forall2_nth2 _ _ _ _ _ HF2 Hy) as (y0 & Hy0 & Hal'). destruct (Forall2_nth2 _ _ _ _ _ HF Hy0) as (c' & Hc' & Hr0).
      assert (c' = c) by congruence. subst c'. unfold dict_of in *. destruct (as_dict c st0) as [dc|] eqn:Edc; [|discriminate]. destruct (as_dict c st1) as [dc1|] eqn:Edc1; [|discriminate].
      cbn [rbind] in *. injection Hr0 as <-. injection Hr1 as <-. rewrite (kid_elems_kid ks k j Hnk (Hki k)) in Hc. pose proof (kid_Some _ _ _ Hc) as Hin.
      apply (IH _ _ Hin (Hwk _ _ Hin) (Hshk _ _ Hin) st0 dc y st1 dc1); auto.
      intros p l i Hs. specialize (Hg (PElem k j :: p) l i). unfold holds in Hg. rewrite slot_at_cons in Hg. cbn [b_kids] in Hg. rewrite Hc in Hg. specialize (Hg Hs). cbn [look] in Hg.
      rewrite Ex in Hg. unfold item in Hg. cbn [vidx] in Hg. now rewrite Hy in Hg.
  - exfalso. apply Hna. unfold attrs in *. rewrite <- K. apply dget_In in E0. change k with (fst (k, x0)). now apply in_map.
Qed.

(** * The assigned value is plain and says a number about every pin *)
Lemma alike_look d0 v p l x : alike (VDict d0) v -> look (VDict d0) p l = Some x -> exists y, look v p l = Some y /\ alike x y.
Proof.
  assert (Hit : forall x x' j y, alike x x' -> item x j = Some y -> exists y', item x' j = Some y' /\ alike y y').
  { intros w w' j y Ha. destruct Ha as [|z z'|l0 l0' HF|e e' Hn Hd Hv]; unfold item; cbn [vidx]; try discriminate.
    destruct (nth_error l0 j) as [u|] eqn:E; [|discriminate]. intros [= <-]. pose proof (Forall2_nth _ _ _ HF j) as H. rewrite E in H. destruct (nth_error l0' j); [eauto|contradiction]. }
  revert d0 v. induction p as [|s t IH]; intros d0 v Ha Hx; destruct (alike_VDict _ _ Ha) as (d & -> & Hn & Hdom & Hval).
  - destruct l as [n|n j]; cbn [look] in *.
    + destruct (dget d n) as [y|] eqn:E; [|apply Hdom in E; congruence]. eauto.
    + destruct (dget d0 n) as [w|] eqn:E0; [|discriminate]. destruct (dget d n) as [w'|] eqn:E; [|apply Hdom in E; congruence]. eapply Hit; eauto.
  - destruct s as [n|n j]; cbn [look] in *; (destruct (dget d0 n) as [w|] eqn:E0; [|discriminate]); (destruct (dget d n) as [w'|] eqn:E; [|apply Hdom in E; congruence]); pose proof (Hval _ _ _ E0 E) as Ha'.
    + destruct w as [| | | |dw|]; try (destruct t as [|[|] ?]; discriminate). eapply IH; eauto.
    + destruct (item w j) as [u|] eqn:Eu; [|discriminate]. destruct (Hit _ _ _ _ Ha' Eu) as (u' & -> & Ha''). destruct u as [| | | |du|]; try (destruct t as [|[|] ?]; discriminate). eapply IH; eauto.
Qed.
Lemma as_dict_plain b : wf b -> shaped b -> forall st d, as_dict b st = Ok d -> plain (VDict d).
Proof.
  induction b as [nm m ls sls ks bls ck IH] using bundle_ind2. intros Hw Hsh st d Hd.
  destruct (as_dict_keys _ _ _ _ _ _ _ _ _ Hsh Hd) as (K & V1 & V2 & V3 & V4). inversion Hw as [? ? ? ? ? ? ? Hni Hnn Hnk Hwk]; subst.
  inversion Hsh as [? ? ? ? ? ? ? Hnd Hstar Hle Hke Hli Hki Hshk]; subst.
  assert (Hn : NoDup (map fst d)) by (rewrite K; exact Hnd). constructor; [exact Hn|]. intros k x Hi. split.
  { intros ->. apply Hstar. change (In "*" (attrs (B nm m ls sls ks bls ck))). rewrite <- K. change "*"%string with (fst ("*"%string, x)). now apply in_map. }
  assert (Hr : forall s y, read_slot st s = Ok y -> plain y) by (intros [| | |i] y; cbn [read_slot]; try discriminate; intros [= <-]; constructor).
  pose proof (In_dget d k x Hn Hi) as Hx. destruct (kind_of nm m ls sls ks bls ck Hw Hsh k) as [s Eo _|Eo Es _|c Eo Es Ek _|Eo Es Ek Eb _|Eo Es Ek Eb Hna _].
  - destruct (V1 _ _ Eo) as (y & H1 & H2). assert (y = x) by congruence. subst. eauto.
  - apply smem_In in Es. destruct (V2 _ Es) as (xs & HF & H2). rewrite H2 in Hx. injection Hx as <-. constructor. intros y Hy. apply In_nth_error in Hy. destruct Hy as [j Hj].
    destruct (Forall2_nth2 _ _ _ _ _ HF Hj) as (s & _ & H). eauto.
  - destruct (V3 _ _ Ek) as (dc & H1 & H2). rewrite H2 in Hx. injection Hx as <-. pose proof (kid_Some _ _ _ Ek) as Hin. eapply IH; eauto.
  - apply smem_In in Eb. destruct (V4 _ Eb) as (xs & HF & H2). rewrite H2 in Hx. injection Hx as <-. constructor. intros y Hy. apply In_nth_error in Hy. destruct Hy as [j Hj].
    destruct (Forall2_nth2 _ _ _ _ _ HF Hj) as (c & Hc & H). unfold dict_of in H. destruct (as_dict c st) as [dc|] eqn:Edc; [|discriminate]. injection H as <-.
    rewrite (kid_elems_kid ks k j Hnk (Hki k)) in Hc. pose proof (kid_Some _ _ _ Hc) as Hin. eapply IH; eauto.
  - exfalso. apply Hna. rewrite <- K. change k with (fst (k, x)). now apply in_map.
Qed.
Lemma alike_plain : forall x y, plain x -> alike x y -> plain y.
Proof.
  fix F 4. intros x y Hp Ha. destruct Ha as [|z z'|l l' HF|d d' Hn Hd Hv].
  - constructor.
  - constructor.
  - constructor. assert (Hp' : forall u, In u l -> plain u) by (inversion Hp; assumption). clear Hp. induction HF as [|a c l l' Hac HF IH]; [intros u []|].
    intros u [<-|Hu]; [exact (F a c (Hp' a (or_introl eq_refl)) Hac)|]. apply IH; [intros w Hw; apply Hp'; now right|exact Hu].
  - constructor; [exact Hn|]. intros k u Hu. pose proof (In_dget _ _ _ Hn Hu) as Hg. destruct (dget d k) as [w|] eqn:E.
    + pose proof (Hv k w u E Hg) as Hwu. assert (Hw : k <> "*"%string /\ plain w) by (inversion Hp as [| | | |? ? Hk]; subst; apply Hk, dget_In; exact E). split; [apply Hw|exact (F w u (proj2 Hw) Hwu)].
    + exfalso. pose proof (proj1 (Hd k) E). congruence.
Qed.

(** Which slots are readable does not depend on the values. *)
Lemma as_dict_again b st d st1 : wf b -> shaped b -> as_dict b st = Ok d -> exists d1, as_dict b st1 = Ok d1.
Proof.
  intros Hw Hsh Hd. apply as_dict_ok; [exact Hw|]. intros [p l] s Hs. destruct (as_dict_look b Hw Hsh st d Hd p l s Hs) as (x & Hx & _). apply (read_ok st). eauto.
Qed.

Lemma as_dict_alike_refl b : wf b -> shaped b -> forall st d, as_dict b st = Ok d -> alike (VDict d) (VDict d).
Proof.
  induction b as [nm m ls sls ks bls ck IH] using bundle_ind2. intros Hw Hsh st d Hd.
  destruct (as_dict_keys _ _ _ _ _ _ _ _ _ Hsh Hd) as (K & V1 & V2 & V3 & V4). inversion Hw as [? ? ? ? ? ? ? Hni Hnn Hnk Hwk]; subst.
  inversion Hsh as [? ? ? ? ? ? ? Hnd Hstar Hle Hke Hli Hki Hshk]; subst.
  assert (Hn : NoDup (map fst d)) by (rewrite K; exact Hnd). constructor; [exact Hn|tauto|]. intros k x x' Hx Hx'. assert (x' = x) by congruence. subst x'. clear Hx'.
  assert (Hr : forall s y, read_slot st s = Ok y -> alike y y) by (intros [| | |i] y; cbn [read_slot]; try discriminate; intros [= <-]; constructor).
  destruct (kind_of nm m ls sls ks bls ck Hw Hsh k) as [s Eo _|Eo Es _|c Eo Es Ek _|Eo Es Ek Eb _|Eo Es Ek Eb Hna _].
  - destruct (V1 _ _ Eo) as (y & H1 & H2). assert (y = x) by congruence. subst. eauto.
  - apply smem_In in Es. destruct (V2 _ Es) as (xs & HF & H2). rewrite H2 in Hx. injection Hx as <-. constructor. apply Forall2_nth_intro; [reflexivity|]. intros j a c Ha Hc. assert (a = c) by congruence. subst.
    destruct (Forall2_nth2 _ _ _ _ _ HF Hc) as (s & _ & H). eauto.
  - destruct (V3 _ _ Ek) as (dc & H1 & H2). rewrite H2 in Hx. injection Hx as <-. pose proof (kid_Some _ _ _ Ek) as Hin. eapply IH; eauto.
  - apply smem_In in Eb. destruct (V4 _ Eb) as (xs & HF & H2). rewrite H2 in Hx. injection Hx as <-. constructor. apply Forall2_nth_intro; [reflexivity|]. intros j a c Ha Hc. assert (a = c) by congruence. subst.
    destruct (Forall2_nth2 _ _ _ _ _ HF Hc) as (b & Hb & H). unfold dict_of in H. destruct (as_dict b st) as [dc|] eqn:Edc; [|discriminate]. injection H as <-.
    rewrite (kid_elems_kid ks k j Hnk (Hki k)) in Hb. pose proof (kid_Some _ _ _ Hb) as Hin. eapply IH; eauto.
  - exfalso. apply Hna. rewrite <- K. apply dget_In in Hx. change k with (fst (k, x)). now apply in_map.
Qed.
