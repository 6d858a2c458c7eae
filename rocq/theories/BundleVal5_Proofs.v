(** Binding keeps the shape of a bundle. *)
From Coq Require Import List String Ascii Bool Arith ZArith Lia.
From Verif Require Import Py Dict_Proofs Bundle_Model Bundle_Spec Bundle_Proofs Bundle2_Proofs Bundle3_Proofs Bundle4_Proofs Bundle5_Proofs BundleVal_Model BundleVal_Spec BundleVal_Proofs BundleVal2_Proofs.
Import ListNotations.
Open Scope string_scope.
Open Scope list_scope.

Lemma own_names_erase ls : own_names (map erase_leaf ls) = own_names ls.
Proof. unfold own_names. induction ls as [|l t IH]; [reflexivity|]. cbn [map flat_map]. rewrite IH. reflexivity. Qed.
Lemma leaf_idx_erase ls k : leaf_idx (map erase_leaf ls) k = leaf_idx ls k.
Proof. unfold leaf_idx. induction ls as [|l t IH]; [reflexivity|]. cbn [map flat_map]. rewrite IH. reflexivity. Qed.
Lemma sub_names_fst ks ks' : map fst ks = map fst ks' -> sub_names ks = sub_names ks'.
Proof.
  unfold sub_names. revert ks'. induction ks as [|x t IH]; intros [|y t']; try discriminate; [reflexivity|]. cbn [map flat_map]. intros [= E1 E2]. now rewrite E1, (IH _ E2).
Qed.
Lemma kid_idx_fst ks ks' k : map fst ks = map fst ks' -> kid_idx ks k = kid_idx ks' k.
Proof.
  unfold kid_idx. revert ks'. induction ks as [|x t IH]; intros [|y t']; try discriminate; [reflexivity|]. cbn [map flat_map]. intros [= E1 E2]. now rewrite E1, (IH _ E2).
Qed.
Lemma erase_shaped b : shaped (erase b) <-> shaped b.
Proof.
  induction b as [nm m ls sls ks bls ck IH] using bundle_ind2. cbn [erase]. pose proof (erase_fst ks) as EF.
  split; intros H; inversion H as [? ? ? ? ? ? ? Hnd Hstar Hle Hke Hli Hki Hshk]; subst.
  - rewrite own_names_erase, (sub_names_fst _ ks EF) in *. constructor; auto.
    + intros l n i Hi E. apply (Hle (erase_leaf l) n i); [now apply in_map|exact E].
    + intros n i c Hi. apply (Hke n i (erase c)). apply in_map_iff. exists (PElem n i, c). auto.
    + intros n. rewrite <- leaf_idx_erase. apply Hli.
    + intros n. rewrite <- (kid_idx_fst _ _ n EF). apply Hki.
    + intros s c Hi. apply (IH _ _ Hi). apply (Hshk s). apply in_map_iff. exists (s, c). auto.
  - constructor; try (rewrite own_names_erase, (sub_names_fst _ ks EF); assumption).
    + intros l n i Hi E. apply in_map_iff in Hi. destruct Hi as (x & <- & Hx). eauto.
    + intros n i c Hi. apply in_map_iff in Hi. destruct Hi as ([s0 c0] & [= -> _] & Hi). eauto.
    + intros n. rewrite leaf_idx_erase. apply Hli.
    + intros n. rewrite (kid_idx_fst _ _ n EF). apply Hki.
    + intros s c Hi. apply in_map_iff in Hi. destruct Hi as ([s0 c0] & [= <- <-] & Hi). apply (IH _ _ Hi). eauto.
Qed.
Lemma erase_idents b : idents (erase b) <-> idents b.
Proof.
  induction b as [nm m ls sls ks bls ck IH] using bundle_ind2. cbn [erase]. split; intros H; inversion H as [? ? ? ? ? ? ? Hl Hk]; subst; constructor.
  - intros l Hi. apply (Hl (erase_leaf l)). now apply in_map.
  - intros s c Hi. destruct (Hk s (erase c)) as [H1 H2]; [apply in_map_iff; exists (s, c); auto|]. split; [exact H1|]. now apply (IH _ _ Hi).
  - intros l Hi. apply in_map_iff in Hi. destruct Hi as (x & <- & Hx). apply (Hl _ Hx).
  - intros s c Hi. apply in_map_iff in Hi. destruct Hi as ([s0 c0] & [= <- <-] & Hi). destruct (Hk _ _ Hi) as [H1 H2]. split; [exact H1|]. now apply (IH _ _ Hi).
Qed.
Lemma erase_flat b : flat_tree (erase b) <-> flat_tree b.
Proof.
  induction b as [nm m ls sls ks bls ck IH] using bundle_ind2. cbn [erase]. split; intros H; inversion H as [? ? ? ? ? ? Hl Hs Hk Ht]; subst; constructor; auto.
  - intros l Hi. apply (Hl (erase_leaf l)). now apply in_map.
  - intros s c Hi. apply (Hk s (erase c)). apply in_map_iff. exists (s, c). auto.
  - intros s c Hi. apply (IH _ _ Hi). apply (Ht s). apply in_map_iff. exists (s, c). auto.
  - intros l Hi. apply in_map_iff in Hi. destruct Hi as (x & <- & Hx). apply (Hl _ Hx).
  - intros s c Hi. apply in_map_iff in Hi. destruct Hi as ([s0 c0] & [= <- <-] & Hi). eauto.
  - intros s c Hi. apply in_map_iff in Hi. destruct Hi as ([s0 c0] & [= <- <-] & Hi). apply (IH _ _ Hi). eauto.
Qed.
Lemma shaped_name n c : shaped c -> shaped (set_name n c). Proof. intros H. destruct H. now constructor. Qed.
Lemma idents_name n c : idents c -> idents (set_name n c). Proof. intros H. destruct H. now constructor. Qed.
Lemma flat_name n c : flat_tree c -> flat_tree (set_name n c). Proof. intros H. destruct H. now constructor. Qed.
Lemma shaped_name_kids b : shaped b -> shaped (name_kids b).
Proof.
  intros H. destruct H as [nm m ls sls ks bls ck Hnd Hstar Hle Hke Hli Hki Hshk]. pose proof (name_kids_fst ks) as EF. rewrite name_kids_B.
  constructor; auto; try (rewrite (sub_names_fst _ ks EF); assumption).
  - intros n i c Hi. apply In_named in Hi. destruct Hi as (c0 & Hi & _). eauto.
  - intros n. rewrite (kid_idx_fst _ _ n EF). apply Hki.
  - intros s c Hi. apply In_named in Hi. destruct Hi as (c0 & Hi & [->|[n ->]]); [|apply shaped_name]; eauto.
Qed.
Lemma idents_name_kids b : idents b -> idents (name_kids b).
Proof.
  intros H. destruct H as [nm m ls sls ks bls ck Hl Hk]. rewrite name_kids_B. constructor; auto.
  intros s c Hi. apply In_named in Hi. destruct Hi as (c0 & Hi & [->|[n ->]]); destruct (Hk _ _ Hi); split; auto using idents_name.
Qed.
Lemma flat_name_kids b : flat_tree b -> flat_tree (name_kids b).
Proof.
  intros H. destruct H as [nm m ls sls ks ck Hl Hs Hk Ht]. rewrite name_kids_B. constructor; auto.
  - intros s c Hi. apply In_named in Hi. destruct Hi as (c0 & Hi & _). eauto.
  - intros s c Hi. apply In_named in Hi. destruct Hi as (c0 & Hi & [->|[n ->]]); [|apply flat_name]; eauto.
Qed.

Lemma bind_keeps acc t d st t1 st1 : created t -> bind acc t d st = Ok (t1, st1) ->
  wf (t_b t1) /\ (shaped (t_b t) -> shaped (t_b t1)) /\ (idents (t_b t) -> idents (t_b t1)) /\ (flat_tree (t_b t) -> flat_tree (t_b t1)).
Proof.
  intros (Hb & Hu & Hw) H. destruct (bind_fresh _ _ _ _ _ _ Hb H) as (b1 & st0 & rest & Hbb & -> & _). cbn [t_b].
  pose proof (bind_erase _ _ (wf_name_kids _ Hw) _ _ _ _ _ _ Hbb) as E. split; [|split; [|split]].
  - apply erase_wf. rewrite E. apply erase_wf. now apply wf_name_kids.
  - intros Hs. apply erase_shaped. rewrite E. apply erase_shaped. now apply shaped_name_kids.
  - intros Hs. apply erase_idents. rewrite E. apply erase_idents. now apply idents_name_kids.
  - intros Hs. apply erase_flat. rewrite E. apply erase_flat. now apply flat_name_kids.
Qed.

(** as_dict raises nothing but AttributeError. *)
Lemma all_ok_exn {A} (l : list (res A)) e : all_ok l = Exn e -> exists r, In r l /\ r = Exn e.
Proof.
  induction l as [|r t IH]; cbn [all_ok]; [discriminate|]. destruct r as [x|x]; cbn [rbind].
  - destruct (all_ok t) as [ys|e'] eqn:E; cbn [rbind]; [discriminate|]. intros [= ->]. destruct (IH eq_refl) as (r & Hr & Er). exists r. split; [now right|exact Er].
  - intros [= ->]. exists (Exn e). split; [now left|reflexivity].
Qed.
Lemma read_exn st s e : read_slot st s = Exn e -> e = AttributeError.
Proof. destruct s; cbn; congruence. Qed.
Lemma own_values_exn ls st e : own_values ls st = Exn e -> e = AttributeError.
Proof.
  induction ls as [|l t IH]; cbn [own_values]; [discriminate|]. destruct (l_id l); [|exact IH]. destruct (read_slot st (l_slot l)) as [x|] eqn:E; cbn [rbind].
  - destruct (own_values t st); cbn [rbind]; [discriminate|]. intros [= ->]. auto.
  - intros [= <-]. eapply read_exn; eauto.
Qed.
Lemma list_values_exn ls sls st e : list_values ls sls st = Exn e -> e = AttributeError.
Proof.
  unfold list_values. intros H. apply all_ok_exn in H. destruct H as (r & Hr & ->). apply in_map_iff in Hr. destruct Hr as (n & Hn & _).
  destruct (all_ok (map (read_slot st) (els ls n))) as [xs|e'] eqn:E; cbn [rbind] in Hn; [discriminate|]. injection Hn as ->.
  apply all_ok_exn in E. destruct E as (r & Hr & ->). apply in_map_iff in Hr. destruct Hr as (s & Hs & _). eapply read_exn; eauto.
Qed.
Lemma as_dict_exn b : forall st e, as_dict b st = Exn e -> e = AttributeError.
Proof.
  induction b as [nm m ls sls ks bls ck IH] using bundle_ind2. intros st e. rewrite as_dict_B.
  destruct (own_values ls st) eqn:E1; cbn [rbind]; [|intros [= <-]; eapply own_values_exn; eauto].
  destruct (list_values ls sls st) eqn:E2; cbn [rbind]; [|intros [= <-]; eapply list_values_exn; eauto].
  destruct (sub_values _) eqn:E3; cbn [rbind].
  2:{ intros [= <-]. clear - IH E3. induction ks as [|[s c] t IHt]; cbn [map fst snd sub_values] in E3; [discriminate|].
      assert (IH' : forall s c, In (s, c) t -> forall st e, as_dict c st = Exn e -> e = AttributeError) by (intros s' c' Hi; apply (IH s' c'); now right).
      destruct s as [n|n i]; [|auto]. destruct (as_dict c st) as [dc|] eqn:Ec; cbn [rbind] in E3; [|injection E3 as <-; apply (IH (PSub n) c (or_introl eq_refl) st _ Ec)].
      destruct (sub_values _) eqn:Et; cbn [rbind] in E3; [discriminate|]. injection E3 as ->. auto. }
  destruct (all_ok _) eqn:E4; cbn [rbind]; [discriminate|]. intros [= <-]. apply all_ok_exn in E4. destruct E4 as (r & Hr & ->). apply in_map_iff in Hr. destruct Hr as (n & Hn & _).
  rewrite elem_values_kids in Hn. destruct (all_ok (map (dict_of st) (kid_elems ks n))) as [xs|e'] eqn:E; cbn [rbind] in Hn; [discriminate|]. injection Hn as ->.
  apply all_ok_exn in E. destruct E as (r & Hr & ->). apply in_map_iff in Hr. destruct Hr as (c & Hc & Hi). destruct (kid_elems_in _ _ _ Hi) as [s Hs]. unfold dict_of in Hc.
  destruct (as_dict c st) as [dc|] eqn:Ec; cbn [rbind] in Hc; [discriminate|]. injection Hc as <-. eapply IH; eauto.
Qed.
