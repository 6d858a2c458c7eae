(** Rebinding, specific detection, enumeration, rules, write modes. *)
From Coq Require Import List String Ascii Bool Arith ZArith Lia Permutation Decimal DecimalString DecimalNat.
From Verif Require Import Py Bundle_Model Bundle_Spec Bundle_Proofs Bundle2_Proofs Bundle3_Proofs.
Import ListNotations.
Open Scope string_scope.
Open Scope list_scope.

(** * Rebinding *)
Lemma erase_no_lists b : no_lists (erase b) <-> no_lists b.
Proof.
  induction b as [nm m ls sls ks bls ck IH] using bundle_ind2. cbn [erase]. split; intros H; inversion H as [? ? ? ? ? H1 H2 H3]; subst; constructor.
  - intros l Hl. apply (H1 (erase_leaf l)). now apply in_map.
  - intros s c Hi. apply (H2 s (erase c)). apply in_map_iff. exists (s, c). auto.
  - intros s c Hi. apply (IH s c Hi). apply (H3 s). apply in_map_iff. exists (s, c). auto.
  - intros l Hl. apply in_map_iff in Hl. destruct Hl as [x [<- Hx]]. apply (H1 x Hx).
  - intros s c Hi. apply in_map_iff in Hi. destruct Hi as [[s0 c0] [[= <- <-] Hi]]. eauto.
  - intros s c Hi. apply in_map_iff in Hi. destruct Hi as [[s0 c0] [[= <- <-] Hi]]. apply (IH s0 c0 Hi). eauto.
Qed.
Lemma erase_plain b : plain_dicts (erase b) <-> plain_dicts b.
Proof.
  induction b as [nm m ls sls ks bls ck IH] using bundle_ind2. cbn [erase]. split; intros H; inversion H as [? ? ? ? ? ? ? H1 H2]; subst; constructor; auto.
  - intros s c Hi. apply (IH s c Hi). apply (H2 s). apply in_map_iff. exists (s, c). auto.
  - intros s c Hi. apply in_map_iff in Hi. destruct Hi as [[s0 c0] [[= <- <-] Hi]]. apply (IH s0 c0 Hi). eauto.
Qed.
Lemma no_lists_set_name nm c : no_lists c -> no_lists (set_name nm c).
Proof. intros H. destruct H. now constructor. Qed.
Lemma no_lists_name_kids b : no_lists b -> no_lists (name_kids b).
Proof.
  intros H. destruct H as [nm m ls ks ck H1 H2 H3]. rewrite name_kids_B. constructor; auto.
  - intros s c Hi. apply In_named in Hi. destruct Hi as (c0 & Hi & _). eauto.
  - intros s c Hi. apply In_named in Hi. destruct Hi as (c0 & Hi & [->|[n ->]]); [|apply no_lists_set_name]; eauto.
Qed.

Lemma slot_none_places b b' : wf b -> wf b' -> places b' = places b -> forall pl, slot_at b pl = None -> slot_at b' pl = None.
Proof.
  intros H1 H2 Hp pl Hn. destruct (slot_at b' pl) eqn:E; [|reflexivity]. exfalso.
  assert (Hin : In pl (places b')) by (apply place_slot; [exact H2|congruence]). rewrite Hp in Hin. apply place_slot in Hin; [contradiction|exact H1].
Qed.

Definition inj_routes (b : bundle) (d : dut) : Prop :=
  forall e1 e2 pl, In e1 (entries d) -> In e2 (entries d) -> route b (e_name e1) = Some pl -> route b (e_name e2) = Some pl -> e_name e1 = e_name e2.
Lemma inj_of_one b d : wf b -> one_pin_each b d -> inj_routes b d.
Proof.
  intros Hw H e1 e2 pl H1 H2 R1 R2. apply In_entries in H1, H2. apply route_goes_to in R1, R2; [|exact Hw|exact Hw].
  eapply H; [apply H1|apply H2|exact R1|exact R2].
Qed.
Lemma entry_by_name d e1 e2 : dut_ok d -> In e1 (entries d) -> In e2 (entries d) -> e_name e1 = e_name e2 -> e_pin e1 = e_pin e2.
Proof.
  intros [Hn _] H1 H2 E. apply In_entries in H1, H2. destruct H1 as [_ H1], H2 as [_ H2]. rewrite E in H1.
  induction (d_pins d) as [|[x y] t IHt]; [destruct H1|]. cbn [map fst] in Hn. inversion Hn as [|? ? Hni Hnt]; subst.
  destruct H1 as [E1|H1], H2 as [E2|H2]; [congruence| | |auto]; exfalso; apply Hni.
  - injection E1 as -> _. change (e_name e2) with (fst (e_name e2, e_pin e2)). now apply in_map.
  - injection E2 as -> _. change (e_name e2) with (fst (e_name e2, e_pin e1)). now apply in_map.
Qed.

Lemma same_slots d b b' b1 b1' : dut_ok d -> wf b -> wf b' -> places b' = places b -> (forall s, route b' s = route b s) -> inj_routes b d ->
  slot_spec true b (entries d) b1 -> slot_spec true b' (entries d) b1' -> forall pl, slot_at b1' pl = slot_at b1 pl.
Proof.
  intros Hd Hw Hw' Hp Hr Hinj S S' pl. specialize (S pl). specialize (S' pl). destruct (slot_at b pl) as [s|] eqn:E.
  - destruct (slot_at b' pl) as [s'|] eqn:E'.
    2:{ exfalso. assert (H := slot_none_places b' b Hw' Hw (eq_sym Hp) pl E'). congruence. }
    destruct S as [s1 [-> D]], S' as [s1' [-> D']]. f_equal.
    destruct D as [[e [Hi [He ->]]]|[Ha ->]], D' as [[e' [Hi' [He' ->]]]|[Ha' ->]]; auto.
    + rewrite Hr in He'. f_equal. apply (entry_by_name d); auto. apply (Hinj e' e pl); auto.
    + exfalso. apply (Ha' e Hi). now rewrite Hr.
    + exfalso. rewrite Hr in He'. now apply (Ha e').
  - rewrite (slot_none_places b b' Hw Hw' Hp pl E) in S'. congruence.
Qed.

Lemma rebind_lemma t d1 d2 st : created t -> no_lists (t_b t) -> plain_dicts (t_b t) -> dut_ok d1 -> dut_ok d2 ->
  one_pin_each (t_b t) d1 -> one_pin_each (t_b t) d2 ->
  exists t1 st1 t2 st2 t3 st3,
    bind true t d1 st = Ok (t1, st1) /\ bind true t1 d2 st1 = Ok (t2, st2) /\ bind true t d2 st = Ok (t3, st3) /\
    (forall pl, slot_at (t_b t2) pl = slot_at (t_b t3) pl) /\ (forall i, nconn st2 i = nconn st3 i).
Proof.
  intros (Hb & Hub & Hwf0) Hnl0 Hpd0 Hd1 Hd2 Hone1 Hone2. set (b := name_kids (t_b t)).
  assert (Hwf : wf b) by now apply wf_name_kids. assert (Hu : unbound b) by now apply unbound_name_kids.
  assert (Hnl : no_lists b) by now apply no_lists_name_kids. assert (Hpd : plain_dicts b) by now apply plain_name_kids.
  assert (Hi1 : inj_routes b d1).
  { intros e1 e2 pl A1 A2. unfold b. rewrite !route_name_kids. now apply (inj_of_one _ _ Hwf0 Hone1). }
  assert (Hi2 : inj_routes b d2).
  { intros e1 e2 pl A1 A2. unfold b. rewrite !route_name_kids. now apply (inj_of_one _ _ Hwf0 Hone2). }
  assert (Ho1 : NoDup (map e_org (entries d1))) by (rewrite entries_orgs; apply Hd1).
  assert (Ho2 : NoDup (map e_org (entries d2))) by (rewrite entries_orgs; apply Hd2).
  assert (Hone1' : one_pin_each b d1).
  { intros s1 i1 s2 i2 pl A1 A2 G1 G2. apply route_goes_to in G1, G2; [|exact Hwf|exact Hwf].
    apply (Hi1 (mk_entry s1 s1 i1) (mk_entry s2 s2 i2) pl); cbn; auto; apply In_entries; auto. }
  destruct (bind_ok true b Hpd [] (entries d1) st (fun x (F : In x []) => match F with end)) as (b1 & s1 & r1 & B1).
  destruct (bind_ok true b Hpd [] (entries d2) st (fun x (F : In x []) => match F with end)) as (b3 & s3 & r3 & B3).
  assert (He1 := bind_erase _ _ Hwf _ _ _ _ _ _ B1).
  assert (Hwf1 : wf b1) by (apply erase_wf; rewrite He1; now apply erase_wf).
  assert (Hnl1 : no_lists b1) by (apply erase_no_lists; rewrite He1; now apply erase_no_lists).
  destruct (bind_main _ _ Hwf _ _ _ _ _ _ Ho1 B1) as (_ & S1 & _).
  destruct (bind_main _ _ Hwf _ _ _ _ _ _ Ho2 B3) as (_ & S3 & _).
  assert (Hset : settled b1).
  { intros pl s Hs. specialize (S1 pl). destruct (slot_at b pl); [|congruence]. destruct S1 as [s1' [E D]]. rewrite E in Hs. injection Hs as <-.
    destruct D as [[e [_ [_ ->]]]|[_ ->]]; [right; eauto|now left]. }
  set (st1 := match t_mode t with Some w => set_modes b1 w s1 | None => s1 end).
  assert (Hn1 : forall i, nconn st1 i = nconn s1 i).
  { intros i. unfold st1, nconn. destruct (t_mode t); [now rewrite set_modes_nconn|reflexivity]. }
  destruct (unbind_ok b1 Hwf1 Hnl1 Hset st1) as (b0 & s0 & U0 & He0 & Hc0).
  assert (Heb : erase b0 = erase b) by congruence.
  assert (Hwfb0 : wf b0) by (apply erase_wf; rewrite Heb; now apply erase_wf).
  assert (Hpd0' : plain_dicts b0) by (apply erase_plain; rewrite Heb; now apply erase_plain).
  destruct (bind_ok true b0 Hpd0' [] (entries d2) s0 (fun x (F : In x []) => match F with end)) as (b2 & s2 & r2 & B2).
  destruct (bind_main _ _ Hwfb0 _ _ _ _ _ _ Ho2 B2) as (_ & S2 & _).
  assert (Hrt : forall s, route b0 s = route b s) by (intros s; rewrite <- (erase_route b0), Heb; apply erase_route).
  exists (mk_top b1 true (t_mode t) (t_regs t ++ [d_id d1])), st1,
         (mk_top b2 true (t_mode t) ((t_regs t ++ [d_id d1]) ++ [d_id d2])), (match t_mode t with Some w => set_modes b2 w s2 | None => s2 end),
         (mk_top b3 true (t_mode t) (t_regs t ++ [d_id d2])), (match t_mode t with Some w => set_modes b3 w s3 | None => s3 end).
  split; [unfold bind; rewrite Hb; cbn [rbind]; fold b; rewrite B1; reflexivity|].
  split; [unfold bind; cbn [t_bound t_b t_mode t_regs]; rewrite U0; cbn [rbind]; rewrite B2; reflexivity|].
  split; [unfold bind; rewrite Hb; cbn [rbind]; fold b; rewrite B3; reflexivity|].
  cbn [t_b]. split.
  - apply (same_slots d2 b b0); auto. rewrite <- (erase_places b0), Heb. apply erase_places.
  - intros i. assert (Hm : forall b' s', nconn (match t_mode t with Some w => set_modes b' w s' | None => s' end) i = nconn s' i).
    { intros b' s'. unfold nconn. destruct (t_mode t); [now rewrite set_modes_nconn|reflexivity]. }
    rewrite !Hm. destruct (bind_count _ _ Hwf _ _ _ _ _ _ Ho2 B3 i) as [-> _]. destruct (bind_count _ _ Hwfb0 _ _ _ _ _ _ Ho2 B2 i) as [-> _].
    destruct (bind_count _ _ Hwf _ _ _ _ _ _ Ho1 B1 i) as [C1 _].
    assert (Hh := held_counted _ _ _ _ _ _ Hwf Hu Hd1 Hone1' B1 i).
    assert (Hq : pinhits i (fun e => negb (unrouted b0 e)) (entries d2) = pinhits i (fun e => negb (unrouted b e)) (entries d2)).
    { unfold pinhits. f_equal. apply filter_ext. intros e. unfold unrouted. now rewrite Hrt. }
    rewrite Hc0, Hn1, C1, Hh, Hq. lia.
Qed.

(** * Prefix rules *)
Lemma sapp_inj p r r' : (p ++ r = p ++ r')%string -> r = r'.
Proof. induction p; cbn [append]; [auto|]. intros [= H]. auto. Qed.

Lemma accepts_full b : prefix_only b -> forall p l s, accepts b p l s <-> full_name b p l = Some s.
Proof.
  induction b as [nm m ls sls ks bls ck IH] using bundle_ind2. intros Hp p l s. inversion Hp as [? pre ? ? ? ? ? Hk]; subst.
  rewrite accepts_B. cbn [translate]. destruct p as [|sg t]; cbn [full_name b_meth b_leaves b_kids].
  - split.
    + intros [n [Hs [x [-> Hx]]]]. apply strip_iff in Hs. cbn [option_map]. congruence.
    + destruct (leaf_in ls l) as [x|]; cbn [option_map]; [|discriminate]. intros [= <-]. exists (l_name x). split; [now apply strip_iff|eauto].
  - destruct (kid ks sg) as [c|] eqn:Ek; cbn [option_map].
    + apply kid_Some in Ek. split.
      * intros [n [Hs Ha]]. apply strip_iff in Hs. apply (IH _ _ Ek (Hk _ _ Ek)) in Ha. rewrite Ha. cbn [option_map]. congruence.
      * destruct (full_name c t l) as [r|] eqn:Er; cbn [option_map]; [|discriminate]. intros [= <-]. exists r. split; [now apply strip_iff|].
        now apply (IH _ _ Ek (Hk _ _ Ek)).
    + split; [intros [n [_ []]]|discriminate].
Qed.
Lemma prefix_one_each b d : wf b -> prefix_only b -> one_pin_each b d.
Proof.
  intros Hw Hp s1 i1 s2 i2 pl _ _ (? & ? & _ & A1 & _) (? & ? & _ & A2 & _). apply accepts_full in A1, A2; auto. congruence.
Qed.
Lemma prefix_plain b : prefix_only b -> plain_dicts b.
Proof.
  induction b as [nm m ls sls ks bls ck IH] using bundle_ind2. intros Hp. inversion Hp as [? pre ? ? ? ? ? Hk]; subst. constructor; [discriminate|eauto].
Qed.

(** * Specific detection *)
Definition dspec_kids (level target : string) := fix go (ks : list (seg * bundle)) (o : option string) : res (option string) :=
  match ks with
  | [] => Ok o
  | (s, c) :: t => match dspec c (append_level level (seg_label s)) target o with Ok o' => go t o' | Exn e => Exn e end
  end.
Lemma dspec_B nm m ls sls ks bls ck level target o :
  dspec (B nm m ls sls ks bls ck) level target o =
  match o with
  | None => Ok None
  | Some n =>
      match translate m n with
      | Some n' =>
          if has_leaf ls n' then match m with MPrefix _ => Ok None | _ => Exn TypeError end
          else match dspec_kids level target ks (Some n') with Ok None => Ok None | Ok (Some _) => Ok (Some n) | Exn e => Exn e end
      | None => if String.eqb (append_level level n) target then Ok None else Ok (Some n)
      end
  end.
Proof. reflexivity. Qed.
Lemma dspec_None b level target : dspec b level target None = Ok None.
Proof. destruct b. reflexivity. Qed.
Lemma dspec_kids_None ks level target : dspec_kids level target ks None = Ok None.
Proof. induction ks as [|[s c] t IH]; [reflexivity|]. cbn [dspec_kids]. rewrite dspec_None. exact IH. Qed.
Lemma dspec_prefix b : prefix_only b -> forall level target n,
  (dspec b level target (Some n) = Ok None \/ dspec b level target (Some n) = Ok (Some n)) /\
  (route b n <> None -> dspec b level target (Some n) = Ok None).
Proof.
  induction b as [nm m ls sls ks bls ck IH] using bundle_ind2. intros Hp level target n. inversion Hp as [? pre ? ? ? ? ? Hk]; subst.
  rewrite dspec_B, route_B. destruct (translate (MPrefix pre) n) as [n'|].
  2:{ split; [destruct (String.eqb (append_level level n) target); auto|congruence]. }
  rewrite leaf_of_has. destruct (leaf_of ls n'); [auto|].
  assert (G : forall ks', incl ks' ks -> (dspec_kids level target ks' (Some n') = Ok None \/ dspec_kids level target ks' (Some n') = Ok (Some n')) /\
     (route_kids n' ks' <> None -> dspec_kids level target ks' (Some n') = Ok None)).
  { induction ks' as [|[s c] t IHt]; intros Hi; [split; [now right|cbn; congruence]|]. cbn [dspec_kids route_kids].
    fold (dspec_kids level target). fold (route_kids n'). assert (Hin : In (s, c) ks) by (apply Hi; now left).
    destruct (IH _ _ Hin (Hk _ _ Hin) (append_level level (seg_label s)) target n') as [H1 H2].
    destruct (IHt (fun x Hx => Hi x (or_intror Hx))) as [H3 H4]. destruct (route c n') as [q|]; cbn [down option_map orelse].
    - rewrite H2 by discriminate. rewrite dspec_kids_None. auto.
    - destruct H1 as [-> | ->]; [rewrite dspec_kids_None; auto|auto]. }
  destruct (G ks (incl_refl _)) as [H1 H2]. split.
  - destruct H1 as [-> | ->]; auto.
  - intros Hr. now rewrite (H2 Hr).
Qed.

(** * Write modes, and in general: doing something to every driveable pin *)
Lemma set_modes_spec b w st i :
  set_modes b w st i = if existsb (fun x => match snd x with SPin j => Nat.eqb j i | _ => false end) (all_signals b "") && negb (p_out (st i))
                       then set_mode (st i) w else st i.
Proof.
  unfold set_modes. generalize (all_signals b ""). intros l. revert st. induction l as [|[n s] t IH]; intros st; [reflexivity|].
  cbn [fold_left existsb snd]. rewrite IH. unfold mode_one. cbn [snd]. destruct s as [| | |j]; try reflexivity.
  destruct (Nat.eqb j i) eqn:E.
  - apply Nat.eqb_eq in E. subst j. destruct (p_out (st i)) eqn:Eo; cbn [negb andb orb].
    + rewrite Eo. cbn [negb]. now rewrite andb_false_r.
    + unfold upd. rewrite Nat.eqb_refl. cbn [set_mode p_out]. rewrite Eo. cbn [negb]. destruct (existsb _ t); reflexivity.
  - cbn [orb]. destruct (p_out (st j)); [reflexivity|]. unfold upd. rewrite (Nat.eqb_sym i j), E. reflexivity.
Qed.

(** * Enumeration *)
Definition all_kids (level : string) := fix go (ks : list (seg * bundle)) : list (string * slot) :=
  match ks with [] => [] | (s, c) :: t => all_signals c (append_level level (seg_label s)) ++ go t end.
Lemma all_B nm m ls sls ks bls ck level :
  all_signals (B nm m ls sls ks bls ck) level =
  map (fun l => (append_level level (leaf_label (l_id l)), l_slot l)) ls ++ all_kids level ks.
Proof. reflexivity. Qed.

Lemma in_all_signals b : wf b -> forall level s, In s (map snd (all_signals b level)) <-> exists pl, slot_at b pl = Some s.
Proof.
  induction b as [nm m ls sls ks bls ck IH] using bundle_ind2. intros Hwf level s.
  inversion Hwf as [? ? ? ? ? ? ? Hni Hnn Hnk Hwk]; subst. rewrite all_B, map_app, in_app_iff.
  assert (G : forall ks', incl ks' ks -> (In s (map snd (all_kids level ks')) <-> exists sg c pl, In (sg, c) ks' /\ slot_at c pl = Some s)).
  { induction ks' as [|[sg c] t IHt]; intros Hi; cbn [all_kids map In]; [split; [intros []|intros (? & ? & ? & [] & _)]|]. fold (all_kids level).
    assert (Hin : In (sg, c) ks) by (apply Hi; now left). rewrite map_app, in_app_iff, (IH _ _ Hin (Hwk _ _ Hin)), IHt by (intros x Hx; apply Hi; now right).
    split.
    - intros [[pl H]|(s' & c' & pl & H1 & H2)]; [exists sg, c, pl; auto|exists s', c', pl; auto].
    - intros (s' & c' & pl & [[= -> ->]|H1] & H2); [left; eauto|right; eauto]. }
  rewrite (G ks (incl_refl _)). split.
  - intros [H|(sg & c & [p l] & H1 & H2)].
    + rewrite map_map in H. apply in_map_iff in H. destruct H as [x [<- Hx]]. exists ([], l_id x). rewrite slot_at_nil. cbn [b_leaves]. now rewrite (leaf_in_In _ _ Hni Hx).
    + exists (sg :: p, l). rewrite slot_at_cons. cbn [b_kids]. now rewrite (kid_In _ _ _ Hnk H1).
  - intros [[[|sg p] l] H].
    + left. rewrite slot_at_nil in H. cbn [b_leaves] in H. destruct (leaf_in ls l) as [x|] eqn:E; [|discriminate]. injection H as <-.
      apply leaf_in_Some in E. rewrite map_map. apply in_map_iff. exists x. split; [reflexivity|apply E].
    + right. rewrite slot_at_cons in H. cbn [b_kids] in H. destruct (kid ks sg) as [c|] eqn:E; [|discriminate]. apply kid_Some in E. eauto.
Qed.

Lemma sapp_assoc a b c : ((a ++ b) ++ c = a ++ (b ++ c))%string.
Proof. induction a; cbn [append]; congruence. Qed.
Lemma append_under level s : append_level level s = under level s. Proof. reflexivity. Qed.
Lemma under_deeper level s r : s <> "" -> under (append_level level s) r = under level (s ++ "." ++ r)%string.
Proof.
  intros Hs. unfold under, append_level. destruct (String.eqb level "") eqn:E.
  - destruct (String.eqb s "") eqn:E2; [apply String.eqb_eq in E2; contradiction|reflexivity].
  - destruct (String.eqb (level ++ "." ++ s) "") eqn:E2.
    + apply String.eqb_eq in E2. destruct level; discriminate.
    + now rewrite !sapp_assoc.
Qed.
Lemma seg_label_ne s : seg_ok s -> seg_label s <> "".
Proof. destruct s as [n|n i]; intros [Hn _]; cbn [seg_label]; [exact Hn|]. destruct n; [contradiction|discriminate]. Qed.

Lemma all_signals_places b : wf b -> idents b -> forall level,
  all_signals b level = map (fun pl => (under level (dotted (fst pl) (snd pl)), match slot_at b pl with Some s => s | None => SAbsent end)) (places b).
Proof.
  induction b as [nm m ls sls ks bls ck IH] using bundle_ind2. intros Hwf Hid level.
  inversion Hwf as [? ? ? ? ? ? ? Hni Hnn Hnk Hwk]; subst. inversion Hid as [? ? ? ? ? ? ? Hil Hik]; subst.
  rewrite all_B, places_B, map_app. f_equal.
  - rewrite map_map. apply map_ext_in. intros x Hx. cbn [fst snd dotted]. rewrite slot_at_nil. cbn [b_leaves]. now rewrite (leaf_in_In _ _ Hni Hx).
  - assert (G : forall ks', incl ks' ks -> all_kids level ks' =
      map (fun pl => (under level (dotted (fst pl) (snd pl)), match slot_at (B nm m ls sls ks bls ck) pl with Some s => s | None => SAbsent end)) (places_kids ks'));
      [|apply G; apply incl_refl].
    induction ks' as [|[s c] t IHt]; intros Hi; [reflexivity|]. cbn [all_kids places_kids]. fold (all_kids level). fold places_kids.
    rewrite map_app, IHt by (intros x Hx; apply Hi; now right). f_equal.
    assert (Hin : In (s, c) ks) by (apply Hi; now left). destruct (Hik _ _ Hin) as [Hseg Hidc].
    rewrite (IH _ _ Hin (Hwk _ _ Hin) Hidc), map_map. apply map_ext. intros [p l]. cbn [fst snd dotted].
    rewrite under_deeper by now apply seg_label_ne. rewrite slot_at_cons. cbn [b_kids]. now rewrite (kid_In _ _ _ Hnk Hin).
Qed.

(** * Distinct texts *)
Lemma no_char_app c a b : no_char c (a ++ b)%string <-> no_char c a /\ no_char c b.
Proof. induction a as [|x a IH]; cbn [append no_char]; [tauto|]. rewrite IH. tauto. Qed.
Lemma split_at c a a' r r' : no_char c a -> no_char c a' ->
  (a ++ String c r = a' ++ String c r')%string -> a = a' /\ r = r'.
Proof.
  revert a'. induction a as [|x a IH]; intros [|x' a'] H H' E; cbn [append no_char] in *.
  - injection E. auto.
  - injection E as -> _. destruct H' as [H' _]. contradiction.
  - injection E as -> _. destruct H as [H _]. contradiction.
  - injection E as -> E. destruct (IH a' (proj2 H) (proj2 H') E) as [-> ->]. auto.
Qed.
Lemma no_split c a r : no_char c a -> forall b, a <> (b ++ String c r)%string.
Proof. intros H b ->. apply no_char_app in H. destruct H as [_ [H _]]. now apply H. Qed.
Lemma dec_no c n : (forall d, In d ["0"; "1"; "2"; "3"; "4"; "5"; "6"; "7"; "8"; "9"]%char -> d <> c) -> no_char c (dec n).
Proof.
  intros H. unfold dec. generalize (Nat.to_uint n). induction u; cbn [NilEmpty.string_of_uint no_char]; auto; (split; [apply H; cbn; tauto|exact IHu]).
Qed.
Lemma dec_inj n k : dec n = dec k -> n = k.
Proof.
  unfold dec. intros H. apply DecimalNat.Unsigned.to_uint_inj.
  assert (E : NilEmpty.uint_of_string (NilEmpty.string_of_uint (Nat.to_uint n)) = NilEmpty.uint_of_string (NilEmpty.string_of_uint (Nat.to_uint k))) by now rewrite H.
  rewrite !NilEmpty.usu in E. congruence.
Qed.
Lemma app_last_inj a b c : (a ++ String c "" = b ++ String c "")%string -> a = b.
Proof.
  revert b. induction a as [|x a IH]; intros [|y b] E; cbn [append] in E; try reflexivity.
  - injection E as -> E. destruct b; discriminate.
  - injection E as -> E. destruct a; discriminate.
  - injection E as -> E. f_equal. auto.
Qed.
Lemma label_el_inj n i n' i' : ident n -> ident n' ->
  (n ++ "[" ++ dec i ++ "]" = n' ++ "[" ++ dec i' ++ "]")%string -> n = n' /\ i = i'.
Proof.
  intros (_ & _ & H) (_ & _ & H') E. cbn [append] in E. apply split_at in E; auto. destruct E as [-> E]. split; [reflexivity|].
  apply app_last_inj in E. now apply dec_inj.
Qed.
Lemma seg_label_inj s s' : seg_ok s -> seg_ok s' -> seg_label s = seg_label s' -> s = s'.
Proof.
  destruct s as [n|n i], s' as [n'|n' i']; cbn [seg_ok seg_label]; intros H H' E.
  - congruence.
  - exfalso. eapply no_split; [apply H|]. exact E.
  - exfalso. eapply no_split; [apply H'|]. symmetry. exact E.
  - destruct (label_el_inj _ _ _ _ H H' E) as [-> ->]. reflexivity.
Qed.
Lemma leaf_label_inj s s' : leafid_ok s -> leafid_ok s' -> leaf_label s = leaf_label s' -> s = s'.
Proof.
  destruct s as [n|n i], s' as [n'|n' i']; cbn [leafid_ok leaf_label]; intros H H' E.
  - congruence.
  - exfalso. eapply no_split; [apply H|]. exact E.
  - exfalso. eapply no_split; [apply H'|]. symmetry. exact E.
  - destruct (label_el_inj _ _ _ _ H H' E) as [-> ->]. reflexivity.
Qed.
Lemma el_no_dot n i : ident n -> no_char "." (n ++ "[" ++ dec i ++ "]")%string.
Proof.
  intros (_ & H & _). apply no_char_app. split; [exact H|]. cbn [append no_char]. split; [discriminate|]. apply no_char_app. split.
  - apply dec_no. cbn [In]. intros d Hd. intuition congruence.
  - cbn [no_char]. split; [discriminate|exact I].
Qed.
Lemma seg_no_dot s : seg_ok s -> no_char "." (seg_label s).
Proof. destruct s as [n|n i]; cbn [seg_ok seg_label]; intros H; [apply H|now apply el_no_dot]. Qed.
Lemma leaf_no_dot s : leafid_ok s -> no_char "." (leaf_label s).
Proof. destruct s as [n|n i]; cbn [leafid_ok leaf_label]; intros H; [apply H|now apply el_no_dot]. Qed.
Lemma dotted_inj p : forall p' l l', (forall s, In s p -> seg_ok s) -> (forall s, In s p' -> seg_ok s) -> leafid_ok l -> leafid_ok l' ->
  dotted p l = dotted p' l' -> p = p' /\ l = l'.
Proof.
  induction p as [|s p IH]; intros [|s' p'] l l' Hp Hp' Hl Hl' E; cbn [dotted] in E.
  - split; [reflexivity|]. now apply leaf_label_inj.
  - exfalso. eapply no_split; [apply leaf_no_dot, Hl|]. exact E.
  - exfalso. eapply no_split; [apply leaf_no_dot, Hl'|]. symmetry. exact E.
  - cbn [append] in E. apply split_at in E; [|apply seg_no_dot, Hp; now left|apply seg_no_dot, Hp'; now left]. destruct E as [E1 E2].
    apply seg_label_inj in E1; [|apply Hp; now left|apply Hp'; now left]. subst s'.
    destruct (IH p' l l' (fun x Hx => Hp x (or_intror Hx)) (fun x Hx => Hp' x (or_intror Hx)) Hl Hl' E2) as [-> ->]. auto.
Qed.
Lemma under_inj level a b : under level a = under level b -> a = b.
Proof. unfold under. destruct (String.eqb level ""); [auto|]. intros E. apply sapp_inj in E. cbn [append] in E. congruence. Qed.

Lemma places_idents b : idents b -> forall p l, In (p, l) (places b) -> (forall s, In s p -> seg_ok s) /\ leafid_ok l.
Proof.
  induction b as [nm m ls sls ks bls ck IH] using bundle_ind2. intros Hid p l. inversion Hid as [? ? ? ? ? ? ? Hil Hik]; subst.
  rewrite places_B, in_app_iff. intros [H|H].
  - apply in_map_iff in H. destruct H as [x [[= <- <-] Hx]]. split; [intros ? []|auto].
  - apply places_kids_In in H. destruct H as (s & c & [q ql] & Hi & Hq & [= -> ->]). destruct (Hik _ _ Hi) as [Hs Hc].
    destruct (IH _ _ Hi Hc q ql Hq) as [H1 H2]. split; [|exact H2]. intros x [<-|Hx]; auto.
Qed.
Lemma map_NoDup {A C} (f : A -> C) l : (forall x y, In x l -> In y l -> f x = f y -> x = y) -> NoDup l -> NoDup (map f l).
Proof.
  intros Hf Hn. induction Hn as [|x l Hx Hn IH]; cbn [map]; constructor.
  - intros H. apply in_map_iff in H. destruct H as [y [Hy Hi]]. apply Hx. rewrite <- (Hf y x); auto; [now right|now left].
  - apply IH. intros a b Ha Hb. apply Hf; now right.
Qed.
Lemma texts_distinct b level : wf b -> idents b -> NoDup (map fst (all_signals b level)).
Proof.
  intros Hw Hid. rewrite (all_signals_places b Hw Hid), map_map. cbn [fst]. apply map_NoDup; [|now apply wf_places].
  intros [p l] [p' l'] H H' E. cbn [fst snd] in E. apply under_inj in E.
  destruct (places_idents b Hid _ _ H) as [A1 A2], (places_idents b Hid _ _ H') as [B1 B2].
  destruct (dotted_inj p p' l l' A1 B1 A2 B2 E) as [-> ->]. reflexivity.
Qed.

(** * Rules of prefix-only trees *)
Definition rules_kids (stack1 : list bundle) (level : string) := fix go (ks : list (seg * bundle)) : res (list (string * string)) :=
  match ks with
  | [] => Ok []
  | (s, c) :: t => rbind (rules_b stack1 c (append_level level (seg_label s))) (fun r => rbind (go t) (fun rs => Ok (r ++ rs)))
  end.
Lemma rules_B stack nm m ls sls ks bls ck level :
  rules_b stack (B nm m ls sls ks bls ck) level =
  let stack1 := stack ++ [B nm m ls sls ks bls ck] in
  rbind (rules_here stack1 level ls) (fun r1 => rbind (rules_kids stack1 level ks) (fun r2 => Ok (r1 ++ r2))).
Proof. reflexivity. Qed.

Fixpoint stack_text (stack : list bundle) : string :=
  match stack with [] => "" | b :: t => match b_meth b with MPrefix p => p ++ stack_text t | _ => "" end end%string.
Definition prefix_stack (stack : list bundle) : Prop := forall b, In b stack -> exists p, b_meth b = MPrefix p.
Lemma rule_string_prefix stack sg : prefix_stack stack -> rule_string stack sg = Ok (stack_text stack ++ sg)%string.
Proof.
  induction stack as [|b t IH]; intros H; cbn [rule_string stack_text]; [reflexivity|].
  destruct (H b (or_introl eq_refl)) as [p ->]. rewrite IH by (intros x Hx; apply H; now right). cbn [rbind]. now rewrite sapp_assoc.
Qed.
Lemma stack_text_app a b : prefix_stack a -> stack_text (a ++ b) = (stack_text a ++ stack_text b)%string.
Proof.
  induction a as [|x t IH]; intros H; [reflexivity|]. cbn [List.app stack_text]. destruct (H x (or_introl eq_refl)) as [p ->].
  rewrite IH by (intros y Hy; apply H; now right). now rewrite sapp_assoc.
Qed.
Lemma rules_places b : wf b -> idents b -> prefix_only b -> forall stack level, prefix_stack stack ->
  rules_b stack b level = Ok (map (fun pl => (under level (dotted (fst pl) (snd pl)),
     (stack_text stack ++ match full_name b (fst pl) (snd pl) with Some r => r | None => "" end)%string)) (places b)).
Proof.
  induction b as [nm m ls sls ks bls ck IH] using bundle_ind2. intros Hwf Hid Hp stack level Hst.
  inversion Hwf as [? ? ? ? ? ? ? Hni Hnn Hnk Hwk]; subst. inversion Hid as [? ? ? ? ? ? ? Hil Hik]; subst. inversion Hp as [? pre ? ? ? ? ? Hk]; subst.
  rewrite rules_B. cbv zeta. set (b := B nm (MPrefix pre) ls sls ks bls ck).
  assert (Hst1 : prefix_stack (stack ++ [b])).
  { intros x Hx. apply in_app_iff in Hx. destruct Hx as [Hx|[<-|[]]]; [auto|]. exists pre. reflexivity. }
  assert (Htx : stack_text (stack ++ [b]) = (stack_text stack ++ pre)%string).
  { rewrite stack_text_app by exact Hst. cbn [stack_text b b_meth]. f_equal. clear. induction pre; cbn [append]; congruence. }
  assert (Hh : rules_here (stack ++ [b]) level ls = Ok (map (fun pl => (under level (dotted (fst pl) (snd pl)),
     (stack_text stack ++ match full_name b (fst pl) (snd pl) with Some r => r | None => "" end)%string)) (map (fun x => ([], l_id x)) ls))).
  { assert (G : forall ls', incl ls' ls -> rules_here (stack ++ [b]) level ls' = Ok (map (fun pl => (under level (dotted (fst pl) (snd pl)),
     (stack_text stack ++ match full_name b (fst pl) (snd pl) with Some r => r | None => "" end)%string)) (map (fun x => ([], l_id x)) ls')));
      [|apply G; apply incl_refl].
    induction ls' as [|x t IHt]; intros Hi; [reflexivity|]. cbn [rules_here]. rewrite rule_string_prefix by exact Hst1. cbn [rbind].
    rewrite IHt by (intros y Hy; apply Hi; now right). cbn [rbind map fst snd dotted full_name b b_meth b_leaves].
    rewrite (leaf_in_In _ _ Hni (Hi x (or_introl eq_refl))). cbn [option_map]. now rewrite Htx, sapp_assoc. }
  assert (Hkk : rules_kids (stack ++ [b]) level ks = Ok (map (fun pl => (under level (dotted (fst pl) (snd pl)),
     (stack_text stack ++ match full_name b (fst pl) (snd pl) with Some r => r | None => "" end)%string)) (places_kids ks))).
  { assert (G : forall ks', incl ks' ks -> rules_kids (stack ++ [b]) level ks' = Ok (map (fun pl => (under level (dotted (fst pl) (snd pl)),
     (stack_text stack ++ match full_name b (fst pl) (snd pl) with Some r => r | None => "" end)%string)) (places_kids ks')));
      [|apply G; apply incl_refl].
    induction ks' as [|[s c] t IHt]; intros Hi; [reflexivity|]. cbn [rules_kids places_kids]. fold (rules_kids (stack ++ [b]) level). fold places_kids.
    assert (Hin : In (s, c) ks) by (apply Hi; now left). destruct (Hik _ _ Hin) as [Hseg Hidc].
    rewrite (IH _ _ Hin (Hwk _ _ Hin) Hidc (Hk _ _ Hin)) by exact Hst1. cbn [rbind].
    rewrite IHt by (intros y Hy; apply Hi; now right). cbn [rbind]. rewrite map_app, map_map. f_equal. f_equal.
    apply map_ext_in. intros [p l] Hpl. cbn [fst snd dotted full_name b b_meth b_kids]. rewrite (kid_In _ _ _ Hnk Hin).
    rewrite under_deeper by now apply seg_label_ne. f_equal. rewrite Htx, sapp_assoc. f_equal.
    destruct (full_name c p l) as [r|] eqn:Ef; cbn [option_map]; [reflexivity|]. exfalso.
    assert (G2 : forall b, wf b -> prefix_only b -> forall p l, In (p, l) (places b) -> full_name b p l <> None).
    { clear. intros b. induction b as [nm m ls sls ks bls ck IH] using bundle_ind2. intros Hwf Hp p l.
      inversion Hwf as [? ? ? ? ? ? ? Hni Hnn Hnk Hwk]; subst. inversion Hp as [? pre ? ? ? ? ? Hk]; subst. rewrite places_B, in_app_iff. intros [H|H].
      - apply in_map_iff in H. destruct H as [x [[= <- <-] Hx]]. cbn [full_name b_meth b_leaves]. rewrite (leaf_in_In _ _ Hni Hx). discriminate.
      - apply places_kids_In in H. destruct H as (s & c & [q ql] & Hi & Hq & [= -> ->]). cbn [full_name b_meth b_kids fst snd]. rewrite (kid_In _ _ _ Hnk Hi).
        specialize (IH _ _ Hi (Hwk _ _ Hi) (Hk _ _ Hi) q ql Hq). destruct (full_name c q ql); [discriminate|contradiction]. }
    apply (G2 c (Hwk _ _ Hin) (Hk _ _ Hin) p l Hpl). exact Ef. }
  rewrite Hh, Hkk. cbn [rbind]. unfold b. rewrite places_B, map_app. reflexivity.
Qed.
Lemma full_name_place b : wf b -> prefix_only b -> forall p l, In (p, l) (places b) -> exists r, full_name b p l = Some r.
Proof.
  induction b as [nm m ls sls ks bls ck IH] using bundle_ind2. intros Hwf Hp p l.
  inversion Hwf as [? ? ? ? ? ? ? Hni Hnn Hnk Hwk]; subst. inversion Hp as [? pre ? ? ? ? ? Hk]; subst. rewrite places_B, in_app_iff. intros [H|H].
  - apply in_map_iff in H. destruct H as [x [[= <- <-] Hx]]. cbn [full_name b_meth b_leaves]. rewrite (leaf_in_In _ _ Hni Hx). cbn [option_map]. eauto.
  - apply places_kids_In in H. destruct H as (s & c & [q ql] & Hi & Hq & [= -> ->]). cbn [full_name b_meth b_kids fst snd]. rewrite (kid_In _ _ _ Hnk Hi).
    destruct (IH _ _ Hi (Hwk _ _ Hi) (Hk _ _ Hi) q ql Hq) as [r ->]. cbn [option_map]. eauto.
Qed.
