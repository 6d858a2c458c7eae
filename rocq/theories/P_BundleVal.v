(** Property theorems for reading and writing bundles: C42 (reads), C48 - C52.

    [wr] is the behaviour of the DUT's pins on writes and [usr] that of __bundle_assign__ methods: both arbitrary. *)
From Coq Require Import List String Ascii Bool Arith ZArith Lia.
From Verif Require Import Py Dict_Proofs Bundle_Model Bundle_Spec Bundle_Proofs Bundle4_Proofs Bundle5_Proofs BundleVal_Model BundleVal_Spec BundleVal_Proofs
  BundleVal2_Proofs BundleVal3_Proofs BundleVal4_Proofs BundleVal5_Proofs P_Bundle.
Import ListNotations.
Open Scope string_scope.
Open Scope list_scope.

(** A bundle bound to a DUT for the first time. *)
Definition bound (acc : bool) (t1 : top) : Prop := exists t d st st1, created t /\ shaped (t_b t) /\ idents (t_b t) /\ dut_ok d /\ bind acc t d st = Ok (t1, st1).
Lemma bound_ok acc t1 : bound acc t1 -> wf (t_b t1) /\ shaped (t_b t1) /\ idents (t_b t1) /\ (forall i, single (t_b t1) i) /\
  (acc = true -> forall pl s, slot_at (t_b t1) pl = Some s -> readable s).
Proof.
  intros (t & d & st & st1 & Hc & Hs & Hi & Hd & H). destruct (bind_keeps _ _ _ _ _ _ Hc H) as (H1 & H2 & H3 & _). split; [exact H1|]. split; [auto|]. split; [auto|]. split.
  - intros i p q. eapply C42_once; eauto.
  - intros -> pl s Hp. pose proof (bind_spec _ _ _ _ _ _ Hc Hd H pl) as S. destruct (slot_at (t_b t) pl) as [s0|]; [|congruence].
    destruct S as (s1 & E & [(n & i & _ & _ & ->)|[_ ->]]); rewrite E in Hp; injection Hp as <-; exact I.
Qed.

(** What a signal reads. *)
Definition reading (st : store) (s : slot) : option val :=
  match s with SPin i => Some (VInt (p_val (st i))) | SDummy => Some VNone | _ => None end.
(** The pin takes the number [z], whatever value it has. *)
Definition takes (wr : pin -> val -> res Z) (p : pin) (z : Z) : Prop := forall old, wr (set_val p old) (VInt z) = Ok z.

(** C48, C42: as_dict says about every signal what it reads; connected signals read their pins, unconnected ones None. *)
Theorem C48_reads : forall acc t1 st d p l s, bound acc t1 -> as_dict (t_b t1) st = Ok d -> slot_at (t_b t1) (p, l) = Some s ->
  look (VDict d) p l = reading st s /\ reading st s <> None.
Proof.
  intros acc t1 st d p l s Hb Hd Hs. destruct (bound_ok _ _ Hb) as (Hw & Hsh & _). destruct (as_dict_look _ Hw Hsh st d Hd p l s Hs) as (x & Hr & ->).
  destruct s; cbn in *; try discriminate; injection Hr as <-; split; congruence.
Qed.
Print Assumptions C48_reads.

Theorem C42_reads : forall t1 st, bound true t1 -> exists d, as_dict (t_b t1) st = Ok d /\
  forall p l s, slot_at (t_b t1) (p, l) = Some s -> s = SDummy \/ (exists i, s = SPin i) /\ look (VDict d) p l = reading st s.
Proof.
  intros t1 st Hb. destruct (bound_ok _ _ Hb) as (Hw & Hsh & _ & _ & Hr). destruct (as_dict_ok _ Hw st (Hr eq_refl)) as [d Hd]. exists d. split; [exact Hd|].
  intros p l s Hs. destruct (C48_reads _ _ _ _ _ _ _ Hb Hd Hs) as [H1 H2]. destruct s; cbn in H2; try congruence; [now left|right; eauto].
Qed.
Print Assumptions C42_reads.

(** C42: writing to an unconnected signal (default) changes no pin, and does not raise. *)
Theorem C42_ignored : forall wr usr t1 n x lv st, bound true t1 -> slot_at (t_b t1) ([], LSig n) = Some SDummy -> plain x ->
  o_res (assign wr usr true (t_b t1) (VDict [(n, x)]) lv st) = Ok tt /\ forall i, o_st (assign wr usr true (t_b t1) (VDict [(n, x)]) lv st) i = st i.
Proof.
  intros wr usr t1 n x lv st Hb Hs Hp. destruct (bound_ok _ _ Hb) as (Hw & Hsh & _ & _ & _). assert (Hne : n <> "*").
  { intros ->. destruct (t_b t1) as [nm m ls sls ks bls ck]. inversion Hsh as [? ? ? ? ? ? ? _ Hst _ _ _ _ _]; subst. apply Hst. rewrite <- own_slot in Hs. apply own_name in Hs. apply in_app_iff. auto. }
  assert (Hpl : plain (VDict [(n, x)])) by (constructor; [cbn; nodup|intros k y [[= <- <-]|[]]; auto]). split.
  - destruct (t_b t1) as [nm m ls sls ks bls ck]. rewrite assign_B. destruct (plain_no_star _ Hpl) as [-> ->]. cbv iota. cbn [each]. unfold act_multi at 1 2 3. rewrite own_slot with (nm := nm) (m := m) (sls := sls) (ks := ks) (bls := bls) (ck := ck), Hs. reflexivity.
  - intros i. apply (proj1 (assign_main wr usr _ Hw Hsh)); [exact Hpl|]. intros p l Hh. rewrite look_head. cbn [dget]. destruct (String.eqb (head (p, l)) n) eqn:E; [|reflexivity]. apply String.eqb_eq in E.
    exfalso. unfold holds in Hh. destruct (t_b t1) as [nm m ls sls ks bls ck]. pose proof Hs as Ho. rewrite <- own_slot in Ho.
    destruct (kind_of nm m ls sls ks bls ck Hw Hsh n) as [s Eo Hk|Eo|c Eo|Eo|Eo]; try congruence. pose proof (Hk _ _ E Hh) as Epl. rewrite Epl in Hh. congruence.
Qed.
Print Assumptions C42_ignored.

(** C42: with unconnected_signal_access=False, reading or writing a signal without pin raises AttributeError. *)
Theorem C42_raises : forall wr usr t1 st, bound false t1 ->
  (forall pl s, slot_at (t_b t1) pl = Some s -> (forall i, s <> SPin i) -> as_dict (t_b t1) st = Exn AttributeError) /\
  (forall n s x lv, slot_at (t_b t1) ([], LSig n) = Some s -> (forall i, s <> SPin i) ->
     o_res (assign wr usr true (t_b t1) (VDict [(n, x)]) lv st) = Exn AttributeError /\ o_st (assign wr usr true (t_b t1) (VDict [(n, x)]) lv st) = st).
Proof.
  intros wr usr t1 st Hb. destruct (bound_ok _ _ Hb) as (Hw & Hsh & _ & _ & _).
  assert (Hnr : forall pl s, slot_at (t_b t1) pl = Some s -> (forall i, s <> SPin i) -> s = SPlaceholder \/ s = SAbsent).
  { intros pl s Hs Hn. destruct Hb as (t & d & st' & st1 & Hc & _ & _ & Hd & H). pose proof (bind_spec _ _ _ _ _ _ Hc Hd H pl) as S. destruct (slot_at (t_b t) pl) as [s0|] eqn:E0; [|congruence].
    destruct S as (s1 & E & [(m & i & _ & _ & ->)|[_ ->]]); rewrite E in Hs; injection Hs as <-; [now destruct (Hn i)|]. eapply unbound_slot; [apply Hc|exact E0]. }
  split.
  - intros [p l] s Hs Hn. destruct (as_dict (t_b t1) st) as [d|e] eqn:E; [|f_equal; eapply as_dict_exn; eauto]. exfalso. destruct (as_dict_look _ Hw Hsh st d E p l s Hs) as (x & Hr & _).
    destruct (Hnr _ _ Hs Hn) as [-> | ->]; discriminate.
  - intros n s x lv Hs Hn. destruct (Hnr _ _ Hs Hn) as [-> | ->]; (destruct (t_b t1) as [nm m ls sls ks bls ck]; rewrite assign_B;
    assert (Hne : ~ In "*" (map fst [(n, x)])) by (intros [E|[]]; cbn in E; subst n; inversion Hsh as [? ? ? ? ? ? ? _ Hst _ _ _ _ _]; subst; apply Hst; rewrite <- own_slot in Hs; apply own_name in Hs; apply in_app_iff; auto);
    destruct (no_star _ Hne) as [-> ->]; cbv iota; cbn [each]; unfold act_multi; rewrite own_slot with (nm := nm) (m := m) (sls := sls) (ks := ks) (bls := bls) (ck := ck), Hs; cbn [just write_slot fst snd o_res o_st]; split; reflexivity).
Qed.
Print Assumptions C42_raises.

(** C48: the keys are the attribute names, each once. *)
Theorem C48_keys : forall acc t1 st d, bound acc t1 -> as_dict (t_b t1) st = Ok d -> map fst d = attrs (t_b t1) /\ NoDup (map fst d).
Proof.
  intros acc t1 st d Hb Hd. destruct (bound_ok _ _ Hb) as (Hw & Hsh & _). destruct (t_b t1) as [nm m ls sls ks bls ck]. destruct (as_dict_keys _ _ _ _ _ _ _ _ _ Hsh Hd) as (-> & _).
  split; [reflexivity|]. inversion Hsh; assumption.
Qed.
Print Assumptions C48_keys.

(** C48: assigning what was read changes no pin, logs nothing and leaves the dictionary alone (every pin accepts its own value). *)
Theorem C48_same : forall wr usr acc t1 lv st d, bound acc t1 -> as_dict (t_b t1) st = Ok d ->
  (forall i, held (t_b t1) i -> wr (st i) (VInt (p_val (st i))) = Ok (p_val (st i))) ->
  let o := assign wr usr true (t_b t1) (VDict d) lv st in o_res o = Ok tt /\ o_log o = [] /\ o_val o = VDict d /\ forall i, o_st o i = st i.
Proof.
  intros wr usr acc t1 lv st d Hb Hd Hwr. destruct (bound_ok _ _ Hb) as (Hw & Hsh & _). cbv zeta.
  assert (Hself : forall p, set_val p (p_val p) = p) by (intros []; reflexivity).
  apply (assign_fine wr usr (fun s => forall i, s i = st i) _ Hw Hsh st d); auto.
  - apply (as_dict_alike_refl _ Hw Hsh st d Hd).
  - intros p l s y Hs Hl i st' -> Hst. destruct (as_dict_look _ Hw Hsh st d Hd p l _ Hs) as (x & Hr & Hl'). rewrite Hl in Hl'. injection Hl' as ->. cbn in Hr. injection Hr as <-.
    exists (p_val (st i)). rewrite Hst. split; [apply Hwr; exists (p, l); exact Hs|]. intros j. unfold upd. rewrite Hself. destruct (Nat.eqb j i) eqn:E; [apply Nat.eqb_eq in E; now subst|apply Hst].
Qed.
Print Assumptions C48_same.

(** C48: after assigning a full dictionary of numbers the pins take, as_dict gives this dictionary. *)
Theorem C48_full : forall wr usr acc t1 lv st d0 v, bound acc t1 -> as_dict (t_b t1) st = Ok d0 -> alike (VDict d0) v ->
  (forall p l i z, holds (t_b t1) (p, l) i -> look v p l = Some (VInt z) -> takes wr (st i) z) ->
  let o := assign wr usr true (t_b t1) v lv st in o_res o = Ok tt /\ o_log o = [] /\ o_val o = v /\
  exists d1, as_dict (t_b t1) (o_st o) = Ok d1 /\ same (VDict d1) v.
Proof.
  intros wr usr acc t1 lv st d0 v Hb Hd Ha Ht. destruct (bound_ok _ _ Hb) as (Hw & Hsh & _ & Hsing & _). cbv zeta.
  assert (Hnum : forall p l i, holds (t_b t1) (p, l) i -> exists z, look v p l = Some (VInt z)).
  { intros p l i Hh. destruct (as_dict_look _ Hw Hsh st d0 Hd p l _ Hh) as (x & Hr & Hl). cbn in Hr. injection Hr as <-. destruct (alike_look _ _ _ _ _ Ha Hl) as (y & Hy & Hay). inversion Hay; subst. eauto. }
  assert (F : fine (fun s => forall i, exists z, s i = set_val (st i) z) (assign wr usr true (t_b t1) v lv st) v).
  { apply (assign_fine wr usr _ _ Hw Hsh st d0); auto.
    - intros p l s y Hs Hl i st' -> Hst. destruct (Hnum p l i Hs) as (z & Hz). rewrite Hl in Hz. injection Hz as ->. exists z. destruct (Hst i) as [old E]. split; [rewrite E; apply (Ht p l i z Hs Hl)|].
      intros j. unfold upd. destruct (Nat.eqb j i) eqn:Ej; [|apply Hst]. apply Nat.eqb_eq in Ej. subst. rewrite E. exists z. reflexivity.
    - intros i. exists (p_val (st i)). destruct (st i); reflexivity. }
  destruct F as (F1 & F2 & F3 & _). split; [exact F1|]. split; [exact F2|]. split; [exact F3|].
  destruct (as_dict_again _ st d0 (o_st (assign wr usr true (t_b t1) v lv st)) Hw Hsh Hd) as [d1 Hd1]. exists d1. split; [exact Hd1|].
  apply (as_dict_same _ Hw Hsh st d0 v _ d1 Hd Ha Hd1). intros p l i Hh. destruct (Hnum p l i Hh) as (z & Hz).
  assert (Hpl : plain v) by (eapply alike_plain; [exact (as_dict_plain _ Hw Hsh st d0 Hd)|exact Ha]).
  destruct (proj2 (assign_main wr usr _ Hw Hsh) v lv st i p l (VInt z) Hpl (Hsing i) Hh Hz F1) as (z' & Hz' & E).
  pose proof (Ht p l i z Hh Hz (p_val (st i))) as Htk. replace (set_val (st i) (p_val (st i))) with (st i) in Htk by (destruct (st i); reflexivity). rewrite Hz in *. f_equal. f_equal.
  rewrite E. cbn [set_val p_val]. congruence.
Qed.
Print Assumptions C48_full.

(** C51: a pin that no signal named in the dictionary is connected to keeps its value, also if the call raises. *)
Theorem C51_frame : forall wr usr acc t1 v lv st i, bound acc t1 -> plain v ->
  (forall p l, holds (t_b t1) (p, l) i -> look v p l = None) -> o_st (assign wr usr true (t_b t1) v lv st) i = st i.
Proof. intros wr usr acc t1 v lv st i Hb Hp H. destruct (bound_ok _ _ Hb) as (Hw & Hsh & _). now apply (proj1 (assign_main wr usr _ Hw Hsh)). Qed.
Print Assumptions C51_frame.

(** C51: the pin of a named signal gets the value written to it, if the call does not raise. *)
Theorem C51_effect : forall wr usr acc t1 v lv st i p l y, bound acc t1 -> plain v -> holds (t_b t1) (p, l) i -> look v p l = Some y ->
  o_res (assign wr usr true (t_b t1) v lv st) = Ok tt -> exists z, wr (st i) y = Ok z /\ o_st (assign wr usr true (t_b t1) v lv st) i = set_val (st i) z.
Proof. intros wr usr acc t1 v lv st i p l y Hb Hp Hh Hl Hok. destruct (bound_ok _ _ Hb) as (Hw & Hsh & _ & Hs & _). exact (proj2 (assign_main wr usr _ Hw Hsh) v lv st i p l y Hp (Hs i) Hh Hl Hok). Qed.
Print Assumptions C51_effect.

Lemma each_unknown act k x n d1 d2 st : (forall st', act k x st' = mk_out (Ok tt) st' [LNotFound n] x) ->
  let a := each act (d1 ++ (k, x) :: d2) st in let b := each act (d1 ++ d2) st in
  fst (fst (fst a)) = fst (fst (fst b)) /\ snd (fst (fst a)) = snd (fst (fst b)) /\ (fst (fst (fst a)) = Ok tt -> In (LNotFound n) (snd (fst a))).
Proof.
  intros H. cbv zeta. revert st. induction d1 as [|[k' x'] t IH]; intros st; cbn [List.app each].
  - rewrite H. cbn [o_res o_st o_log]. destruct (each act d2 st) as [[[r st2] lg] d3]. cbn. auto.
  - destruct (o_res (act k' x' st)) as [u|e] eqn:E; [|cbn; split; [reflexivity|split; [reflexivity|discriminate]]]. specialize (IH (o_st (act k' x' st))).
    destruct (each act (t ++ (k, x) :: d2) _) as [[[r st2] lg] d3]. destruct (each act (t ++ d2) _) as [[[r' st2'] lg'] d3']. cbn [fst snd] in *. destruct IH as (I1 & I2 & I3).
    split; [exact I1|]. split; [exact I2|]. intros Hr. apply in_app_iff. auto.
Qed.

(** C51: a key that is no attribute is reported in the log and has no other effect. *)
Theorem C51_unknown : forall wr usr acc t1 d1 d2 k x lv st, bound acc t1 -> ~ In k (attrs (t_b t1)) -> k <> "*" -> ~ In "*" (map fst (d1 ++ d2)) ->
  let o := assign wr usr true (t_b t1) (VDict (d1 ++ (k, x) :: d2)) lv st in
  let o' := assign wr usr true (t_b t1) (VDict (d1 ++ d2)) lv st in
  o_res o = o_res o' /\ o_st o = o_st o' /\ (o_res o = Ok tt -> In (LNotFound (append_level lv k)) (o_log o)).
Proof.
  intros wr usr acc t1 d1 d2 k x lv st Hb Hk Hne Hs. destruct (bound_ok _ _ Hb) as (Hw & Hsh & _). cbv zeta. destruct (t_b t1) as [nm m ls sls ks bls ck]. rewrite !assign_B.
  assert (Hs' : ~ In "*" (map fst (d1 ++ (k, x) :: d2))).
  { rewrite map_app in *. cbn [map fst]. rewrite in_app_iff in *. cbn [In]. intuition. }
  destruct (no_star _ Hs) as [-> ->]. destruct (no_star _ Hs') as [-> ->]. cbv iota.
  match goal with |- context [each ?a (d1 ++ _ :: _) st] => pose proof (each_unknown a k x (append_level lv k) d1 d2 st) as E end.
  cbv zeta in E. destruct (each _ (d1 ++ (k, x) :: d2) st) as [[[r st2] lg] d3]. destruct (each _ (d1 ++ d2) st) as [[[r' st2'] lg'] d3']. cbn [fst snd o_res o_st o_log] in *. apply E. clear E.
  intros st'. unfold act_multi. destruct (kind_of nm m ls sls ks bls ck Hw Hsh k) as [s Eo _|Eo Es _|c Eo Es Ek _|Eo Es Ek Eb _|Eo Es Ek Eb _ _]; cycle 4; [|exfalso; apply Hk; unfold attrs; cbn [b_leaves b_slists b_kids b_blists]; rewrite !in_app_iff ..].
  - rewrite Eo, Es, sub_kid, Ek. cbn [option_map]. rewrite Eb. reflexivity.
  - left. eapply own_name; eauto.
  - right. left. now apply smem_In.
  - right. right. left. eapply kid_name; eauto.
  - right. right. right. now apply smem_In.
Qed.
Print Assumptions C51_unknown.

(** C50, what holds: with a '*' entry on the top level, named pins get their values, all other pins that are not outputs get the
    value of '*', and nothing else changes.  Missing: the caller's dictionary is modified (below). *)
Theorem C50_partial : forall wr usr acc t1 d x lv st, bound acc t1 -> NoDup (map fst d) -> dget d "*" = Some x -> plain (VDict (ddel d "*")) ->
  let b := t_b t1 in let o := assign wr usr true b (VDict d) lv st in
  (forall i, (held b i -> p_out (st i) = true) -> (forall p l, holds b (p, l) i -> look (VDict (ddel d "*")) p l = None) -> o_st o i = st i) /\
  (o_res o = Ok tt -> forall i p l, holds b (p, l) i ->
     (forall y, look (VDict (ddel d "*")) p l = Some y -> exists old z, wr (set_val (st i) old) y = Ok z /\ o_st o i = set_val (st i) z) /\
     (look (VDict (ddel d "*")) p l = None -> p_out (st i) = false -> exists z, wr (st i) x = Ok z /\ o_st o i = set_val (st i) z)).
Proof.
  intros wr usr acc t1 d x lv st Hb Hn Hx Hp. cbv zeta. destruct (bound_ok _ _ Hb) as (Hw & Hsh & Hid & Hs & _). destruct (assign_main wr usr _ Hw Hsh) as [HF HE].
  assert (Hns : ~ In "*" (map fst (ddel d "*"))).
  { intros Hi. apply in_map_iff in Hi. destruct Hi as [[k y] [E Hi]]. cbn in E. subst k. inversion Hp as [| | | |? _ Hk]; subst. now apply (Hk _ _ Hi). }
  split.
  - intros i Ho Hl. destruct (fst (set_all wr (t_b t1) x st)) as [u|e] eqn:E.
    + assert (Eq : assign wr usr true (t_b t1) (VDict d) lv st = assign wr usr true (t_b t1) (VDict (ddel d "*")) lv (snd (set_all wr (t_b t1) x st))).
      { destruct (t_b t1) as [nm m ls sls ks bls ck]. rewrite !assign_B, Hx. destruct (set_all wr _ x st) as [r st1]. cbn [fst snd] in *. subst r. destruct (no_star _ Hns) as [-> Ed]. rewrite Ed. reflexivity. }
      rewrite Eq. rewrite (HF (VDict (ddel d "*")) lv _ i Hp Hl). now apply set_all_frame.
    + destruct (set_all_fail wr usr _ _ _ lv _ _ Hx E) as [_ ->]. now apply set_all_frame.
  - intros Hok i p l Hh. destruct (assign_star wr usr _ _ _ _ _ Hx Hns Hok) as [Hok1 Eq]. rewrite Eq in *. set (st1 := snd (set_all wr (t_b t1) x st)) in *.
    assert (Hst1 : exists old, st1 i = set_val (st i) old).
    { destruct (p_out (st i)) eqn:Eo.
      - exists (p_val (st i)). unfold st1. rewrite set_all_frame; auto. destruct (st i); reflexivity.
      - destruct (set_all_effect wr _ x st i Hw Hid (Hs i) (ex_intro (fun pl => holds (t_b t1) pl i) (p, l) Hh) Eo Hok1) as (z & _ & E). exists z. exact E. }
    destruct Hst1 as [old Eold]. split.
    + intros y Hy. destruct (HE _ lv st1 i p l y Hp (Hs i) Hh Hy Hok) as (z & Hz & E). exists old, z. rewrite <- Eold. split; [exact Hz|]. rewrite E, Eold. reflexivity.
    + intros Hno Ho. destruct (set_all_effect wr _ x st i Hw Hid (Hs i) (ex_intro (fun pl => holds (t_b t1) pl i) (p, l) Hh) Ho Hok1) as (z & Hz & E). exists z. split; [exact Hz|]. fold st1 in E. rewrite <- E. apply HF; [exact Hp|].
      intros p' l' Hh'. pose proof (Hs i _ _ Hh' Hh) as Epl. injection Epl as -> ->. exact Hno.
Qed.
Print Assumptions C50_partial.

(** C50 is false: every successful call removes the '*' entry from the caller's dictionary; the second call with the same
    dictionary then sets nothing. *)
Lemma each_keys act d st : fst (fst (fst (each act d st))) = Ok tt -> map fst (snd (each act d st)) = map fst d.
Proof.
  revert st. induction d as [|[k x] t IH]; intros st; [reflexivity|]. cbn [each]. destruct (o_res (act k x st)); [|discriminate]. specialize (IH (o_st (act k x st))).
  destruct (each act t _) as [[[r st2] lg] t1]. cbn [fst snd map] in *. intros Hr. now rewrite IH.
Qed.
(** A pin that takes the numbers that fit into its width, and nothing else. *)
Definition wr8 (p : pin) (v : val) : res Z :=
  match v with VInt z => if (Z.leb 0 z && Z.ltb z (2 ^ Z.of_nat (p_width p)))%bool then Ok z else Exn ValueError | _ => Exn TypeError end.
Definition nousr : nat -> bundle -> store -> res unit * store := fun _ _ st => (Ok tt, st).
Definition two (d : list (string * val)) (b : bundle) (st : store) : store :=
  let o := assign wr8 nousr true b (VDict d) "" st in
  let st1 := upd (o_st o) 0 (set_val (o_st o 0) 1) in
  o_st (assign wr8 nousr true b (o_val o) "" st1).
Theorem C50_refuted :
  (forall wr usr ml b d x lv st, NoDup (map fst d) -> dget d "*" = Some x -> o_res (assign wr usr ml b (VDict d) lv st) = Ok tt ->
     exists d1, o_val (assign wr usr ml b (VDict d) lv st) = VDict d1 /\ dget d1 "*" = None) /\
  exists t1 st1, bind true (fresh treeb) dut1 st0 = Ok (t1, st1) /\ p_val (two [("*", VInt 5)] (t_b t1) st1 0) = 1%Z /\ p_out (st1 0) = false.
Proof.
  split; [|run]. intros wr usr ml b d x lv st Hn Hx. destruct b as [nm m ls sls ks bls ck]. rewrite assign_B, Hx. destruct (set_all wr _ x st) as [[u|e] st1]; [|discriminate].
  match goal with |- context [each ?a (ddel d "*") st1] => pose proof (each_keys a (ddel d "*") st1) as E end.
  destruct (each _ (ddel d "*") st1) as [[[r st2] lg] d2]. cbn [fst snd o_res o_val] in *. intros Hr. exists d2. split; [reflexivity|]. apply dget_None. rewrite (E Hr). intros Hi.
  pose proof (dget_del_same d "*" Hn) as G. apply dget_None in G. exact (G Hi).
Qed.
Print Assumptions C50_refuted.

(** C52: set_all writes the value to every connected pin that is not an output (if no write raises), and to nothing else. *)
Theorem C52_set_all : forall wr acc t1 v st i, bound acc t1 ->
  ((held (t_b t1) i -> p_out (st i) = true) -> snd (set_all wr (t_b t1) v st) i = st i) /\
  (held (t_b t1) i -> p_out (st i) = false -> fst (set_all wr (t_b t1) v st) = Ok tt -> exists z, wr (st i) v = Ok z /\ snd (set_all wr (t_b t1) v st) i = set_val (st i) z).
Proof.
  intros wr acc t1 v st i Hb. destruct (bound_ok _ _ Hb) as (Hw & Hsh & Hid & Hs & _). split; [now apply set_all_frame|]. intros Hh Ho Hok. exact (set_all_effect wr _ v st i Hw Hid (Hs i) Hh Ho Hok).
Qed.
Print Assumptions C52_set_all.

(** C52: randomize_all gives every connected pin that is neither an output nor excluded a number that the random function chose for
    the requested range, or for [0, 2^width - 1] (width 0 counts as 1); nothing else changes, also if a write raises. *)
Theorem C52_randomize : forall wr acc t1 rnd range excl st i, bound acc t1 ->
  ((forall p l, holds (t_b t1) (p, l) i -> In (dotted p l) excl) \/ p_out (st i) = true -> snd (randomize_all wr (t_b t1) rnd range excl st) i = st i) /\
  (forall p l, holds (t_b t1) (p, l) i -> p_out (st i) = false -> ~ In (dotted p l) excl -> fst (randomize_all wr (t_b t1) rnd range excl st) = Ok tt ->
   exists k lo hi z, (range = Some (lo, hi) \/ range = None /\ lo = 0%Z /\ hi = (2 ^ Z.max 1 (Z.of_nat (p_width (st i))) - 1)%Z) /\
     wr (st i) (VInt (rnd k lo hi)) = Ok z /\ snd (randomize_all wr (t_b t1) rnd range excl st) i = set_val (st i) z).
Proof.
  intros wr acc t1 rnd range excl st i Hb. destruct (bound_ok _ _ Hb) as (Hw & Hsh & Hid & Hs & _). unfold randomize_all. split.
  - intros H. apply random_frame. destruct H as [H|H]; [left|now right]. intros n Hn.
    destruct (in_all_signals _ Hw "" (SPin i)) as [G _]. destruct G as [[p l] Hp]; [change (SPin i) with (snd (n, SPin i)); now apply in_map|].
    rewrite (signal_names _ _ _ _ _ Hw Hid (Hs i) Hp Hn). now apply H.
  - intros p l Hh Ho Hx. destruct (signals_split _ i p l Hw Hid (Hs i) Hh) as (l1 & l2 & -> & H1 & H2). intros Hok.
    destruct (random_effect wr rnd range excl (dotted p l) l2 i H2 Hx l1 0 st H1 Ho Hok) as (k & z & Hz & E). exists k, (fst (bounds range (st i))), (snd (bounds range (st i))), z. split; [|auto].
    unfold bounds. destruct range as [[lo hi]|]; [now left|right]. cbn [fst snd]. split; [reflexivity|]. split; [reflexivity|]. f_equal. f_equal. destruct (Nat.eqb (p_width (st i)) 0) eqn:E0; [apply Nat.eqb_eq in E0; rewrite E0; reflexivity|]. apply Nat.eqb_neq in E0. lia.
Qed.
Print Assumptions C52_randomize.

(** C52: a randomize_all that does not raise asks for one random number per such pin, and gives each pin the number that was asked for it: the pins [pins],
    each once, get the first, second, ... number. *)
Theorem C52_draws : forall wr acc t1 rnd range excl st, bound acc t1 -> fst (randomize_all wr (t_b t1) rnd range excl st) = Ok tt -> exists pins, NoDup pins /\
  (forall i, In i pins <-> p_out (st i) = false /\ exists p l, holds (t_b t1) (p, l) i /\ ~ In (dotted p l) excl) /\
  (forall k i, nth_error pins k = Some i -> exists lo hi z, (range = Some (lo, hi) \/ range = None /\ lo = 0%Z /\ hi = (2 ^ Z.max 1 (Z.of_nat (p_width (st i))) - 1)%Z) /\
     wr (st i) (VInt (rnd k lo hi)) = Ok z /\ snd (randomize_all wr (t_b t1) rnd range excl st) i = set_val (st i) z).
Proof.
  intros wr acc t1 rnd range excl st Hb Hok. destruct (bound_ok _ _ Hb) as (Hw & Hsh & Hid & Hs & _). unfold randomize_all in *. assert (O := signals_once _ Hw Hid Hs).
  exists (drawn excl st (all_signals (t_b t1) "")). split; [now apply drawn_nodup|]. split.
  - intros i. rewrite drawn_in. split; (intros [A B]; split; [exact A|]).
    + destruct B as [n [B C]]. destruct (in_all_signals _ Hw "" (SPin i)) as [G _]. destruct G as [[p l] Hp]; [change (SPin i) with (snd (n, SPin i)); now apply in_map|]. exists p, l. split; [exact Hp|]. rewrite <- (signal_names _ _ _ _ _ Hw Hid (Hs i) Hp B). exact C.
    + destruct B as [p [l [B C]]]. exists (dotted p l). split; [|exact C]. destruct (signals_split _ i p l Hw Hid (Hs i) B) as (l1 & l2 & -> & _). apply in_app_iff. right. now left.
  - intros k i Hk. destruct (random_draws wr rnd range excl _ 0 st O Hok k i Hk) as (z & Hz & E). exists (fst (bounds range (st i))), (snd (bounds range (st i))), z. split; [|auto].
    unfold bounds. destruct range as [[lo hi]|]; [now left|right]. cbn [fst snd]. split; [reflexivity|]. split; [reflexivity|]. f_equal. f_equal. destruct (Nat.eqb (p_width (st i)) 0) eqn:E0; [apply Nat.eqb_eq in E0; rewrite E0; reflexivity|]. apply Nat.eqb_neq in E0. lia.
Qed.
Print Assumptions C52_draws.

(** C52: with a random function that stays in its range and pins that take what fits, all those pins end up in the range. *)
Theorem C52_in_range : forall wr acc t1 rnd range excl st i p l, bound acc t1 ->
  (forall k lo hi, (lo <= hi)%Z -> (lo <= rnd k lo hi <= hi)%Z) -> (forall p' z z', wr p' (VInt z) = Ok z' -> z' = z) ->
  (forall lo hi, range = Some (lo, hi) -> (lo <= hi)%Z) ->
  holds (t_b t1) (p, l) i -> p_out (st i) = false -> ~ In (dotted p l) excl -> fst (randomize_all wr (t_b t1) rnd range excl st) = Ok tt ->
  let z := p_val (snd (randomize_all wr (t_b t1) rnd range excl st) i) in
  match range with Some (lo, hi) => (lo <= z <= hi)%Z | None => (0 <= z < 2 ^ Z.max 1 (Z.of_nat (p_width (st i))))%Z end.
Proof.
  intros wr acc t1 rnd range excl st i p l Hb Hr Hwr Hlh Hh Ho Hx Hok. cbv zeta. destruct (proj2 (C52_randomize wr acc t1 rnd range excl st i Hb) p l Hh Ho Hx Hok) as (k & lo & hi & z & Hc & Hz & ->).
  cbn [set_val p_val]. rewrite (Hwr _ _ _ Hz). destruct Hc as [->|(-> & -> & ->)]; [apply Hr; eauto|].
  assert (H0 : (0 < 2 ^ Z.max 1 (Z.of_nat (p_width (st i))))%Z) by (apply Z.pow_pos_nonneg; lia). specialize (Hr k 0%Z (2 ^ Z.max 1 (Z.of_nat (p_width (st i))) - 1)%Z). lia.
Qed.
Print Assumptions C52_in_range.

(** C49, what holds: without bundle lists.  Reading says the value of every signal under its dotted key ... *)
Theorem C49_reads_partial : forall t d0 st0 t1 st1 st d p l s acc, created t -> shaped (t_b t) -> idents (t_b t) -> flat_tree (t_b t) -> dut_ok d0 ->
  bind acc t d0 st0 = Ok (t1, st1) -> as_dict_flat (t_b t1) st = Ok d -> slot_at (t_b t1) (p, l) = Some s -> flook d p l = reading st s /\ reading st s <> None.
Proof.
  intros t d0 st0 t1 st1 st d p l s acc Hc H1 H2 H3 Hd H Hdd Hs. destruct (bind_keeps _ _ _ _ _ _ Hc H) as (K1 & K2 & K3 & K4).
  destruct (flat_look (t_b t1) (conj K1 (conj (K2 H1) (conj (K3 H2) (K4 H3)))) st d Hdd p l s Hs) as (x & Hr & ->). destruct s; cbn in *; try discriminate; injection Hr as <-; split; congruence.
Qed.
Print Assumptions C49_reads_partial.
(** ... assigning what was read changes no pin and logs nothing ... *)
Theorem C49_same_partial : forall wr usr acc t d0 st0 t1 st1 lv st d, created t -> shaped (t_b t) -> idents (t_b t) -> flat_tree (t_b t) -> dut_ok d0 ->
  bind acc t d0 st0 = Ok (t1, st1) -> as_dict_flat (t_b t1) st = Ok d ->
  (forall i, held (t_b t1) i -> wr (st i) (VInt (p_val (st i))) = Ok (p_val (st i))) ->
  let o := assign wr usr false (t_b t1) (VDict d) lv st in o_res o = Ok tt /\ o_log o = [] /\ o_val o = VDict d /\ forall i, o_st o i = st i.
Proof.
  intros wr usr acc t d0 st0 t1 st1 lv st d Hc H1 H2 H3 Hd H Hdd Hwr. destruct (bind_keeps _ _ _ _ _ _ Hc H) as (K1 & K2 & K3 & K4). cbv zeta.
  assert (Hl : leg (t_b t1)) by (repeat split; auto).
  assert (Hself : forall p, set_val p (p_val p) = p) by (intros []; reflexivity).
  apply (flat_all_fine wr usr (fun s => forall i, s i = st i) (t_b t1) st d lv st Hl Hdd); [|auto].
  intros p l s y Hs Hlk i st' -> Hst. destruct (flat_look _ Hl st d Hdd p l _ Hs) as (x & Hr & Hl'). rewrite Hlk in Hl'. injection Hl' as ->. cbn in Hr. injection Hr as <-.
  exists (p_val (st i)). rewrite Hst. split; [apply Hwr; exists (p, l); exact Hs|]. intros j. unfold upd. rewrite Hself. destruct (Nat.eqb j i) eqn:E; [apply Nat.eqb_eq in E; now subst|apply Hst].
Qed.
Print Assumptions C49_same_partial.
(** ... and a flat dictionary writes exactly the pins whose dotted path is one of its keys. *)
Theorem C49_exact_partial : forall wr usr acc t d0 st0 t1 st1 lv st d i, created t -> shaped (t_b t) -> idents (t_b t) -> flat_tree (t_b t) -> dut_ok d0 ->
  bind acc t d0 st0 = Ok (t1, st1) -> NoDup (map fst d) -> (forall k x, In (k, x) d -> no_char "*"%char k) ->
  let o := assign wr usr false (t_b t1) (VDict d) lv st in
  ((forall p l, holds (t_b t1) (p, l) i -> flook d p l = None) -> o_st o i = st i) /\
  (forall p l y, holds (t_b t1) (p, l) i -> flook d p l = Some y -> o_res o = Ok tt -> exists z, wr (st i) y = Ok z /\ o_st o i = set_val (st i) z).
Proof.
  intros wr usr acc t d0 st0 t1 st1 lv st d i Hc H1 H2 H3 Hd H Hn Hk. destruct (bind_keeps _ _ _ _ _ _ Hc H) as (K1 & K2 & K3 & K4). cbv zeta.
  assert (Hl : leg (t_b t1)) by (repeat split; auto). destruct (flat_main wr usr (t_b t1) d lv st i Hl Hn Hk) as [F1 F2]. split; [exact F1|].
  intros p l y Hh Hy Hok. apply (F2 p l y); auto. intros p' q'. eapply C42_once; eauto.
Qed.
Print Assumptions C49_exact_partial.
(** C49 is false with bundle lists: the keys that as_dict gives them are not understood by assign. *)
Theorem C49_refuted : exists t1 st1, bind true (fresh treeb) dut1 st0 = Ok (t1, st1) /\
  exists d, as_dict_flat (t_b t1) st1 = Ok d /\ o_log (assign wr8 nousr false (t_b t1) (VDict d) "" st1) = [LNotFound "vec[0].x"] /\
  (forall z, p_val (o_st (assign wr8 nousr false (t_b t1) (VDict [("vec[0].x", VInt z)]) "" st1) 3) = 0%Z) /\
  slot_at (t_b t1) ([PElem "vec" 0], LSig "x") = Some (SPin 3).
Proof. apply runs. vm_compute. eexists. split; [reflexivity|]. split; [reflexivity|]. split; reflexivity. Qed.
Print Assumptions C49_refuted.

(** * Concrete cases *)
Lemma treeb_shaped : shaped treeb.
Proof.
  unfold treeb, reqb, vecb. constructor; cbn; [nodup|intuition congruence|intros l n i [<-|[<-|[<-|[]]]]; cbn; intuition congruence|intros n i c H; intuition congruence| | |].
  - intros n. destruct (String.eqb n "data"); reflexivity.
  - intros n. destruct (String.eqb n "vec"); reflexivity.
  - intros s c [[= <- <-]|[[= <- <-]|[]]]; constructor; cbn; try reflexivity; try (nodup; fail); try (intuition congruence); intros l n i H; repeat destruct H as [H|H]; subst; try discriminate; destruct H.
Qed.
(** A list of signals and a sub-bundle, no list of bundles. *)
Definition flatb : bundle := B "top" (MPrefix "io_") [sig "a"; el "data" 0 "data_0"; el "data" 1 "data_1"] ["data"] [(PSub "req", reqb)] [] None.
Lemma flatb_ok : created (fresh flatb) /\ shaped flatb /\ idents flatb /\ flat_tree flatb.
Proof.
  split; [split; [reflexivity|split; unfold fresh, flatb, reqb, sig, el; cbn [t_b]; tree]|]. split; [|split].
  - unfold flatb, reqb. constructor; cbn; [nodup|intuition congruence|intros l n i [<-|[<-|[<-|[]]]]; cbn; intuition congruence|intros n i c H; intuition congruence| | |].
    + intros n. destruct (String.eqb n "data"); reflexivity.
    + reflexivity.
    + intros s c [[= <- <-]|[]]; constructor; cbn; try reflexivity; try (nodup; fail); try (intuition congruence); intros l n i H; repeat destruct H as [H|H]; subst; try discriminate; destruct H.
  - unfold flatb, reqb, sig, el. repeat (tree; unfold leafid_ok, seg_ok, ident; cbn -[no_char]; repeat split; try discriminate; cbn; repeat split; try discriminate).
  - unfold flatb, reqb. constructor.
    + intros l [<-|[<-|[<-|[]]]]; cbn; repeat split; discriminate.
    + intros n [<-|[]]. split; cbn; repeat split; discriminate.
    + intros s c [[= <- <-]|[]]. exists "req". cbn. repeat split; discriminate.
    + intros s c [[= <- <-]|[]]. constructor; [intros l [<-|[<-|[]]]; cbn; repeat split; discriminate|intros ? []|intros ? ? []|intros ? ? []].
Qed.
(** The hypotheses shared by the theorems above are met. *)
Example bound_ex : forall acc, exists t1 st1, bind acc (fresh treeb) dut1 st0 = Ok (t1, st1) /\ bound acc t1 /\ slot_at (t_b t1) ([], LSig "a") = Some (SPin 0).
Proof.
  intros acc. assert (H : exists t1 st1, bind acc (fresh treeb) dut1 st0 = Ok (t1, st1) /\ slot_at (t_b t1) ([], LSig "a") = Some (SPin 0)) by (destruct acc; run).
  destruct H as (t1 & st1 & H & Hs). exists t1, st1. split; [exact H|]. split; [|exact Hs]. exists (fresh treeb), dut1, st0, st1. exact (conj treeb_ok (conj treeb_shaped (conj C57_ex2 (conj dut1_ok H)))).
Qed.
(** A full dictionary, with keys in another order; all its numbers are taken, and read back. *)
Definition full : val := VDict [("req", VDict [("ready", VNone); ("valid", VInt 1)]); ("a", VInt 5); ("data", VList [VNone; VInt 255]); ("vec", VList [VDict [("x", VInt 9)]])].
Lemma takes_ex z : (0 <= z < 256)%Z -> forall p, p_width p = 8 -> takes wr8 p z.
Proof. intros H p Hp old. unfold wr8. cbn [set_val p_width]. rewrite Hp. change (2 ^ Z.of_nat 8)%Z with 256%Z. destruct (Z.leb_spec 0 z); [|lia]. destruct (Z.ltb_spec z 256); [reflexivity|lia]. Qed.
Example C48_ex : exists t1 st1, bind true (fresh treeb) dut1 st0 = Ok (t1, st1) /\ exists d0, as_dict (t_b t1) st1 = Ok d0 /\ alike (VDict d0) full /\
  as_dict (t_b t1) (o_st (assign wr8 nousr true (t_b t1) full "" st1)) =
    Ok [("a", VInt 5); ("data", VList [VNone; VInt 255]); ("req", VDict [("valid", VInt 1); ("ready", VNone)]); ("vec", VList [VDict [("x", VInt 9)]])].
Proof.
  apply runs. vm_compute. eexists. split; [reflexivity|]. split; [|reflexivity].
  assert (H : forall n (d d' : list (string * val)), n = List.length d -> NoDup (map fst d) -> NoDup (map fst d') -> (forall k, In k (map fst d) <-> In k (map fst d')) ->
     (forall k x x', In (k, x) d -> In (k, x') d' -> alike x x') -> alike (VDict d) (VDict d')).
  { intros n d d' _ N N' K V. constructor; [exact N'| |].
    - intros k. rewrite <- !(BundleVal2_Proofs.dget_None (V := val)). specialize (K k). tauto.
    - intros k x x' Hx Hx'. apply dget_In in Hx, Hx'. eauto. }
  apply (H _ _ _ eq_refl); [nodup|nodup|cbn; intuition|]. cbn [In]. intros k x x' Hx Hx'.
  repeat (destruct Hx as [Hx|Hx]; [injection Hx as <- <-|]); try destruct Hx;
    (repeat (destruct Hx' as [Hx'|Hx']; [try discriminate Hx'; injection Hx' as <-|]); try destruct Hx'; try (repeat constructor; fail)).
  - apply (H _ _ _ eq_refl); [nodup|nodup|cbn; intuition|]. cbn [In]. intros k x x' Hx Hx'.
    repeat (destruct Hx as [Hx|Hx]; [injection Hx as <- <-|]); try destruct Hx;
    (repeat (destruct Hx' as [Hx'|Hx']; [try discriminate Hx'; injection Hx' as <-|]); try destruct Hx'; try (repeat constructor; fail)).
  - constructor. constructor; [|constructor]. apply (H _ _ _ eq_refl); [nodup|nodup|cbn; intuition|]. cbn [In]. intros k x x' [[= <- <-]|[]] [[= <-]|[]]. constructor.
Qed.
(** Unconnected signals: data[0] and req.ready read None; with access denied, reading raises. *)
Example C42_ex3 : (exists t1 st1, bind true (fresh treeb) dut1 st0 = Ok (t1, st1) /\ slot_at (t_b t1) ([PSub "req"], LSig "ready") = Some SDummy) /\
  exists t1 st1, bind false (fresh treeb) dut1 st0 = Ok (t1, st1) /\ as_dict (t_b t1) st1 = Exn AttributeError.
Proof. split; run. Qed.
(** One key is written, one is unknown, one is written to a sub-bundle's list element. *)
Example C51_ex : exists t1 st1, bind true (fresh treeb) dut1 st0 = Ok (t1, st1) /\
  let o := assign wr8 nousr true (t_b t1) (VDict [("a", VInt 5); ("nope", VInt 1); ("vec", VList [VDict [("x", VInt 7)]])]) "" st1 in
  o_res o = Ok tt /\ o_log o = [LNotFound "nope"] /\ map (fun i => p_val (o_st o i)) [0; 1; 2; 3; 4] = [5%Z; 0%Z; 0%Z; 7%Z; 0%Z].
Proof. run. Qed.
(** '*' together with a named signal; one pin is an output. *)
Example C50_ex : exists t1 st1, bind true (fresh treeb) dut1 (fun i => mk_pin 0 (Nat.eqb i 2) 8 None Imme 7) = Ok (t1, st1) /\
  let o := assign wr8 nousr true (t_b t1) (VDict [("a", VInt 5); ("*", VInt 9)]) "" st1 in
  o_res o = Ok tt /\ map (fun i => p_val (o_st o i)) [0; 1; 2; 3; 4] = [5%Z; 9%Z; 0%Z; 9%Z; 0%Z].
Proof. run. Qed.
Example C52_ex : exists t1 st1, bind true (fresh treeb) dut1 (fun i => mk_pin 0 (Nat.eqb i 2) 8 None Imme 7) = Ok (t1, st1) /\
  map (fun i => p_val (snd (set_all wr8 (t_b t1) (VInt 9) st1) i)) [0; 1; 2; 3; 4] = [9%Z; 9%Z; 0%Z; 9%Z; 0%Z] /\
  fst (randomize_all wr8 (t_b t1) (fun k lo hi => (hi - Z.of_nat k)%Z) None ["vec[0].x"] st1) = Ok tt /\
  map (fun i => p_val (snd (randomize_all wr8 (t_b t1) (fun k lo hi => (hi - Z.of_nat k)%Z) None ["vec[0].x"] st1) i)) [0; 1; 2; 3; 4] = [255%Z; 254%Z; 0%Z; 0%Z; 0%Z].
Proof. run. Qed.
Example C49_ex : exists t1 st1, bind true (fresh flatb) dut1 st0 = Ok (t1, st1) /\
  as_dict_flat (t_b t1) st1 = Ok [("a", VInt 0); ("data", VList [VNone; VInt 0]); ("req.valid", VInt 0); ("req.ready", VNone)] /\
  let o := assign wr8 nousr false (t_b t1) (VDict [("req.valid", VInt 1); ("data", VList [VInt 3; VInt 4])]) "" st1 in
  o_res o = Ok tt /\ map (fun i => p_val (o_st o i)) [0; 1; 2; 3; 4] = [0%Z; 4%Z; 1%Z; 0%Z; 0%Z].
Proof. run. Qed.
