(** C51: what assign reports in the log. *)
From Coq Require Import List String Ascii Bool Arith ZArith Lia.
From Verif Require Import Py Bundle_Model Bundle_Spec Bundle_Proofs Bundle4_Proofs BundleVal_Model BundleVal_Spec BundleLog_Spec BundleVal_Proofs P_Bundle P_BundleVal.
Import ListNotations.
Open Scope string_scope.
Open Scope list_scope.

Section Log.
Context (wr : pin -> val -> res Z) (usr : nat -> bundle -> store -> res unit * store).
Notation assign' := (assign wr usr).

(** The level string: names joined by dots. *)
Definition lvl (acc : list string) : string := String.concat "." acc.
Lemma lvl_snoc acc k : acc <> [] -> lvl (acc ++ [k]) = (lvl acc ++ "." ++ k)%string.
Proof.
  unfold lvl. induction acc as [|a [|b t] IH]; intros H; [congruence|reflexivity|]. change (String.concat "." ((a :: b :: t) ++ [k])) with (a ++ "." ++ String.concat "." ((b :: t) ++ [k]))%string.
  rewrite IH by discriminate. change (String.concat "." (a :: b :: t)) with (a ++ "." ++ String.concat "." (b :: t))%string. now rewrite !sapp_assoc.
Qed.
Definition full (acc : list string) : Prop := forall n, In n acc -> n <> "".
Lemma lvl_append acc k : full acc -> append_level (lvl acc) k = lvl (acc ++ [k]).
Proof.
  intros H. destruct acc as [|a t]; [reflexivity|]. rewrite lvl_snoc by discriminate. unfold append_level.
  assert (E : lvl (a :: t) <> ""). { unfold lvl. specialize (H a (or_introl eq_refl)). destruct t; cbn; destruct a; cbn; congruence. }
  apply String.eqb_neq in E. now rewrite E.
Qed.

(** Reports, starting from the names [acc]. *)
Definition compl (acc : list string) (b : bundle) (v : val) (a : logitem) : Prop :=
  exists p c x, sub_at b p = Some c /\ at_path v p = Some x /\
    match x with VDict d => exists k, In k (map fst d) /\ ~ In k (attrs c) /\ a = LNotFound (lvl (way acc p ++ [k])) | _ => a = LCritical end.
Definition log_ok (f : assigner) (c : bundle) : Prop := forall x acc st, plain x -> full acc ->
  (forall a, In a (o_log (f x (lvl acc) st)) -> compl acc c x a) /\ (o_res (f x (lvl acc) st) = Ok tt -> forall a, compl acc c x a -> In a (o_log (f x (lvl acc) st))).

Lemma each_log act d : forall st a, In a (snd (fst (each act d st))) -> exists k x st', In (k, x) d /\ In a (o_log (act k x st')).
Proof.
  induction d as [|[k x] t IH]; intros st a; [intros []|]. cbn [each]. destruct (o_res (act k x st)).
  - specialize (IH (o_st (act k x st)) a). destruct (each act t _) as [[[r st2] lg] t1]. cbn [fst snd] in *. intros H. apply in_app_iff in H as [H|H]; [exists k, x, st; split; [now left|exact H]|].
    destruct (IH H) as (k' & x' & st' & Hi & Ha). exists k', x', st'. split; [now right|exact Ha].
  - cbn. intros H. exists k, x, st. split; [now left|exact H].
Qed.
Lemma each_log_all act d : forall st, fst (fst (fst (each act d st))) = Ok tt -> forall k x, In (k, x) d -> exists st', o_res (act k x st') = Ok tt /\ incl (o_log (act k x st')) (snd (fst (each act d st))).
Proof.
  induction d as [|[k x] t IH]; intros st H k' x' Hi; [destruct Hi|]. cbn [each] in *. destruct (o_res (act k x st)) as [[]|e] eqn:E.
  - specialize (IH (o_st (act k x st))). destruct (each act t _) as [[[r st2] lg] t1]. cbn [fst snd] in *. destruct Hi as [[= <- <-]|Hi]; [exists st; split; [exact E|intros a; rewrite in_app_iff; auto]|].
    destruct (IH H _ _ Hi) as (st' & Hr & Hl). exists st'. split; [exact Hr|]. intros a Ha. apply in_app_iff. auto.
  - cbn in H. discriminate.
Qed.
Lemma bl_log fs cs : Forall2 log_ok fs cs -> forall v j st, (forall k x, j <= k -> item v k = Some x -> plain x) ->
  (forall a, In a (o_log (bl_assign fs v j st)) -> exists k c x, nth_error cs k = Some c /\ item v (j + k) = Some x /\ compl [] c x a) /\
  (o_res (bl_assign fs v j st) = Ok tt -> forall k c x a, nth_error cs k = Some c -> item v (j + k) = Some x -> compl [] c x a -> In a (o_log (bl_assign fs v j st))).
Proof.
  intros HF. induction HF as [|f c0 fs cs Hf HF IH]; intros v j st Hp; cbn [bl_assign].
  { split; [intros a []|intros _ [|k]; discriminate]. }
  destruct (vidx v j) as [x0|e] eqn:E; [|split; [intros a []|discriminate]]. apply vidx_item in E. cbv zeta. change "" with (lvl []).
  destruct (Hf x0 [] st (Hp j _ (le_n _) E) (fun n H => match H with end)) as [F1 F2].
  destruct (IH (vset v j (o_val (f x0 (lvl []) st))) (S j) (o_st (f x0 (lvl []) st))) as [I1 I2]; [intros k y Hk; rewrite item_vset_ne by lia; apply Hp; lia|].
  destruct (o_res (f x0 (lvl []) st)) as [[]|e] eqn:Er; cbn [o_log o_res].
  2:{ split; [|discriminate]. intros a Ha. exists 0, c0, x0. rewrite Nat.add_0_r. auto. }
  split.
  - intros a Ha. apply in_app_iff in Ha as [Ha|Ha]; [exists 0, c0, x0; rewrite Nat.add_0_r; auto|]. destruct (I1 a Ha) as (k & c & x & Hc & Hx & H). exists (S k), c, x. rewrite item_vset_ne in Hx by lia.
    split; [exact Hc|]. split; [rewrite <- Hx; f_equal; lia|exact H].
  - intros Hr [|k] c x a Hc Hx H; apply in_app_iff.
    + left. injection Hc as <-. rewrite Nat.add_0_r, E in Hx. injection Hx as <-. auto.
    + right. apply (I2 Hr k c x a Hc); [|exact H]. rewrite item_vset_ne by lia. rewrite <- Hx. f_equal. lia.
Qed.

Lemma assign_log b : wf b -> shaped b -> idents b -> log_ok (fun v lv st => assign' true b v lv st) b.
Proof.
  induction b as [nm m ls sls ks bls ck IH] using bundle_ind2. intros Hw Hsh Hid.
  assert (HL : forall s c, In (s, c) ks -> log_ok (fun v lv st => assign' true c v lv st) c).
  { intros s c Hi. inversion Hw; inversion Hsh; inversion Hid as [? ? ? ? ? ? ? _ Hc]; subst. eapply IH; eauto. apply (Hc s c Hi). }
  assert (Hn0 : forall k c, kid ks (PSub k) = Some c -> k <> "").
  { intros k c Hk. apply kid_Some in Hk. inversion Hid as [? ? ? ? ? ? ? _ Hc]; subst. apply (Hc _ _ Hk). }
  pose (f := fun c v lv st => assign' true c v lv st). set (b := B nm m ls sls ks bls ck).
  (* one entry *)
  assert (ACT : forall k x acc st, plain x -> full acc ->
    (forall a, In a (o_log (act_multi wr ls sls (fs_of f ks) bls (lvl acc) k x st)) ->
       (~ In k (attrs b) /\ a = LNotFound (lvl (acc ++ [k]))) \/ (exists c, kid ks (PSub k) = Some c /\ compl (acc ++ [k]) c x a) \/
       (exists j c y, kid ks (PElem k j) = Some c /\ item x j = Some y /\ compl [] c y a)) /\
    (o_res (act_multi wr ls sls (fs_of f ks) bls (lvl acc) k x st) = Ok tt -> forall a,
       (~ In k (attrs b) /\ a = LNotFound (lvl (acc ++ [k]))) \/ (exists c, kid ks (PSub k) = Some c /\ compl (acc ++ [k]) c x a) \/
       (exists j c y, kid ks (PElem k j) = Some c /\ item x j = Some y /\ compl [] c y a) -> In a (o_log (act_multi wr ls sls (fs_of f ks) bls (lvl acc) k x st)))).
  { intros k x acc st Hp Hf. destruct (apart nm m ls sls ks bls ck Hsh k) as (A1 & A2 & A3).
    assert (Nel : forall j c, kid ks (PElem k j) = Some c -> In k bls) by (intros j c H; apply kid_Some in H; inversion Hsh; subst; eauto).
    assert (Nsu : forall c, kid ks (PSub k) = Some c -> In k (sub_names ks)) by (intros c; apply kid_name).
    assert (At : In k (own_names ls) \/ In k sls \/ In k (sub_names ks) \/ In k bls -> In k (attrs b)) by (unfold attrs; cbn; rewrite !in_app_iff; tauto).
    unfold act_multi. destruct (kind_of nm m ls sls ks bls ck Hw Hsh k) as [s Eo _|Eo Es _|c Eo Es Ek _|Eo Es Ek Eb _|Eo Es Ek Eb Hna _].
    - rewrite Eo. cbn [just o_log]. pose proof (own_name _ _ _ Eo) as Hi. destruct (A1 Hi) as (N1 & N2 & N3).
      split; [intros a []|]. intros _ a [[H _]|[(c & H & _)|(j & c & y & H & _)]]; exfalso; [apply H, At|apply N2|apply N3]; eauto.
    - rewrite Eo, Es. cbn [just o_log]. apply smem_In in Es. destruct (A2 Es) as (N2 & N3).
      split; [intros a []|]. intros _ a [[H _]|[(c & H & _)|(j & c & y & H & _)]]; exfalso; [apply H, At|apply N2|apply N3]; eauto.
    - rewrite Eo, Es, sub_kid, Ek. cbn [option_map]. rewrite lvl_append by exact Hf. pose proof (Nsu _ Ek) as Hi. pose proof (A3 Hi) as N3.
      destruct (HL _ _ (kid_Some _ _ _ Ek) x (acc ++ [k]) st Hp) as [L1 L2].
      { intros n H. apply in_app_iff in H as [H|[<-|[]]]; eauto. }
      split; [intros a Ha; right; left; exists c; split; [reflexivity|now apply L1]|].
      intros Hr a [[H _]|[(c' & H & H2)|(j & c' & y & H & _)]]; [exfalso; apply H, At; auto| |exfalso; apply N3; eauto]. injection H as <-. now apply L2.
    - rewrite Eo, Es, sub_kid, Ek. cbn [option_map]. rewrite Eb, elems_kid. apply smem_In in Eb.
      assert (HF : Forall2 log_ok (map f (kid_elems ks k)) (kid_elems ks k)) by (apply (elem_ok nm m ls sls ks bls ck Hw Hsh f log_ok k); exact HL).
      destruct (bl_log _ _ HF x 0 st) as [L1 L2]; [intros j y _; now apply item_plain|]. cbn [Nat.add] in *.
      assert (KE : forall j, nth_error (kid_elems ks k) j = kid ks (PElem k j)) by (intros j; apply kid_elems_kid; [inversion Hw; auto|inversion Hsh; auto]).
      split.
      + intros a Ha. right. right. destruct (L1 a Ha) as (j & c & y & Hc & Hy & H). exists j, c, y. rewrite <- KE. auto.
      + intros Hr a [[H _]|[(c' & H & H2)|(j & c & y & Hc & Hy & H)]]; [exfalso; apply H, At; auto|discriminate|]. rewrite <- KE in Hc. eauto.
    - rewrite Eo, Es, sub_kid, Ek. cbn [option_map]. rewrite Eb. cbn [o_log]. rewrite lvl_append by exact Hf. split.
      + intros a [<-|[]]. auto.
      + intros _ a [[_ ->]|[(c & H & _)|(j & c & y & H & _)]]; [now left|discriminate|]. exfalso. apply Hna, At. eauto. }
  intros v acc st Hp Hf. cbv beta. unfold b. rewrite assign_B. fold b. destruct v as [|z|s|l|d|n]; try (inversion Hp; fail).
  1-4: cbn [o_log o_res]; split; [intros a [<-|[]]; exists [], b; eexists; repeat split|];
       intros _ a ([|[n|n j] p] & c & x & _ & H & Ha); [injection H as <-; subst a; now left|discriminate|discriminate].
  destruct (plain_no_star d Hp) as [-> ->]. inversion Hp as [| | | |? Hn Hk]; subst. change (fun c v level st => assign' true c v level st) with f. cbv iota.
  pose proof (each_log (act_multi wr ls sls (fs_of f ks) bls (lvl acc)) d st) as E1. pose proof (each_log_all (act_multi wr ls sls (fs_of f ks) bls (lvl acc)) d st) as E2.
  destruct (each (act_multi wr ls sls (fs_of f ks) bls (lvl acc)) d st) as [[[r st2] lg] d2]. cbn [o_log o_res fst snd] in *. split.
  - intros a Ha. destruct (E1 a Ha) as (k & x & st' & Hi & Ha'). apply (proj1 (ACT k x acc st' (proj2 (Hk _ _ Hi)) Hf)) in Ha'. pose proof (In_dget _ _ _ Hn Hi) as Hd.
    destruct Ha' as [[H ->]|[(c & H & (p & c' & x' & Hp1 & Hp2 & Hp3))|(j & c & y & H & Hy & (p & c' & x' & Hp1 & Hp2 & Hp3))]].
    + exists [], b, (VDict d). split; [reflexivity|]. split; [reflexivity|]. exists k. split; [now apply (in_map fst) in Hi|]. auto.
    + exists (PSub k :: p), c', x'. cbn [sub_at at_path b_kids]. unfold b. cbn [b_kids]. rewrite H, Hd. auto.
    + exists (PElem k j :: p), c', x'. cbn [sub_at at_path]. unfold b. cbn [b_kids]. rewrite H, Hd, Hy. auto.
  - intros -> a (p & c & x & Hs & Hv & Ha). destruct p as [|[k|k j] p].
    + injection Hs as <-. injection Hv as <-. destruct Ha as (k & Hi & Hna & ->). apply in_map_iff in Hi as [[k' x] [<- Hi]]. cbn [fst] in *. destruct (E2 eq_refl _ _ Hi) as (st' & Hr & Hl).
      apply Hl. apply (proj2 (ACT k' x acc st' (proj2 (Hk _ _ Hi)) Hf) Hr). left. auto.
    + cbn [sub_at at_path] in *. unfold b in Hs. cbn [b_kids] in Hs. destruct (kid ks (PSub k)) as [c1|] eqn:Ek; [|discriminate]. destruct (dget d k) as [x1|] eqn:Ed; [|discriminate].
      apply dget_In in Ed. destruct (E2 eq_refl _ _ Ed) as (st' & Hr & Hl). apply Hl. apply (proj2 (ACT k x1 acc st' (proj2 (Hk _ _ Ed)) Hf) Hr). right. left. exists c1. split; [exact Ek|]. exists p, c, x. auto.
    + cbn [sub_at at_path] in *. unfold b in Hs. cbn [b_kids] in Hs. destruct (kid ks (PElem k j)) as [c1|] eqn:Ek; [|discriminate]. destruct (dget d k) as [x1|] eqn:Ed; [|discriminate].
      destruct (item x1 j) as [y|] eqn:Ey; [|discriminate].
      apply dget_In in Ed. destruct (E2 eq_refl _ _ Ed) as (st' & Hr & Hl). apply Hl. apply (proj2 (ACT k x1 acc st' (proj2 (Hk _ _ Ed)) Hf) Hr). right. right. exists j, c1, y. split; [exact Ek|]. split; [exact Ey|]. exists p, c, x. auto.
Qed.
End Log.

(** C51: nothing is reported but unknown keys, by their full name, and values of sub-bundles that are no dictionaries; and if the call
    does not raise, all of these are reported, on all levels of the tree.  (Below an element of a bundle list the name is not the
    full one: it starts at the element, because the list does not hand on where it is.) *)
Theorem C51_log : forall wr usr acc t1 v st, bound acc t1 -> plain v ->
  let o := assign wr usr true (t_b t1) v "" st in
  (forall a, In a (o_log o) -> complaint (t_b t1) v a) /\ (o_res o = Ok tt -> forall a, complaint (t_b t1) v a -> In a (o_log o)).
Proof.
  intros wr usr acc t1 v st Hb Hp. destruct (bound_ok _ _ Hb) as (Hw & Hsh & Hid & _).
  exact (assign_log wr usr (t_b t1) Hw Hsh Hid v [] st Hp (fun n H => match H with end)).
Qed.
Print Assumptions C51_log.

Example C51_log_ex : exists t1 st1, bind true (fresh treeb) dut1 st0 = Ok (t1, st1) /\
  let o := assign wr8 nousr true (t_b t1) (VDict [("a", VInt 5); ("nope", VInt 1); ("req", VDict [("valid", VInt 3); ("what", VInt 0)]); ("vec", VList [VDict [("x", VInt 7); ("no", VInt 2)]])]) "" st1 in
  o_res o = Ok tt /\ o_log o = [LNotFound "nope"; LNotFound "req.what"; LNotFound "no"].
Proof. run. Qed.
