(** Binding a created bundle, in the words of the specification. *)
From Coq Require Import List String Ascii Bool Arith ZArith Lia Permutation.
From Verif Require Import Py Bundle_Model Bundle_Spec Bundle_Proofs Bundle2_Proofs Bundle3_Proofs Bundle4_Proofs.
Import ListNotations.
Open Scope string_scope.
Open Scope list_scope.

Lemma bind_spec acc t d st t1 st1 : created t -> dut_ok d -> bind acc t d st = Ok (t1, st1) ->
  forall pl, match slot_at (t_b t) pl with
    | None => slot_at (t_b t1) pl = None
    | Some s => exists s1, slot_at (t_b t1) pl = Some s1 /\
        ((exists n i, In (n, i) (d_pins d) /\ goes_to (t_b t) n pl /\ s1 = SPin i) \/
         ((forall n i, In (n, i) (d_pins d) -> ~ goes_to (t_b t) n pl) /\ s1 = if acc then SDummy else s))
    end.
Proof.
  intros (Hb & Hu & Hw) Hd H pl. destruct (bind_fresh _ _ _ _ _ _ Hb H) as (b1 & st0 & rest & Hbb & -> & ->). cbn [t_b].
  assert (Ho : NoDup (map e_org (entries d))) by (rewrite entries_orgs; apply Hd).
  destruct (bind_main _ _ (wf_name_kids _ Hw) _ _ _ _ _ _ Ho Hbb) as (_ & S & _). specialize (S pl). rewrite slot_name_kids in S.
  destruct (slot_at (t_b t) pl) as [s|]; [|exact S]. destruct S as (s1 & E & D). exists s1. split; [exact E|].
  destruct D as [(e & Hi & Hr & ->)|[Ha ->]].
  - left. exists (e_name e), (e_pin e). rewrite route_name_kids in Hr. apply route_goes_to in Hr; [|exact Hw]. apply In_entries in Hi. intuition.
  - right. split; [|reflexivity]. intros n i Hi Hg. apply (Ha (mk_entry n n i)); [apply In_entries; auto|]. rewrite route_name_kids. now apply route_goes_to.
Qed.

Lemma goes_fun b s p q : wf b -> goes_to b s p -> goes_to b s q -> p = q.
Proof. intros Hw H1 H2. apply route_goes_to in H1, H2; auto. congruence. Qed.
Lemma goes_accepts b s pl : goes_to b s pl -> accepts b (fst pl) (snd pl) s.
Proof. now intros (? & ? & _ & H & _). Qed.
Lemma goes_slot b s pl : wf b -> goes_to b s pl -> slot_at b pl <> None.
Proof.
  intros Hw H. apply place_slot; [exact Hw|]. destruct pl as [p l]. eapply accepts_place. apply goes_accepts in H. exact H.
Qed.
Lemma accepted_goes b p l s : wf b -> accepts b p l s -> exists pl, goes_to b s pl.
Proof.
  intros Hw Ha. destruct (route b s) as [pl|] eqn:E; [exists pl; now apply route_goes_to|]. exfalso. eapply (proj1 (route_None_iff b s Hw) E); exact Ha.
Qed.
Lemma unbound_slot b : unbound b -> forall pl s, slot_at b pl = Some s -> s = SPlaceholder \/ s = SAbsent.
Proof.
  induction b as [nm m ls sls ks bls ck IH] using bundle_ind2. intros Hu [[|sg p] l] s; inversion Hu as [? ? ? ? ? ? H1 H2]; subst.
  - rewrite slot_at_nil. cbn [b_leaves]. destruct (leaf_in ls l) as [x|] eqn:E; cbn [option_map]; [|discriminate]. intros [= <-].
    apply leaf_in_Some in E. rewrite (H1 x (proj1 E)). destruct (l_decl x); auto.
  - rewrite slot_at_cons. cbn [b_kids]. destruct (kid ks sg) as [c|] eqn:E; [|discriminate]. apply kid_Some in E. eauto.
Qed.
Lemma pin_name d n n' i : dut_ok d -> In (n, i) (d_pins d) -> In (n', i) (d_pins d) -> n = n'.
Proof.
  intros [_ Hs]. induction (d_pins d) as [|[x y] t IH]; [intros []|]. cbn [map snd] in Hs. inversion Hs as [|? ? Hni Hnt]; subst.
  intros [E1|H1] [E2|H2]; [congruence| | |auto]; exfalso; apply Hni.
  - injection E1 as _ ->. change i with (snd (n', i)). now apply in_map.
  - injection E2 as _ ->. change i with (snd (n, i)). now apply in_map.
Qed.
Lemma pin_num d n i i' : dut_ok d -> In (n, i) (d_pins d) -> In (n, i') (d_pins d) -> i = i'.
Proof.
  intros [Hs _]. induction (d_pins d) as [|[x y] t IH]; [intros []|]. cbn [map fst] in Hs. inversion Hs as [|? ? Hni Hnt]; subst.
  intros [E1|H1] [E2|H2]; [congruence| | |auto]; exfalso; apply Hni.
  - injection E1 as -> _. change n with (fst (n, i')). now apply in_map.
  - injection E2 as -> _. change n with (fst (n, i)). now apply in_map.
Qed.

(** Detection leaves a created bundle as it is. *)
Lemma detect_same b : unbound b -> forall es, fst (detect_b b es) = b.
Proof.
  induction b as [nm m ls sls ks bls ck IH] using bundle_ind2. intros Hu es. inversion Hu as [? ? ? ? ? ? H1 H2]; subst. rewrite detect_B. cbv zeta.
  assert (G : forall ks', incl ks' ks -> forall es, exists r, detect_kids ks' es None = (ks', r, None)).
  { induction ks' as [|[s c] t IHt]; intros Hi es'; cbn [detect_kids]; [eauto|]. fold detect_kids.
    assert (Hin : In (s, c) ks) by (apply Hi; now left). assert (Hc := IH _ _ Hin (H2 _ _ Hin) es'). destruct (detect_b c es') as [c1 es1]. cbn [fst] in Hc. subst c1.
    assert (Hck : next_clk s (b_clk c) None = None) by (specialize (H2 _ _ Hin); inversion H2; subst; destruct s; reflexivity). rewrite Hck.
    destruct (IHt (fun x Hx => Hi x (or_intror Hx)) es1) as [r ->]. eauto. }
  destruct (G ks (incl_refl _) (h_match (bind_here m es ls None (fun _ => mk_pin 0 false 0 None Imme 0)))) as [r ->]. reflexivity.
Qed.
Lemma detect_goes b s : wf b -> (snd (detect_connectivity b s) = true <-> exists pl, goes_to b s pl).
Proof.
  intros Hw. unfold detect_connectivity. destruct (detect_main b Hw [mk_entry s s 0]) as [Hp _]; [cbn; repeat constructor; intros []|].
  destruct (detect_b b _) as [b1 rest]. cbn [fst snd] in *. cbn [filter] in Hp. unfold unrouted in Hp. cbn [e_name] in Hp.
  destruct (route b s) as [pl|] eqn:E.
  - apply Permutation_sym, Permutation_nil in Hp. rewrite Hp. split; [intros _; exists pl; now apply route_goes_to|reflexivity].
  - destruct rest as [|x rest]; [apply Permutation_nil in Hp; discriminate|]. split; [discriminate|]. intros [pl H]. apply route_goes_to in H; [congruence|exact Hw].
Qed.

(** Accounting over several bundles. *)
Lemma bind_all_nth l : forall d st ts st1, bind_all l d st = Ok (ts, st1) ->
  List.length ts = List.length l /\
  forall k a t, nth_error l k = Some (a, t) -> exists t1 s s1, nth_error ts k = Some t1 /\ bind a t d s = Ok (t1, s1).
Proof.
  induction l as [|[a t] r IH]; intros d st ts st1; cbn [bind_all].
  - intros [= <- <-]. split; [reflexivity|]. intros [|k]; discriminate.
  - destruct (bind a t d st) as [[t1 s1]|] eqn:E; [|discriminate]. destruct (bind_all r d s1) as [[r1 s2]|] eqn:E2; [|discriminate]. intros [= <- <-].
    destruct (IH _ _ _ _ E2) as [Hl Hn]. split; [cbn; lia|]. intros [|k] a' t'; cbn [nth_error]; [|apply Hn]. intros [= -> ->]. eauto.
Qed.
Lemma two_filter {A} (f : A -> bool) l : 2 <= List.length (filter f l) <->
  exists k1 k2 x1 x2, k1 < k2 /\ nth_error l k1 = Some x1 /\ nth_error l k2 = Some x2 /\ f x1 = true /\ f x2 = true.
Proof.
  assert (One : forall l, 1 <= List.length (filter f l) <-> exists k x, nth_error l k = Some x /\ f x = true).
  { induction l0 as [|y t IH]; cbn [filter].
    - split; [cbn; lia|]. intros ([|k] & x & H & _); discriminate.
    - destruct (f y) eqn:E.
      + split; [intros _; exists 0, y; auto|cbn; lia].
      + rewrite IH. split; [intros (k & x & H); exists (S k), x; exact H|]. intros ([|k] & x & H & Hf); [cbn in H; congruence|eauto]. }
  induction l as [|y t IH]; cbn [filter].
  - split; [cbn; lia|]. intros (k1 & k2 & x1 & x2 & _ & H & _). destruct k1; discriminate.
  - destruct (f y) eqn:E.
    + cbn [List.length]. split.
      * intros H. destruct (proj1 (One t)) as (k & x & H1 & H2); [lia|]. exists 0, (S k), y, x. repeat split; auto. lia.
      * intros (k1 & [|k2] & x1 & x2 & Hk & H1 & H2 & F1 & F2); [lia|]. cbn [nth_error] in H2. assert (1 <= List.length (filter f t)) by (apply One; eauto). lia.
    + rewrite IH. split.
      * intros (k1 & k2 & x1 & x2 & Hk & H). exists (S k1), (S k2), x1, x2. split; [lia|exact H].
      * intros ([|k1] & [|k2] & x1 & x2 & Hk & H1 & H2 & F1 & F2); cbn [nth_error] in *; try lia; [congruence|]. exists k1, k2, x1, x2. repeat split; auto. lia.
Qed.
Lemma zero_filter {A} (f : A -> bool) l : List.length (filter f l) = 0 <-> forall x, In x l -> f x = false.
Proof.
  split.
  - intros H x Hx. destruct (f x) eqn:E; [|reflexivity]. assert (Hi : In x (filter f l)) by (apply filter_In; auto). destruct (filter f l); [destruct Hi|discriminate].
  - intros H. induction l as [|y t IH]; [reflexivity|]. cbn [filter]. rewrite (H y (or_introl eq_refl)). apply IH. intros x Hx. apply H. now right.
Qed.
