(** Lemmas about binding that raises. *)
From Coq Require Import List String Bool Arith Lia Permutation.
From Verif Require Import Py Bundle_Model Bundle_Spec Bundle_Proofs Bundle2_Proofs BindX_Model.
Import ListNotations.
Open Scope string_scope.
Open Scope list_scope.

Definition kids_x (acc : bool) (stack1 : list bundle) :=
  fix go (ks : list (seg * bundle)) (es : list entry) (st : store) (ck : option nat) : list (seg * bundle) * store * option nat * res (list entry) :=
  match ks with
  | [] => ([], st, ck, Ok es)
  | (s, c) :: t =>
      match bind_bx acc stack1 c es st with
      | (c1, st1, Exn x) => ((s, c1) :: t, st1, ck, Exn x)
      | (c1, st1, Ok es1) => let '(t1, st2, ck2, r) := go t es1 st1 (next_clk s (b_clk c1) ck) in ((s, c1) :: t1, st2, ck2, r)
      end
  end.
Lemma bind_BX acc stack nm m ls sls ks bls ck es st :
  bind_bx acc stack (B nm m ls sls ks bls ck) es st =
  let stack1 := stack ++ [B nm m ls sls ks bls ck] in
  let h := bind_here m es ls ck st in
  match missing_x acc stack1 (h_conn h) (h_ls h) with
  | (ls1, Exn x) => (B nm m ls1 sls ks bls (h_ck h), h_st h, Exn x)
  | (ls1, Ok _) =>
      let '(ks1, st1, ck1, r) := kids_x acc stack1 ks (h_match h) (h_st h) (h_ck h) in
      (B nm m ls1 sls ks1 bls ck1, st1, match r with Ok rest => Ok (revert rest es ++ h_rest h) | Exn x => Exn x end)
  end.
Proof. reflexivity. Qed.

(** * It is the same function where nothing is raised *)
Lemma missing_agree acc stack conn ls : missing acc stack conn ls = match missing_x acc stack conn ls with (ls1, Ok _) => Ok ls1 | (_, Exn x) => Exn x end.
Proof.
  induction ls as [|l t IH]; [reflexivity|]. cbn [missing missing_x]. destruct (missing_x acc stack conn t) as [t1 [u|x]]; rewrite IH; cbn [rbind]; destruct (smem (l_name l) conn); auto; destruct (rule_string stack (l_name l)); reflexivity.
Qed.
Lemma bind_agree acc b : forall stack es st, bind_b acc stack b es st = match bind_bx acc stack b es st with (b1, st1, Ok rest) => Ok (b1, st1, rest) | (_, _, Exn x) => Exn x end.
Proof.
  induction b as [nm m ls sls ks bls ck IH] using bundle_ind2. intros stack es st. rewrite bind_B, bind_BX. cbv zeta. rewrite missing_agree.
  destruct (missing_x acc _ _ _) as [ls1 [u|x]]; [|reflexivity]. set (stack1 := stack ++ _).
  assert (HK : forall ks', (forall s c, In (s, c) ks' -> In (s, c) ks) -> forall es st ck, bind_kids acc stack1 ks' es st ck = match kids_x acc stack1 ks' es st ck with (k, s, c, Ok r) => Ok (k, s, r, c) | (_, _, _, Exn x) => Exn x end).
  { induction ks' as [|[s c] t IHt]; intros Hin es0 s0 ck0; [reflexivity|]. cbn [bind_kids kids_x]. rewrite (IH s c (Hin _ _ (or_introl eq_refl))). destruct (bind_bx acc stack1 c es0 s0) as [[c1 s1] [r1|x]]; [|reflexivity].
    fold (bind_kids acc stack1). fold (kids_x acc stack1). rewrite IHt by (intros; apply Hin; now right). destruct (kids_x acc stack1 t r1 s1 _) as [[[t1 s2] ck2] [r2|x2]]; reflexivity. }
  rewrite (HK ks (fun _ _ H => H)). destruct (kids_x acc stack1 ks _ _ _) as [[[ks1 s1] ck1] [r|x]]; reflexivity.
Qed.
Lemma remove_agree ls : forall st, remove_attrs ls st = match remove_attrs_x ls st with (l1, s1, Ok _) => Ok (l1, s1) | (_, _, Exn x) => Exn x end.
Proof.
  induction ls as [|l t IH]; intros st; [reflexivity|]. cbn [remove_attrs remove_attrs_x]. destruct (match l_id l with LSig _ => remove_attr l st | LEl _ _ => Ok (l, st) end) as [[l1 s1]|x]; [|reflexivity].
  rewrite IH. destruct (remove_attrs_x t s1) as [[t1 s2] [u|x]]; reflexivity.
Qed.
Definition unkids := fix go (ks : list (seg * bundle)) (st : store) : res (list (seg * bundle) * store) := match ks with
  | [] => Ok ([], st)
  | (s, c) :: t => match (match s with PSub _ => unbind_b c st | PElem _ _ => Ok (c, st) end) with
      | Exn x => Exn x | Ok (c1, st1) => match go t st1 with Exn x => Exn x | Ok (t1, st2) => Ok ((s, c1) :: t1, st2) end end end.
Definition unkids_x := fix go (ks : list (seg * bundle)) (st : store) : list (seg * bundle) * store * res unit := match ks with
  | [] => ([], st, Ok tt)
  | (s, c) :: t => match (match s with PSub _ => unbind_bx c st | PElem _ _ => (c, st, Ok tt) end) with
      | (c1, st1, Exn x) => ((s, c1) :: t, st1, Exn x) | (c1, st1, Ok _) => let '(t1, st2, r) := go t st1 in ((s, c1) :: t1, st2, r) end end.
Lemma unbind_B nm m ls sls ks bls ck st : unbind_b (B nm m ls sls ks bls ck) st =
  match remove_attrs ls st with Exn x => Exn x | Ok (ls1, st1) => match unkids ks st1 with Exn x => Exn x | Ok (ks1, st2) => Ok (B nm m ls1 sls ks1 bls ck, st2) end end.
Proof. reflexivity. Qed.
Lemma unbind_BX nm m ls sls ks bls ck st : unbind_bx (B nm m ls sls ks bls ck) st =
  match remove_attrs_x ls st with (ls1, st1, Exn x) => (B nm m ls1 sls ks bls ck, st1, Exn x)
  | (ls1, st1, Ok _) => let '(ks1, st2, r) := unkids_x ks st1 in (B nm m ls1 sls ks1 bls ck, st2, r) end.
Proof. reflexivity. Qed.
Lemma unbind_agree b : forall st, unbind_b b st = match unbind_bx b st with (b1, s1, Ok _) => Ok (b1, s1) | (_, _, Exn x) => Exn x end.
Proof.
  induction b as [nm m ls sls ks bls ck IH] using bundle_ind2. intros st. rewrite unbind_B, unbind_BX, remove_agree. destruct (remove_attrs_x ls st) as [[ls1 s1] [u|x]]; [|reflexivity].
  assert (HK : forall ks', (forall s c, In (s, c) ks' -> In (s, c) ks) -> forall st, unkids ks' st = match unkids_x ks' st with (k, s, Ok _) => Ok (k, s) | (_, _, Exn x) => Exn x end).
  { induction ks' as [|[s c] t IHt]; intros Hin s0; [reflexivity|]. cbn [unkids unkids_x]. fold unkids. fold unkids_x.
    assert (E : match s with PSub _ => unbind_b c s0 | PElem _ _ => Ok (c, s0) end = match (match s with PSub _ => unbind_bx c s0 | PElem _ _ => (c, s0, Ok tt) end) with (b1, s1, Ok _) => Ok (b1, s1) | (_, _, Exn x) => Exn x end) by (destruct s; [apply (IH _ _ (Hin _ _ (or_introl eq_refl)))|reflexivity]).
    rewrite E. destruct (match s with PSub _ => unbind_bx c s0 | PElem _ _ => (c, s0, Ok tt) end) as [[c1 s2] [v|x]]; [|reflexivity]. rewrite IHt by (intros; apply Hin; now right). destruct (unkids_x t s2) as [[t1 s3] [w|x]]; reflexivity. }
  rewrite (HK ks (fun _ _ H => H)). destruct (unkids_x ks s1) as [[ks1 s2] [v|x]]; reflexivity.
Qed.

(** * A failed unbinding fails again *)
Lemma remove_stuck ls : forall st l1 s1 x, remove_attrs_x ls st = (l1, s1, Exn x) -> forall st', exists x', remove_attrs l1 st' = Exn x'.
Proof.
  induction ls as [|l t IH]; intros st l1 s1 x; cbn [remove_attrs_x]; [discriminate|]. destruct (match l_id l with LSig _ => remove_attr l st | LEl _ _ => Ok (l, st) end) as [[l2 s2]|y] eqn:E.
  - destruct (remove_attrs_x t s2) as [[t1 s3] r] eqn:Et. intros H st'. injection H as <- <- ->. cbn [remove_attrs]. destruct (match l_id l2 with LSig _ => remove_attr l2 st' | LEl _ _ => Ok (l2, st') end) as [[l3 s4]|y]; [|eauto].
    destruct (IH _ _ _ _ Et s4) as [x' ->]. cbn [rbind]. eauto.
  - intros H st'. injection H as <- <- <-. cbn [remove_attrs]. destruct (l_id l); [|discriminate]. unfold remove_attr in *. destruct (l_slot l); try discriminate. eauto.
Qed.
Lemma unbind_stuck b : forall st b1 s1 x, unbind_bx b st = (b1, s1, Exn x) -> forall st', exists x', unbind_b b1 st' = Exn x'.
Proof.
  induction b as [nm m ls sls ks bls ck IH] using bundle_ind2. intros st b1 s1 x. rewrite unbind_BX. destruct (remove_attrs_x ls st) as [[ls1 s2] [u|y]] eqn:E.
  - assert (HK : forall ks', (forall s c, In (s, c) ks' -> In (s, c) ks) -> forall st k1 s1 x, unkids_x ks' st = (k1, s1, Exn x) -> forall st', exists x', unkids k1 st' = Exn x').
    { induction ks' as [|[s c] t IHt]; intros Hin s0 k1 s3 y; [discriminate|]. cbn [unkids_x]. fold unkids_x. destruct (match s with PSub _ => unbind_bx c s0 | PElem _ _ => (c, s0, Ok tt) end) as [[c1 s4] [v|z]] eqn:Ec.
      - destruct (unkids_x t s4) as [[t1 s5] r] eqn:Et. intros H st'. injection H as <- <- ->. cbn [unkids]. fold unkids. destruct (match s with PSub _ => unbind_b c1 st' | PElem _ _ => Ok (c1, st') end) as [[c2 s6]|z]; [|eauto].
        destruct (IHt (fun s c H => Hin s c (or_intror H)) _ _ _ _ Et s6) as [x' ->]. eauto.
      - intros H st'. injection H as <- <- <-. cbn [unkids]. destruct s; [|discriminate]. destruct (IH _ _ (Hin _ _ (or_introl eq_refl)) _ _ _ _ Ec st') as [x' ->]. eauto. }
    destruct (unkids_x ks s2) as [[ks1 s3] r] eqn:Ek. intros H st'. injection H as <- <- ->. rewrite unbind_B. destruct (remove_attrs ls1 st') as [[l2 s4]|y]; [|eauto]. destruct (HK ks (fun _ _ H => H) _ _ _ _ Ek s4) as [x' ->]. eauto.
  - intros H st'. injection H as <- <- <-. rewrite unbind_B. destruct (remove_stuck _ _ _ _ _ E st') as [x' ->]. eauto.
Qed.

(** * What is connected when binding raises *)
Lemma missing_x_F2 acc stack conn : forall ls, Forall2 (fun x y => same_leaf x y /\ (l_slot y = l_slot x \/ (l_slot y = SDummy))) ls (fst (missing_x acc stack conn ls)).
Proof.
  assert (R : forall ls, Forall2 (fun x y => same_leaf x y /\ (l_slot y = l_slot x \/ (l_slot y = SDummy))) ls ls) by (induction ls; constructor; auto using same_leaf_refl).
  induction ls as [|l t IH]; cbn [missing_x]; [constructor|]. destruct (missing_x acc stack conn t) as [t1 r]. cbn [fst] in IH. destruct (smem (l_name l) conn); [constructor; auto using same_leaf_refl|].
  destruct (rule_string stack (l_name l)); [|apply (R (l :: t))]. constructor; auto. destruct acc; (split; [repeat split|cbn; auto]).
Qed.
Lemma level_x acc stack m es ls ck st : NoDup (map l_name ls) ->
  Forall2 (fun x y => same_leaf x y /\ forall i, l_slot y = SPin i -> l_slot x = SPin i \/ exists e, In e es /\ translate m (e_name e) = Some (l_name x) /\ e_pin e = i) ls
    (fst (missing_x acc stack (h_conn (bind_here m es ls ck st)) (h_ls (bind_here m es ls ck st)))).
Proof.
  intros Hn. eapply F2_trans; [apply bind_here_ls; exact Hn|apply missing_x_F2|]. cbv beta. intros x y z Hx [Hs1 Hh] [Hs2 Hz]. split; [eapply same_leaf_trans; eauto|]. intros i Hi. destruct Hz as [Hz|Hz]; [|congruence].
  rewrite Hz in Hi. destruct Hh as [[e [He [Ht Hy]]]|[_ Hy]]; [right; exists e; repeat split; auto; congruence|left; congruence].
Qed.
Lemma F2_leaf_in (R : leaf -> leaf -> Prop) l1 l2 l y : Forall2 R l1 l2 -> (forall x y, R x y -> same_leaf x y) -> leaf_in l2 l = Some y -> exists x, leaf_in l1 l = Some x /\ R x y.
Proof.
  intros H HR. induction H as [|a c l1 l2 H1 H2 IH]; cbn [leaf_in]; [discriminate|]. destruct (HR _ _ H1) as [E _]. rewrite E. destruct (leafid_eq_dec l (l_id c)); [|exact IH]. intros H. injection H as <-. eauto.
Qed.
Lemma pinhits_le i f g l : (forall e, In e l -> f e = true -> g e = true) -> pinhits i f l <= pinhits i g l.
Proof.
  unfold pinhits. induction l as [|e t IH]; intros H; cbn [filter]; [auto|]. specialize (IH (fun x Hx => H x (or_intror Hx))). pose proof (H e (or_introl eq_refl)) as He.
  destruct (Nat.eqb (e_pin e) i); cbn [andb]; auto. destruct (f e); [rewrite (He eq_refl); cbn; lia|]. destruct (g e); cbn; lia.
Qed.
Lemma pinhits_pos i f l e : In e l -> f e = true -> e_pin e = i -> 0 < pinhits i f l.
Proof.
  intros Hi Hf Hp. unfold pinhits. destruct (filter _ l) eqn:E; [|cbn; lia]. exfalso. assert (X : In e (filter (fun e => Nat.eqb (e_pin e) i && f e) l)) by (apply filter_In; split; auto; rewrite Hp, Nat.eqb_refl; exact Hf). rewrite E in X. exact X.
Qed.
Definition routed (b : bundle) (e : entry) : bool := negb (unrouted b e).

Definition half (b : bundle) (es : list entry) (st : store) (b1 : bundle) (st1 : store) : Prop :=
  (forall i, same_pin (st1 i) (st i) /\ nconn st i <= nconn st1 i <= nconn st i + pinhits i (routed b) es) /\
  (forall pl i, slot_at b1 pl = Some (SPin i) -> slot_at b pl = Some (SPin i) \/ (nconn st i < nconn st1 i /\ exists e, In e es /\ route b (e_name e) = Some pl /\ e_pin e = i)).
Lemma half_ok acc b : wf b -> forall stack es st b1 st1 rest, NoDup (map e_org es) -> bind_b acc stack b es st = Ok (b1, st1, rest) -> half b es st b1 st1.
Proof.
  intros Hw stack es st b1 st1 rest Ho H. split.
  - intros i. destruct (bind_count acc b Hw _ _ _ _ _ _ Ho H i) as [E S]. split; auto. unfold routed. lia.
  - intros pl i Hs. destruct (bind_main acc b Hw _ _ _ _ _ _ Ho H) as (_ & SP & _). specialize (SP pl). destruct (slot_at b pl) as [s|]; [|congruence]. destruct SP as (s1 & E1 & [[e [Hi [Hr Hp]]]|[Hn Hp]]).
    + right. rewrite Hs in E1. injection E1 as <-. injection Hp as ->. split; [|eauto]. destruct (bind_count acc b Hw _ _ _ _ _ _ Ho H (e_pin e)) as [E _]. rewrite E.
      assert (0 < pinhits (e_pin e) (fun e => negb (unrouted b e)) es) by (apply (pinhits_pos _ _ _ e); auto; unfold unrouted; now rewrite Hr). lia.
    + left. rewrite Hs in E1. injection E1 as <-. destruct acc; congruence.
Qed.
Lemma level_count nm m ls sls ks bls ck i es :
  pinhits i (routed (B nm m ls sls ks bls ck)) es = pinhits i (fun e => match hits m ls e with Some _ => true | None => false end) es + pinhits i (fun e => negb (unrouted_k ks e)) (flat_map (passes m ls) es).
Proof.
  induction es as [|e t IH]; [reflexivity|]. unfold pinhits, routed in *. cbn [flat_map filter]. rewrite filter_app, app_length.
  assert (Hstep : (if Nat.eqb (e_pin e) i && negb (unrouted (B nm m ls sls ks bls ck) e) then 1 else 0) =
     (if Nat.eqb (e_pin e) i && match hits m ls e with Some _ => true | None => false end then 1 else 0) +
     List.length (filter (fun e0 => Nat.eqb (e_pin e0) i && negb (unrouted_k ks e0)) (passes m ls e))).
  { unfold unrouted. rewrite route_B. unfold hits, passes. destruct (translate m (e_name e)) as [n|].
    - rewrite leaf_of_has. destruct (leaf_of ls n); cbn [filter List.length negb]; [lia|].
      unfold unrouted_k. cbn [e_pin e_name]. rewrite andb_false_r. destruct (Nat.eqb (e_pin e) i); cbn [andb]; [|reflexivity].
      destruct (route_kids n ks); reflexivity.
    - cbn [filter List.length negb]. rewrite !andb_false_r. reflexivity. }
  destruct (Nat.eqb (e_pin e) i && negb (unrouted (B nm m ls sls ks bls ck) e)),
           (Nat.eqb (e_pin e) i && match hits m ls e with Some _ => true | None => false end); cbn [List.length]; lia.
Qed.
(** The signals of the level itself. *)
Lemma level_half acc stack nm m ls sls ks bls ck ks1 bls1 ck1 es st i l : NoDup (map l_name ls) -> NoDup (map l_id ls) ->
  slot_at (B nm m (fst (missing_x acc stack (h_conn (bind_here m es ls ck st)) (h_ls (bind_here m es ls ck st)))) sls ks1 bls1 ck1) ([], l) = Some (SPin i) ->
  slot_at (B nm m ls sls ks bls ck) ([], l) = Some (SPin i) \/ (nconn st i < nconn (h_st (bind_here m es ls ck st)) i /\ exists e, In e es /\ route (B nm m ls sls ks bls ck) (e_name e) = Some ([], l) /\ e_pin e = i).
Proof.
  intros Hn Hi. rewrite !slot_at_nil. cbn [b_leaves]. set (l1 := fst _). destruct (leaf_in l1 l) as [y|] eqn:E; [|discriminate]. intros H. injection H as H.
  destruct (F2_leaf_in _ ls l1 l y (level_x acc stack m es ls ck st Hn) (fun x y H => proj1 H) E) as (x & Ex & [_ Hp]). rewrite Ex. destruct (Hp i H) as [Hx|(e & He & Ht & Hpe)]; [left; cbn; now rewrite Hx|right].
  apply leaf_in_Some in Ex. destruct Ex as [Ex <-]. split.
  - destruct (bind_here_st m es ls ck st i) as [-> _]. assert (0 < pinhits i (fun e => match hits m ls e with Some _ => true | None => false end) es); [|lia]. apply (pinhits_pos _ _ _ e); auto. unfold hits. rewrite Ht.
    assert (has_leaf ls (l_name x) = true) as -> by (apply smem_In; now apply in_map). reflexivity.
  - exists e. split; auto. split; auto. rewrite route_B, Ht, (leaf_of_uniq ls x Hn Ex). reflexivity.
Qed.
Lemma half_x acc b : wf b -> forall stack es st b1 st1 r, NoDup (map e_org es) -> bind_bx acc stack b es st = (b1, st1, r) -> half b es st b1 st1.
Proof.
  induction b as [nm m ls sls ks bls ck IH] using bundle_ind2. intros Hwf stack es st b1 st1 r Ho Hb. destruct r as [rest|x].
  { pose proof (bind_agree acc (B nm m ls sls ks bls ck) stack es st) as Ha. rewrite Hb in Ha. exact (half_ok acc _ Hwf _ _ _ _ _ _ Ho Ha). }
  inversion Hwf as [? ? ? ? ? ? ? Hni Hnn Hnk Hwk]; subst. rewrite bind_BX in Hb. cbv zeta in Hb. set (stack1 := stack ++ _) in Hb.
  pose proof (fun ks1 bls1 ck1 i l => level_half acc stack1 nm m ls sls ks bls ck ks1 bls1 ck1 es st i l Hnn Hni) as HL. pose proof (bind_here_st m es ls ck st) as HS. pose proof (bind_here_match m es ls ck st) as HM. set (h := bind_here m es ls ck st) in *.
  destruct (missing_x acc stack1 (h_conn h) (h_ls h)) as [ls1 [u|y]]; cbn [fst] in HL.
  - destruct (kids_x acc stack1 ks (h_match h) (h_st h) (h_ck h)) as [[[ks1 s2] ck1] [r|y]] eqn:Ek; [discriminate|]. injection Hb as <- <- _.
    assert (HK : forall ks' es' st' ck' ks1 st1 ck1 r, (forall s c, In (s, c) ks' -> In (s, c) ks) -> NoDup (map fst ks') -> NoDup (map e_org es') -> kids_x acc stack1 ks' es' st' ck' = (ks1, st1, ck1, r) ->
      (forall i, same_pin (st1 i) (st' i) /\ nconn st' i <= nconn st1 i <= nconn st' i + pinhits i (fun e => negb (unrouted_k ks' e)) es') /\
      (forall s c1 p l i, kid ks1 s = Some c1 -> slot_at c1 (p, l) = Some (SPin i) -> (exists c, kid ks' s = Some c /\ slot_at c (p, l) = Some (SPin i)) \/
        (nconn st' i < nconn st1 i /\ exists e, In e es' /\ route_kids (e_name e) ks' = Some (s :: p, l) /\ e_pin e = i))).
    { induction ks' as [|[s0 c0] t IHt]; intros es' st' ck' k1 s1 ck2 r Hin Hnd Ho'; cbn [kids_x].
      - intros H. injection H as <- <- <- <-. split; [intros i; split; [apply same_pin_refl|lia]|discriminate].
      - assert (Hc0 : In (s0, c0) ks) by (apply Hin; now left). destruct (bind_bx acc stack1 c0 es' st') as [[c1 sc] rc] eqn:Ec. pose proof (IH _ _ Hc0 (Hwk _ _ Hc0) _ _ _ _ _ _ Ho' Ec) as [HA HB].
        assert (HR : forall e, pinhits e (routed c0) es' <= pinhits e (fun e => negb (unrouted_k ((s0, c0) :: t) e)) es').
        { intros i. apply pinhits_le. intros e _. unfold routed, unrouted, unrouted_k. cbn [route_kids]. destruct (route c0 (e_name e)); [reflexivity|discriminate]. }
        assert (HB' : forall p l i, slot_at c1 (p, l) = Some (SPin i) -> (exists c, kid ((s0, c0) :: t) s0 = Some c /\ slot_at c (p, l) = Some (SPin i)) \/
          (nconn st' i < nconn sc i /\ exists e, In e es' /\ route_kids (e_name e) ((s0, c0) :: t) = Some (s0 :: p, l) /\ e_pin e = i)).
        { intros p l i Hs. destruct (HB _ _ Hs) as [X|[X (e & He & Hr & Hp)]]; [left; exists c0; split; auto; cbn [kid]; destruct (seg_eq_dec s0 s0); congruence|right]. split; auto. exists e. split; auto. split; auto. cbn [route_kids]. rewrite Hr. reflexivity. }
        destruct rc as [esc|yc].
        + fold (kids_x acc stack1). destruct (kids_x acc stack1 t esc sc (next_clk s0 (b_clk c1) ck')) as [[[t1 s3] ck3] r3] eqn:Et. intros H. injection H as <- <- <- <-.
          pose proof (bind_agree acc c0 stack1 es' st') as Ha. rewrite Ec in Ha. destruct (bind_main _ _ (Hwk _ _ Hc0) _ _ _ _ _ _ Ho' Ha) as (Hp1 & _). pose proof (orgs_perm_filter _ _ _ Ho' Hp1) as Ho1.
          cbn [map fst] in Hnd. inversion Hnd as [|? ? Hn0 Hnt]; subst. destruct (IHt _ _ _ _ _ _ _ (fun s c H => Hin s c (or_intror H)) Hnt Ho1 Et) as [KA KB]. split.
          * intros i. destruct (HA i) as [A1 A2]. destruct (KA i) as [A3 A4]. split; [eapply same_pin_trans; eauto|]. rewrite (pinhits_perm _ _ _ _ Hp1), pinhits_filter in A4.
            assert (pinhits i (fun e => negb (unrouted_k ((s0, c0) :: t) e)) es' = pinhits i (routed c0) es' + pinhits i (fun e => unrouted c0 e && negb (unrouted_k t e)) es'); [|lia].
            apply pinhits_split. intros e _. unfold routed, unrouted, unrouted_k. cbn [route_kids]. fold (route_kids (e_name e)). destruct (route c0 (e_name e)); cbn [negb andb down option_map orelse Nat.b2n]; [reflexivity|]. destruct (route_kids (e_name e) t); reflexivity.
          * intros s c2 p l i Hk Hs. cbn [kid] in Hk. destruct (seg_eq_dec s s0) as [->|Ne].
            -- injection Hk as <-. destruct (HB' _ _ _ Hs) as [X|[X Y]]; [left; exact X|right]. split; [|exact Y]. destruct (KA i) as [_ A4]. lia.
            -- destruct (KB _ _ _ _ _ Hk Hs) as [(c & Hkc & Hsc)|[X (e & He & Hr & Hp)]]; [left; exists c; split; auto; cbn [kid]; destruct (seg_eq_dec s s0); congruence|right]. destruct (HA i) as [_ A2]. split; [lia|].
               apply (Permutation_in _ Hp1) in He. apply filter_In in He. destruct He as [He Hu]. exists e. split; auto. split; auto. cbn [route_kids]. unfold unrouted in Hu. destruct (route c0 (e_name e)); [discriminate|]. exact Hr.
        + intros H. injection H as <- <- <- <-. split.
          * intros i. destruct (HA i) as [A1 A2]. specialize (HR i). split; auto. lia.
          * intros s c2 p l i Hk Hs. cbn [kid] in Hk. destruct (seg_eq_dec s s0) as [->|Ne]; [injection Hk as <-; exact (HB' _ _ _ Hs)|]. left. exists c2. split; auto. cbn [kid]. destruct (seg_eq_dec s s0); congruence. }
    assert (Ho2 : NoDup (map e_org (h_match h))) by (rewrite HM; now apply passes_orgs). destruct (HK _ _ _ _ _ _ _ _ (fun _ _ H => H) Hnk Ho2 Ek) as [KA KB]. split.
    + intros i. destruct (KA i) as [A1 A2]. destruct (HS i) as [B1 B2]. split; [eapply same_pin_trans; eauto|]. rewrite level_count, <- HM. lia.
    + intros [[|s p] l] i.
      * intros Hs. destruct (HL _ _ _ _ _ Hs) as [X|[X Y]]; [auto|right]. split; [|exact Y]. destruct (KA i) as [_ A2]. lia.
      * rewrite !slot_at_cons. cbn [b_kids]. destruct (kid ks1 s) as [c1|] eqn:Ekd; [|discriminate]. intros Hs. destruct (KB _ _ _ _ _ Ekd Hs) as [(c & -> & Hc)|[X (e & He & Hr & Hp)]]; [auto|right]. destruct (HS i) as [B1 _]. split; [lia|].
        rewrite HM in He. apply in_flat_map in He. destruct He as (e0 & He0 & He). unfold passes in He. destruct (translate m (e_name e0)) as [n|] eqn:Etr; [|destruct He]. rewrite leaf_of_has in He. destruct (leaf_of ls n) eqn:El; [destruct He|]. destruct He as [<-|[]]. cbn [e_name e_pin] in *.
        exists e0. split; auto. split; auto. rewrite route_B, Etr, El. exact Hr.
  - injection Hb as <- <- _. split.
    + intros i. destruct (HS i) as [B1 B2]. split; auto. rewrite level_count. lia.
    + intros [[|s p] l] i Hs; [exact (HL _ _ _ _ _ Hs)|]. left. rewrite slot_at_cons in *. exact Hs.
Qed.
