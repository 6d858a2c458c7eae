(** Lemmas about bundle trees and binding. *)
From Coq Require Import List String Ascii Bool Arith ZArith Lia Permutation.
From Verif Require Import Py Bundle_Model Bundle_Spec.
Import ListNotations.
Open Scope string_scope.
Open Scope list_scope.

(** * Induction over trees *)
Lemma bundle_ind2 (P : bundle -> Prop) :
  (forall nm m ls sls ks bls ck, (forall s c, In (s, c) ks -> P c) -> P (B nm m ls sls ks bls ck)) ->
  forall b, P b.
Proof.
  intros H. fix IH 1. intros [nm m ls sls ks bls ck]. apply H.
  induction ks as [|[s c] t IHt]; intros s' c' Hin.
  - destruct Hin.
  - pose proof (IH c) as Hc. destruct Hin as [E|Hin]; [|exact (IHt s' c' Hin)]. injection E as _ <-. exact Hc.
Qed.

(** * The search as a function *)
Fixpoint leaf_of (ls : list leaf) (n : string) : option leafid :=
  match ls with [] => None | l :: t => if String.eqb n (l_name l) then Some (l_id l) else leaf_of t n end.
Definition down (s : seg) (o : option place) : option place := option_map (fun pl => (s :: fst pl, snd pl)) o.
Definition orelse {A} (a b : option A) : option A := match a with Some _ => a | None => b end.

Fixpoint route (b : bundle) (s : string) : option place :=
  match b with
  | B _ m ls _ ks _ _ =>
      match translate m s with
      | None => None
      | Some n =>
          match leaf_of ls n with
          | Some l => Some ([], l)
          | None => (fix go (ks : list (seg * bundle)) := match ks with
                     | [] => None
                     | (sg, c) :: t => orelse (down sg (route c n)) (go t)
                     end) ks
          end
      end
  end.
Definition route_kids (n : string) := fix go (ks : list (seg * bundle)) : option place :=
  match ks with [] => None | (sg, c) :: t => orelse (down sg (route c n)) (go t) end.
Lemma route_B nm m ls sls ks bls ck s :
  route (B nm m ls sls ks bls ck) s =
  match translate m s with
  | None => None
  | Some n => match leaf_of ls n with Some l => Some ([], l) | None => route_kids n ks end
  end.
Proof. reflexivity. Qed.

Definition places_kids := fix go (ks : list (seg * bundle)) : list place :=
  match ks with [] => [] | (s, c) :: t => map (fun pl => (s :: fst pl, snd pl)) (places c) ++ go t end.
Lemma places_B nm m ls sls ks bls ck :
  places (B nm m ls sls ks bls ck) = map (fun x => ([], l_id x)) ls ++ places_kids ks.
Proof. reflexivity. Qed.

Definition bind_kids (acc : bool) (stack1 : list bundle) :=
  fix go (ks : list (seg * bundle)) (es : list entry) (st : store) (ck : option nat)
    : res (list (seg * bundle) * store * list entry * option nat) :=
  match ks with
  | [] => Ok ([], st, es, ck)
  | (s, c) :: t =>
      match bind_b acc stack1 c es st with
      | Exn x => Exn x
      | Ok (c1, st1, es1) =>
          match go t es1 st1 (next_clk s (b_clk c1) ck) with
          | Exn x => Exn x
          | Ok (t1, st2, es2, ck2) => Ok ((s, c1) :: t1, st2, es2, ck2)
          end
      end
  end.
Lemma bind_B acc stack nm m ls sls ks bls ck es st :
  bind_b acc stack (B nm m ls sls ks bls ck) es st =
  let stack1 := stack ++ [B nm m ls sls ks bls ck] in
  let h := bind_here m es ls ck st in
  match missing acc stack1 (h_conn h) (h_ls h) with
  | Exn x => Exn x
  | Ok ls1 =>
      match bind_kids acc stack1 ks (h_match h) (h_st h) (h_ck h) with
      | Exn x => Exn x
      | Ok (ks1, st1, rest, ck1) => Ok (B nm m ls1 sls ks1 bls ck1, st1, revert rest es ++ h_rest h)
      end
  end.
Proof. reflexivity. Qed.

(** * Small facts *)
Lemma smem_In x l : smem x l = true <-> In x l.
Proof.
  induction l as [|y t IH]; cbn [smem In]; [split; [discriminate|tauto]|].
  rewrite orb_true_iff, IH, String.eqb_eq. split; intros [H|H]; auto.
Qed.
Lemma smem_false x l : smem x l = false <-> ~ In x l.
Proof. rewrite <- smem_In. destruct (smem x l); split; congruence. Qed.

Lemma leaf_of_has ls n : has_leaf ls n = match leaf_of ls n with Some _ => true | None => false end.
Proof.
  unfold has_leaf. induction ls as [|l t IH]; cbn [map smem leaf_of]; [reflexivity|].
  destruct (String.eqb n (l_name l)); cbn [orb]; auto.
Qed.
Lemma leaf_of_Some ls n l : leaf_of ls n = Some l -> exists x, In x ls /\ l_id x = l /\ l_name x = n.
Proof.
  induction ls as [|y t IH]; cbn [leaf_of]; [discriminate|].
  destruct (String.eqb n (l_name y)) eqn:E.
  - intros [= <-]. apply String.eqb_eq in E. exists y. cbn [In]. auto.
  - intros H. destruct (IH H) as [x [Hx Hr]]. exists x. cbn [In]. auto.
Qed.
Lemma leaf_of_None ls n : leaf_of ls n = None <-> ~ In n (map l_name ls).
Proof.
  induction ls as [|y t IH]; cbn [leaf_of map In]; [tauto|].
  destruct (String.eqb n (l_name y)) eqn:E.
  - apply String.eqb_eq in E. split; [discriminate|]. intros H. exfalso. apply H. left. symmetry. exact E.
  - apply String.eqb_neq in E. rewrite IH. split; intros H; [intros [H1|H1]; [congruence|tauto]|tauto].
Qed.
Lemma leaf_of_uniq ls x : NoDup (map l_name ls) -> In x ls -> leaf_of ls (l_name x) = Some (l_id x).
Proof.
  induction ls as [|y t IH]; cbn [leaf_of map In]; [tauto|]. intros Hn Hin. inversion Hn as [|? ? Hni Hnt]; subst.
  destruct Hin as [->|Hin]; [rewrite String.eqb_refl; reflexivity|].
  destruct (String.eqb (l_name x) (l_name y)) eqn:E; [|auto].
  apply String.eqb_eq in E. exfalso. apply Hni. rewrite <- E. now apply in_map.
Qed.
Lemma leaf_in_In ls x : NoDup (map l_id ls) -> In x ls -> leaf_in ls (l_id x) = Some x.
Proof.
  induction ls as [|y t IH]; cbn [leaf_in map In]; [tauto|]. intros Hn Hin. inversion Hn as [|? ? Hni Hnt]; subst.
  destruct Hin as [->|Hin]; [destruct (leafid_eq_dec (l_id x) (l_id x)); congruence|].
  destruct (leafid_eq_dec (l_id x) (l_id y)) as [E|E]; [|auto].
  exfalso. apply Hni. rewrite <- E. now apply in_map.
Qed.
Lemma leaf_in_Some ls l x : leaf_in ls l = Some x -> In x ls /\ l_id x = l.
Proof.
  induction ls as [|y t IH]; cbn [leaf_in In]; [discriminate|].
  destruct (leafid_eq_dec l (l_id y)) as [E|E]; [intros [= <-]; auto|]. intros H. destruct (IH H); auto.
Qed.
Lemma kid_Some ks s c : kid ks s = Some c -> In (s, c) ks.
Proof.
  induction ks as [|[s' c'] t IH]; cbn [kid In]; [discriminate|].
  destruct (seg_eq_dec s s') as [E|E]; [intros [= <-]; subst; auto|auto].
Qed.
Lemma kid_In ks s c : NoDup (map fst ks) -> In (s, c) ks -> kid ks s = Some c.
Proof.
  induction ks as [|[s' c'] t IH]; cbn [kid map fst In]; [tauto|]. intros Hn Hin. inversion Hn as [|? ? Hni Hnt]; subst.
  destruct Hin as [[= -> ->]|Hin]; [destruct (seg_eq_dec s s); congruence|].
  destruct (seg_eq_dec s s') as [E|E]; [|auto]. subst. exfalso. apply Hni. change s' with (fst (s', c)). now apply in_map.
Qed.
Lemma kid_None ks s : kid ks s = None <-> ~ In s (map fst ks).
Proof.
  induction ks as [|[s' c'] t IH]; cbn [kid map fst In]; [tauto|].
  destruct (seg_eq_dec s s') as [E|E]; [split; [discriminate|]; intros H; exfalso; apply H; auto|].
  rewrite IH. split; intros H; [intros [H1|H1]; [congruence|tauto]|tauto].
Qed.

(** * set_slot *)
Lemma set_slot_names ls n v : map l_name (set_slot ls n v) = map l_name ls.
Proof.
  induction ls as [|l t IH]; cbn [set_slot map]; [reflexivity|].
  destruct (String.eqb n (l_name l)); cbn [map l_name]; [reflexivity|now rewrite IH].
Qed.
Lemma set_slot_has ls n v k : has_leaf (set_slot ls n v) k = has_leaf ls k.
Proof. unfold has_leaf. now rewrite set_slot_names. Qed.

(** Two leaves differing only in what they hold. *)
Definition same_leaf (x y : leaf) : Prop := l_id x = l_id y /\ l_name x = l_name y /\ l_decl x = l_decl y.
Lemma same_leaf_refl x : same_leaf x x.
Proof. repeat split. Qed.
Lemma same_leaf_trans x y z : same_leaf x y -> same_leaf y z -> same_leaf x z.
Proof. unfold same_leaf. intuition congruence. Qed.

Lemma set_slot_F2 ls n v : NoDup (map l_name ls) ->
  Forall2 (fun x y => same_leaf x y /\ l_slot y = if String.eqb n (l_name x) then v else l_slot x) ls (set_slot ls n v).
Proof.
  induction ls as [|l t IH]; cbn [set_slot map]; intros Hn; [constructor|]. inversion Hn as [|? ? Hni Hnt]; subst.
  destruct (String.eqb n (l_name l)) eqn:E.
  - constructor; [split; [repeat split|]; cbn [l_slot]; rewrite E; reflexivity|].
    apply String.eqb_eq in E. clear IH Hn.
    induction t as [|y u IHu]; constructor.
    + split; [apply same_leaf_refl|]. destruct (String.eqb n (l_name y)) eqn:E2; [|reflexivity].
      apply String.eqb_eq in E2. exfalso. apply Hni. cbn [map In]. left. congruence.
    + cbn [map In] in Hni. inversion Hnt; subst. apply IHu; auto.
  - constructor; [split; [apply same_leaf_refl|now rewrite E]|]. auto.
Qed.

(** * bind_here *)
Definition hits (m : method) (ls : list leaf) (e : entry) : option string :=
  match translate m (e_name e) with Some n => if has_leaf ls n then Some n else None | None => None end.
Definition passes (m : method) (ls : list leaf) (e : entry) : list entry :=
  match translate m (e_name e) with
  | Some n => if has_leaf ls n then [] else [mk_entry n (e_org e) (e_pin e)]
  | None => []
  end.

Lemma bind_here_match m es : forall ls ck st, h_match (bind_here m es ls ck st) = flat_map (passes m ls) es.
Proof.
  induction es as [|e t IH]; intros ls ck st; cbn [bind_here flat_map h_match]; [reflexivity|].
  unfold passes at 1. destruct (translate m (e_name e)) as [n|]; cbn [h_match app]; [|apply IH].
  destruct (has_leaf ls n); cbn [h_match app]; rewrite IH; [|reflexivity].
  apply flat_map_ext. intros a. unfold passes. destruct (translate m (e_name a)); [|reflexivity]. now rewrite set_slot_has.
Qed.
Lemma bind_here_rest m es : forall ls ck st,
  h_rest (bind_here m es ls ck st) = filter (fun e => match translate m (e_name e) with None => true | Some _ => false end) es.
Proof.
  induction es as [|e t IH]; intros ls ck st; cbn [bind_here filter h_rest]; [reflexivity|].
  destruct (translate m (e_name e)) as [n|]; cbn [h_rest]; [|now rewrite IH].
  destruct (has_leaf ls n); cbn [h_rest]; apply IH.
Qed.
Lemma bind_here_conn m es : forall ls ck st n,
  In n (h_conn (bind_here m es ls ck st)) <-> exists e, In e es /\ hits m ls e = Some n.
Proof.
  induction es as [|e t IH]; intros ls ck st n; cbn [bind_here h_conn].
  - split; [intros []|intros [e [[] _]]].
  - destruct (translate m (e_name e)) as [k|] eqn:E.
    + destruct (has_leaf ls k) eqn:Eh; cbn [h_conn In]; rewrite IH.
      * split.
        -- intros [->|[e' [Hi He]]]; [exists e; split; [now left|unfold hits; now rewrite E, Eh]|].
           exists e'. split; [now right|]. unfold hits in *. destruct (translate m (e_name e')); [|discriminate].
           now rewrite set_slot_has in He.
        -- intros [e' [[->|Hi] He]].
           ++ left. unfold hits in He. rewrite E, Eh in He. congruence.
           ++ right. exists e'. split; [assumption|]. unfold hits in *. destruct (translate m (e_name e')); [|discriminate].
              now rewrite set_slot_has.
      * split; intros [e' [Hi He]]; [exists e'; split; [now right|assumption]|]. destruct Hi as [->|Hi]; [|eauto].
        unfold hits in He. rewrite E, Eh in He. discriminate.
    + cbn [h_conn]. rewrite IH. split; intros [e' [Hi He]]; [exists e'; split; [now right|assumption]|].
      destruct Hi as [->|Hi]; [|eauto]. unfold hits in He. rewrite E in He. discriminate.
Qed.

(** What a leaf holds after the entries of a level have been looked at. *)
Definition held (m : method) (es : list entry) (keep : slot) (x y : leaf) : Prop :=
  same_leaf x y /\
  ((exists e, In e es /\ translate m (e_name e) = Some (l_name x) /\ l_slot y = SPin (e_pin e)) \/
   ((forall e, In e es -> translate m (e_name e) <> Some (l_name x)) /\ l_slot y = keep)).

Lemma F2_In_l {A C} (R : A -> C -> Prop) l1 l2 : Forall2 R l1 l2 -> forall x, In x l1 -> exists y, In y l2 /\ R x y.
Proof.
  induction 1 as [|a c l1 l2 H1 H2 IH]; intros x [].
  - subst. exists c. split; [now left|assumption].
  - destruct (IH x H) as [y [Hy Hr]]. exists y. split; [now right|assumption].
Qed.
Lemma F2_trans {A C D} (R : A -> C -> Prop) (S : C -> D -> Prop) (T : A -> D -> Prop) l1 l2 l3 :
  Forall2 R l1 l2 -> Forall2 S l2 l3 -> (forall x y z, In x l1 -> R x y -> S y z -> T x z) -> Forall2 T l1 l3.
Proof.
  intros H. revert l3. induction H as [|a c l1 l2 Hr H2 IH]; intros l3 H3 HT; inversion H3; subst; constructor.
  - eapply HT; eauto. now left.
  - apply IH; [assumption|]. intros; eapply HT; eauto. now right.
Qed.
Lemma F2_ids l1 l2 (R : leaf -> leaf -> Prop) : Forall2 R l1 l2 -> (forall x y, R x y -> same_leaf x y) ->
  map l_id l2 = map l_id l1 /\ map l_name l2 = map l_name l1.
Proof.
  intros H HR. induction H as [|x y l1 l2 H1 H2 IH]; [split; reflexivity|]. cbn [map]. destruct IH as [-> ->].
  destruct (HR _ _ H1) as [-> [-> _]]. split; reflexivity.
Qed.

Lemma bind_here_ls m es : forall ls ck st, NoDup (map l_name ls) ->
  Forall2 (fun x y => held m es (l_slot x) x y) ls (h_ls (bind_here m es ls ck st)).
Proof.
  induction es as [|e t IH]; intros ls ck st Hn; cbn [bind_here h_ls].
  - clear Hn. induction ls as [|x u IHu]; constructor; [|assumption]. split; [apply same_leaf_refl|]. right. split; [intros ? []|reflexivity].
  - assert (Hskip : forall ls', (forall x, In x ls -> translate m (e_name e) <> Some (l_name x)) ->
              Forall2 (fun x y => held m t (l_slot x) x y) ls ls' -> Forall2 (fun x y => held m (e :: t) (l_slot x) x y) ls ls').
    { intros ls' Hno H. clear Hn IH. induction H as [|x y l1 l2 H1 H2 IH2]; constructor.
      - destruct H1 as [Hs [[e' [Hi He]]|[Ha Hk]]]; (split; [exact Hs|]).
        + left. exists e'. split; [now right|exact He].
        + right. split; [|exact Hk]. intros e' [->|Hi]; [apply Hno; now left|now apply Ha].
      - apply IH2. intros; apply Hno. now right. }
    destruct (translate m (e_name e)) as [n|] eqn:E.
    + destruct (has_leaf ls n) eqn:Eh; cbn [h_ls].
      * eapply F2_trans; [apply set_slot_F2; exact Hn|apply IH; rewrite set_slot_names; exact Hn|].
        cbv beta. intros x y z Hx [Hs1 Hsl] [Hs2 Hh]. split; [eapply same_leaf_trans; eauto|].
        assert (Hnm : l_name y = l_name x) by (symmetry; apply Hs1).
        destruct Hh as [[e' [Hi [Ht Hz]]]|[Ha Hz]].
        -- left. exists e'. rewrite <- Hnm. repeat split; auto. now right.
        -- destruct (String.eqb n (l_name x)) eqn:Ex.
           ++ left. exists e. apply String.eqb_eq in Ex. repeat split; [now left|congruence|congruence].
           ++ right. split; [|congruence]. intros e' [->|Hi]; [rewrite E; apply String.eqb_neq in Ex; congruence|].
              rewrite <- Hnm. now apply Ha.
      * apply Hskip; [|apply IH; exact Hn]. intros x Hx [= ->].
        unfold has_leaf in Eh. apply smem_false in Eh. apply Eh. now apply in_map.
    + apply Hskip; [intros; discriminate|apply IH; exact Hn].
Qed.

Lemma missing_ls acc stack conn : forall ls ls1, missing acc stack conn ls = Ok ls1 ->
  Forall2 (fun x y => same_leaf x y /\ l_slot y = if smem (l_name x) conn then l_slot x else if acc then SDummy else l_slot x) ls ls1.
Proof.
  induction ls as [|l t IH]; intros ls1; cbn [missing]; [intros [= <-]; constructor|].
  destruct (smem (l_name l) conn) eqn:E.
  - destruct (missing acc stack conn t) as [r|]; cbn [rbind]; [|discriminate]. intros [= <-].
    constructor; [split; [apply same_leaf_refl|now rewrite E]|auto].
  - destruct (rule_string stack (l_name l)); cbn [rbind]; [|discriminate].
    destruct (missing acc stack conn t) as [r|]; cbn [rbind]; [|discriminate]. intros [= <-].
    constructor; [|auto]. rewrite E. destruct acc; (split; [repeat split|reflexivity]).
Qed.

(** The signals of one level after bind. *)
Definition keep_of (acc : bool) (x : leaf) : slot := if acc then SDummy else l_slot x.
Lemma level_ls acc stack m es ls ck st ls1 : NoDup (map l_name ls) ->
  missing acc stack (h_conn (bind_here m es ls ck st)) (h_ls (bind_here m es ls ck st)) = Ok ls1 ->
  Forall2 (fun x y => held m es (keep_of acc x) x y) ls ls1.
Proof.
  intros Hn Hm. eapply F2_trans; [apply bind_here_ls; exact Hn|eapply missing_ls; exact Hm|].
  cbv beta. intros x y z Hx [Hs1 Hh] [Hs2 Hz]. split; [eapply same_leaf_trans; eauto|].
  assert (Hnm : l_name y = l_name x) by (symmetry; apply Hs1). rewrite Hnm in Hz.
  assert (Hl : has_leaf ls (l_name x) = true) by (apply smem_In; now apply in_map).
  destruct Hh as [[e [Hi [Ht Hy]]]|[Ha Hy]].
  - assert (Hc : smem (l_name x) (h_conn (bind_here m es ls ck st)) = true).
    { apply smem_In. apply bind_here_conn. exists e. split; [assumption|]. unfold hits. now rewrite Ht, Hl. }
    rewrite Hc in Hz. left. exists e. repeat split; auto. congruence.
  - assert (Hc : smem (l_name x) (h_conn (bind_here m es ls ck st)) = false).
    { apply smem_false. rewrite bind_here_conn. intros [e [Hi He]]. apply (Ha e Hi). unfold hits in He.
      destruct (translate m (e_name e)) as [k|]; [|discriminate]. destruct (has_leaf ls k); congruence. }
    rewrite Hc in Hz. right. split; [assumption|]. unfold keep_of. destruct acc; congruence.
Qed.

(** * Reverting names *)
Lemma revert_one_out e last : ~ In (e_org e) (map e_org last) -> revert_one e last = e.
Proof.
  unfold revert_one. induction last as [|l t IH]; cbn [fold_left map In]; [reflexivity|]. intros H.
  destruct (String.eqb (e_org e) (e_org l)) eqn:E; [apply String.eqb_eq in E; exfalso; apply H; auto|].
  apply IH. tauto.
Qed.
Lemma revert_one_in n e last : NoDup (map e_org last) -> In e last -> revert_one (mk_entry n (e_org e) (e_pin e)) last = e.
Proof.
  intros Hn. revert n. induction last as [|l t IH]; intros n Hin; [destruct Hin|].
  cbn [map] in Hn. inversion Hn as [|? ? Hni Hnt]; subst. unfold revert_one. cbn [fold_left e_org].
  destruct Hin as [->|Hin].
  - rewrite String.eqb_refl. cbn [e_pin]. change (revert_one (mk_entry (e_name e) (e_org e) (e_pin e)) t = e).
    destruct e as [a c d]. apply revert_one_out. cbn [e_org] in *. exact Hni.
  - destruct (String.eqb (e_org e) (e_org l)) eqn:E.
    + apply String.eqb_eq in E. exfalso. apply Hni. rewrite <- E. now apply in_map.
    + apply (IH Hnt n Hin).
Qed.

Definition unrouted (b : bundle) (e : entry) : bool := match route b (e_name e) with None => true | Some _ => false end.
Definition unrouted_k (ks : list (seg * bundle)) (e : entry) : bool :=
  match route_kids (e_name e) ks with None => true | Some _ => false end.

Lemma revert_level nm m ls sls ks bls ck es : NoDup (map e_org es) ->
  Permutation (revert (filter (unrouted_k ks) (flat_map (passes m ls) es)) es ++
               filter (fun e => match translate m (e_name e) with None => true | Some _ => false end) es)
              (filter (unrouted (B nm m ls sls ks bls ck)) es).
Proof.
  intros Hn. assert (H : forall sub, incl sub es ->
    Permutation (revert (filter (unrouted_k ks) (flat_map (passes m ls) sub)) es ++
               filter (fun e => match translate m (e_name e) with None => true | Some _ => false end) sub)
              (filter (unrouted (B nm m ls sls ks bls ck)) sub)); [|apply H; apply incl_refl].
  induction sub as [|e t IH]; intros Hi; [apply Permutation_refl|].
  assert (Hit : incl t es) by (intros x Hx; apply Hi; now right). specialize (IH Hit).
  assert (He : In e es) by (apply Hi; now left).
  cbn [flat_map filter]. unfold unrouted at 1. rewrite route_B. unfold passes at 1.
  destruct (translate m (e_name e)) as [n|] eqn:E.
  - rewrite leaf_of_has. destruct (leaf_of ls n) as [l|] eqn:El; cbn [app]; [exact IH|].
    cbn [filter]. unfold unrouted_k at 1. cbn [e_name]. destruct (route_kids n ks); [exact IH|].
    unfold revert at 1. cbn [map]. rewrite revert_one_in by assumption. cbn [app]. apply perm_skip. exact IH.
  - cbn [app]. eapply Permutation_trans; [apply Permutation_sym, Permutation_middle|]. apply perm_skip. exact IH.
Qed.

Lemma passes_orgs m ls es : NoDup (map e_org es) -> NoDup (map e_org (flat_map (passes m ls) es)).
Proof.
  induction es as [|e t IH]; cbn [map flat_map]; intros Hn; [constructor|]. inversion Hn as [|? ? Hni Hnt]; subst.
  rewrite map_app. assert (Hno : forall o, In o (map e_org (flat_map (passes m ls) t)) -> In o (map e_org t)).
  { intros o Ho. apply in_map_iff in Ho. destruct Ho as [x [<- Hx]]. apply in_flat_map in Hx. destruct Hx as [y [Hy Hx]].
    unfold passes in Hx. destruct (translate m (e_name y)); [|destruct Hx]. destruct (has_leaf ls s); [destruct Hx|].
    destruct Hx as [<-|[]]. cbn [e_org]. now apply in_map. }
  unfold passes at 1. destruct (translate m (e_name e)); cbn [map app]; [|auto].
  destruct (has_leaf ls s); cbn [map app e_org]; [auto|]. constructor; [|auto]. intros H. apply Hni. now apply Hno.
Qed.
Lemma orgs_perm_filter es es1 f : NoDup (map e_org es) -> Permutation es1 (filter f es) -> NoDup (map e_org es1).
Proof.
  intros Hn Hp. apply (Permutation_map e_org) in Hp. eapply Permutation_NoDup; [apply Permutation_sym; exact Hp|]. clear Hp.
  induction es as [|e t IH]; cbn [map filter] in *; [constructor|]. inversion Hn as [|? ? Hni Hnt]; subst.
  destruct (f e); cbn [map]; [|auto]. constructor; [|auto]. intros H. apply Hni. apply in_map_iff in H.
  destruct H as [x [<- Hx]]. apply filter_In in Hx. apply in_map. tauto.
Qed.

(** * What is left, and what the signals hold *)
Definition slot_spec (acc : bool) (b : bundle) (es : list entry) (b1 : bundle) : Prop :=
  forall pl,
    match slot_at b pl with
    | None => slot_at b1 pl = None
    | Some s => exists s1, slot_at b1 pl = Some s1 /\
        ((exists e, In e es /\ route b (e_name e) = Some pl /\ s1 = SPin (e_pin e)) \/
         ((forall e, In e es -> route b (e_name e) <> Some pl) /\ s1 = if acc then SDummy else s))
    end.

Lemma filter_filter {A} (f g : A -> bool) l : filter f (filter g l) = filter (fun x => g x && f x) l.
Proof.
  induction l as [|x t IH]; cbn [filter]; [reflexivity|]. destruct (g x); cbn [filter andb]; [|exact IH].
  destruct (f x); [now rewrite IH|exact IH].
Qed.
Lemma Permutation_filter {A} (f : A -> bool) l1 l2 : Permutation l1 l2 -> Permutation (filter f l1) (filter f l2).
Proof.
  induction 1 as [|x l1 l2 H IH|x y l|l1 l2 l3 H1 IH1 H2 IH2]; cbn [filter].
  - constructor.
  - destruct (f x); [now constructor|assumption].
  - destruct (f x), (f y); try apply Permutation_refl; apply perm_swap.
  - eapply Permutation_trans; eassumption.
Qed.

Lemma slot_at_nil b l : slot_at b ([], l) = option_map l_slot (leaf_in (b_leaves b) l).
Proof. reflexivity. Qed.
Lemma slot_at_cons b s p l : slot_at b (s :: p, l) = match kid (b_kids b) s with Some c => slot_at c (p, l) | None => None end.
Proof. unfold slot_at, leaf_at. cbn [fst snd sub_at]. destruct (kid (b_kids b) s); reflexivity. Qed.

Lemma route_kids_first n ks pl : route_kids n ks = Some pl ->
  exists k1 s c k2 q, ks = k1 ++ (s, c) :: k2 /\ route c n = Some q /\ pl = (s :: fst q, snd q) /\
    forall s' c', In (s', c') k1 -> route c' n = None.
Proof.
  induction ks as [|[s c] t IH]; cbn [route_kids]; [discriminate|].
  destruct (route c n) as [q|] eqn:E; cbn [down option_map orelse].
  - intros [= <-]. exists [], s, c, t, q. repeat split; auto. intros ? ? [].
  - intros H. destruct (IH H) as (k1 & s1 & c1 & k2 & q & -> & Hq & -> & Ha). exists ((s, c) :: k1), s1, c1, k2, q.
    repeat split; auto. intros s' c' [[= <- <-]|Hi]; eauto.
Qed.

Lemma bind_main acc b : wf b -> forall stack es st b1 st1 rest, NoDup (map e_org es) ->
  bind_b acc stack b es st = Ok (b1, st1, rest) ->
  Permutation rest (filter (unrouted b) es) /\ slot_spec acc b es b1 /\ b_meth b1 = b_meth b.
Proof.
  induction b as [nm m ls sls ks bls ck IH] using bundle_ind2. intros Hwf stack es st b1 st1 rest Ho.
  rewrite bind_B. cbv zeta. set (stack1 := stack ++ _). set (h := bind_here m es ls ck st).
  inversion Hwf as [? ? ? ? ? ? ? Hni Hnn Hnk Hwk]; subst.
  destruct (missing acc stack1 (h_conn h) (h_ls h)) as [ls1|] eqn:Em; [|discriminate].
  assert (Hls := level_ls _ _ _ _ _ _ _ _ Hnn Em).
  (* the children *)
  assert (HK : forall ks' es' st' ck' ks1 st1 rest1 ck1,
    (forall s c, In (s, c) ks' -> In (s, c) ks) -> NoDup (map fst ks') -> NoDup (map e_org es') ->
    bind_kids acc stack1 ks' es' st' ck' = Ok (ks1, st1, rest1, ck1) ->
    Permutation rest1 (filter (unrouted_k ks') es') /\ map fst ks1 = map fst ks' /\
    (forall s c p l, kid ks' s = Some c ->
       exists c1, kid ks1 s = Some c1 /\
       match slot_at c (p, l) with
       | None => slot_at c1 (p, l) = None
       | Some sl => exists s1, slot_at c1 (p, l) = Some s1 /\
           ((exists e, In e es' /\ route_kids (e_name e) ks' = Some (s :: p, l) /\ s1 = SPin (e_pin e)) \/
            ((forall e, In e es' -> route_kids (e_name e) ks' <> Some (s :: p, l)) /\ s1 = if acc then SDummy else sl))
       end)).
  { induction ks' as [|[s c] t IHt]; intros es' st' ck' ks1 st1' rest1 ck1 Hsub Hnd Hno; cbn [bind_kids].
    - intros [= <- <- <- <-]. split; [|split; [reflexivity|intros ? ? ? ? Hk; discriminate Hk]].
      assert (Ht : filter (unrouted_k []) es' = es').
      { clear. induction es' as [|e u IHu]; [reflexivity|]. cbn. now rewrite IHu. }
      rewrite Ht. apply Permutation_refl.
    - destruct (bind_b acc stack1 c es' st') as [[[c1 stc] esc]|] eqn:Ec; [|discriminate].
      fold (bind_kids acc stack1).
      destruct (bind_kids acc stack1 t esc stc (next_clk s (b_clk c1) ck')) as [[[[t1 stt] est] ckt]|] eqn:Et; [|discriminate].
      intros [= <- <- <- <-].
      assert (Hin : In (s, c) ks) by (apply Hsub; now left).
      destruct (IH _ _ Hin (Hwk _ _ Hin) _ _ _ _ _ _ Hno Ec) as (Hp1 & Hs1 & _).
      cbn [map fst] in Hnd. inversion Hnd as [|? ? Hnis Hndt]; subst.
      assert (Hno1 := orgs_perm_filter _ _ _ Hno Hp1).
      assert (Hsubt : forall s0 c0, In (s0, c0) t -> In (s0, c0) ks) by (intros; apply Hsub; now right).
      destruct (IHt _ _ _ _ _ _ _ Hsubt Hndt Hno1 Et) as (Hp2 & Hf2 & Hk2).
      split; [|split; [cbn [map fst]; now rewrite Hf2|]].
      + eapply Permutation_trans; [exact Hp2|]. eapply Permutation_trans; [apply Permutation_filter; exact Hp1|].
        rewrite filter_filter. erewrite filter_ext; [apply Permutation_refl|]. intros e. cbv beta.
        unfold unrouted, unrouted_k. cbn [route_kids]. destruct (route c (e_name e)); reflexivity.
      + intros s' c' p l. cbn [kid]. destruct (seg_eq_dec s' s) as [->|Hne].
        * intros [= <-]. exists c1. split; [reflexivity|]. specialize (Hs1 (p, l)).
          destruct (slot_at c (p, l)) as [sl|]; [|exact Hs1].
          destruct Hs1 as [s1 [Hs1 Hd]]. exists s1. split; [exact Hs1|].
          assert (Hiff : forall n, route_kids n ((s, c) :: t) = Some (s :: p, l) <-> route c n = Some (p, l)).
          { intros n. cbn [route_kids]. destruct (route c n) as [[q1 q2]|] eqn:Er; cbn [down option_map orelse fst snd].
            - split; intros [= -> ->]; reflexivity.
            - split; [|discriminate]. intros Hr. exfalso. apply route_kids_first in Hr.
              destruct Hr as (k1 & s2 & c2 & k2 & q & -> & _ & [= -> _ _] & _). apply Hnis.
              rewrite map_app, in_app_iff. right. now left. }
          destruct Hd as [[e [Hi [Hr He]]]|[Ha He]]; [left; exists e; repeat split; auto; now apply Hiff|].
          right. split; [|exact He]. intros e Hi Hr. apply Hiff in Hr. now apply (Ha e).
        * intros Hk. destruct (Hk2 _ _ p l Hk) as [c1' [Hk1 Hd]]. exists c1'. split; [exact Hk1|].
          destruct (slot_at c' (p, l)) as [sl|]; [|exact Hd].
          destruct Hd as [s1 [Hs1' Hd]]. exists s1. split; [exact Hs1'|].
          assert (Hiff : forall n, route_kids n ((s, c) :: t) = Some (s' :: p, l) <->
                                   route c n = None /\ route_kids n t = Some (s' :: p, l)).
          { intros n. cbn [route_kids]. destruct (route c n) as [q|]; cbn [down option_map orelse].
            - split; [intros [= H1 _ _]; congruence|intros [H1 _]; discriminate].
            - fold (route_kids n). tauto. }
          assert (Hesc : forall e, In e esc <-> In e es' /\ route c (e_name e) = None).
          { intros e. rewrite (Permutation_in' eq_refl Hp1), filter_In. unfold unrouted.
            destruct (route c (e_name e)); split; intros [? ?]; split; auto; discriminate. }
          destruct Hd as [[e [Hi [Hr He]]]|[Ha He]].
          -- left. exists e. apply Hesc in Hi. destruct Hi as [Hi Hrn]. repeat split; auto. apply Hiff. auto.
          -- right. split; [|exact He]. intros e Hi Hr. apply Hiff in Hr. destruct Hr as [Hrn Hr].
             apply (Ha e); [|exact Hr]. apply Hesc. auto. }
  destruct (bind_kids acc stack1 ks (h_match h) (h_st h) (h_ck h)) as [[[[ks1 stk] restk] ckk]|] eqn:Ek; [|discriminate].
  intros [= <- <- <-].
  assert (Hmatch : h_match h = flat_map (passes m ls) es) by apply bind_here_match.
  assert (Hnm : NoDup (map e_org (h_match h))) by (rewrite Hmatch; now apply passes_orgs).
  destruct (HK _ _ _ _ _ _ _ _ (fun _ _ H => H) Hnk Hnm Ek) as (Hp & Hfst & Hkids).
  split; [|split; [|reflexivity]].
  - unfold h. rewrite bind_here_rest. fold h. eapply Permutation_trans; [|apply revert_level; exact Ho].
    apply Permutation_app_tail. unfold revert. apply Permutation_map. rewrite <- Hmatch. exact Hp.
  - intros [p l]. destruct p as [|s p].
    + rewrite !slot_at_nil. cbn [b_leaves].
      destruct (F2_ids _ _ _ Hls (fun x y Hxy => proj1 Hxy)) as [Hids _].
      assert (Hni1 : NoDup (map l_id ls1)) by (rewrite Hids; exact Hni).
      destruct (leaf_in ls l) as [x|] eqn:El; cbn [option_map].
      * apply leaf_in_Some in El. destruct El as [Hx <-].
        destruct (F2_In_l _ _ _ Hls x Hx) as [y [Hy [[Hid [Hnm' Hdc]] Hh]]].
        exists (l_slot y). rewrite Hid, (leaf_in_In ls1 y Hni1 Hy). split; [reflexivity|].
        assert (Hrt : forall s, route (B nm m ls sls ks bls ck) s = Some ([], l_id x) <-> translate m s = Some (l_name x)).
        { intros s. rewrite route_B. destruct (translate m s) as [n|]; [|split; discriminate].
          split.
          - destruct (leaf_of ls n) as [l'|] eqn:El; [|intros Hr; apply route_kids_first in Hr;
              destruct Hr as (? & ? & ? & ? & ? & _ & _ & [=] & _)].
            intros [= ->]. apply leaf_of_Some in El. destruct El as [x' [Hx' [Hid' Hn']]].
            assert (x' = x); [|congruence].
            assert (H1 := leaf_in_In _ _ Hni Hx'). assert (H2 := leaf_in_In _ _ Hni Hx). rewrite Hid' in H1. congruence.
          - intros [= ->]. now rewrite (leaf_of_uniq ls x Hnn Hx). }
        destruct Hh as [[e [Hi [Ht He]]]|[Ha He]].
        -- left. exists e. rewrite <- Hid. repeat split; auto. now apply Hrt.
        -- right. rewrite <- Hid. split; [|exact He]. intros e Hi Hr. apply Hrt in Hr. now apply (Ha e).
      * destruct (leaf_in ls1 l) as [y|] eqn:Ey; [|reflexivity]. exfalso.
        apply leaf_in_Some in Ey. destruct Ey as [Hy <-].
        assert (Hiny : In (l_id y) (map l_id ls)) by (rewrite <- Hids; now apply in_map).
        apply in_map_iff in Hiny. destruct Hiny as [x [Hxy Hx]]. rewrite <- Hxy, (leaf_in_In ls x Hni Hx) in El. discriminate.
    + rewrite !slot_at_cons. cbn [b_kids]. destruct (kid ks s) as [c|] eqn:Ekid.
      * destruct (Hkids _ _ p l Ekid) as [c1 [Hk1 Hd]]. rewrite Hk1.
        destruct (slot_at c (p, l)) as [sl|]; [|exact Hd]. destruct Hd as [s1 [Hs1 Hd]]. exists s1. split; [exact Hs1|].
        assert (Hmi : forall e', In e' (h_match h) <-> exists e n, In e es /\ translate m (e_name e) = Some n /\ leaf_of ls n = None /\
                                 e' = mk_entry n (e_org e) (e_pin e)).
        { intros e'. rewrite Hmatch, in_flat_map. unfold passes. split.
          - intros [e [Hi He]]. destruct (translate m (e_name e)) as [n|] eqn:Et; [|destruct He].
            rewrite leaf_of_has in He. destruct (leaf_of ls n) eqn:El; [destruct He|]. destruct He as [<-|[]].
            exists e, n. auto.
          - intros (e & n & Hi & Ht & Hl & ->). exists e. split; [exact Hi|]. rewrite Ht, leaf_of_has, Hl. now left. }
        assert (Hrt : forall e, route (B nm m ls sls ks bls ck) (e_name e) = Some (s :: p, l) <->
                       exists n, translate m (e_name e) = Some n /\ leaf_of ls n = None /\ route_kids n ks = Some (s :: p, l)).
        { intros e. rewrite route_B. destruct (translate m (e_name e)) as [n|]; [|split; [discriminate|intros [? [? _]]; discriminate]].
          destruct (leaf_of ls n) eqn:El.
          - split; [discriminate|intros (n' & [= <-] & H & _); congruence].
          - split; [intros H; exists n; auto|intros (n' & [= <-] & _ & H); exact H]. }
        destruct Hd as [[e' [Hi [Hr He]]]|[Ha He]].
        -- apply Hmi in Hi. destruct Hi as (e & n & Hi & Ht & Hl & ->). left. exists e. cbn [e_pin e_name] in *.
           repeat split; auto. apply Hrt. eauto.
        -- right. split; [|exact He]. intros e Hi Hr. apply Hrt in Hr. destruct Hr as (n & Ht & Hl & Hr).
           apply (Ha (mk_entry n (e_org e) (e_pin e))); [|exact Hr]. apply Hmi. exists e, n. auto.
      * assert (Hkn : kid ks1 s = None) by (apply kid_None; rewrite Hfst; now apply kid_None). now rewrite Hkn.
Qed.

(** * The search function is the specified search *)
Lemma places_kids_In ks pl : In pl (places_kids ks) <-> exists s c q, In (s, c) ks /\ In q (places c) /\ pl = (s :: fst q, snd q).
Proof.
  induction ks as [|[s c] t IH]; cbn [places_kids In]; [split; [intros []|intros (? & ? & ? & [] & _)]|].
  rewrite in_app_iff, in_map_iff. fold places_kids. rewrite IH. split.
  - intros [[q [<- Hq]]|(s' & c' & q & Hi & Hq & ->)]; [exists s, c, q; auto|exists s', c', q; auto].
  - intros (s' & c' & q & [[= -> ->]|Hi] & Hq & ->); [left; exists q; auto|right; exists s', c', q; auto].
Qed.

Lemma strip_iff p : forall s r, strip p s = Some r <-> s = (p ++ r)%string.
Proof.
  induction p as [|a p IH]; intros s r; cbn [strip append]; [split; congruence|].
  destruct s as [|b s]; [split; discriminate|]. destruct (Ascii.eqb a b) eqn:E.
  - apply Ascii.eqb_eq in E. subst. rewrite IH. split; congruence.
  - apply Ascii.eqb_neq in E. split; [discriminate|congruence].
Qed.
Lemma key_of_iff d : forall s n, key_of d s = Some n <-> exists d1 d2, d = d1 ++ (n, s) :: d2 /\ forall k, ~ In (k, s) d1.
Proof.
  induction d as [|[k v] d IH]; intros s n; cbn [key_of].
  - split; [discriminate|]. intros ([|? ?] & d2 & H & _); discriminate.
  - destruct (String.eqb s v) eqn:E.
    + apply String.eqb_eq in E. subst v. split.
      * intros [= ->]. exists [], d. split; [reflexivity|]. intros ? [].
      * intros ([|x d1] & d2 & H & Hn); injection H as H1 H2; [congruence|]. exfalso. apply (Hn k). left. auto.
    + apply String.eqb_neq in E. rewrite IH. split.
      * intros (d1 & d2 & -> & Hn). exists ((k, v) :: d1), d2. split; [reflexivity|]. intros k' [[= _ H]|H]; [congruence|exact (Hn _ H)].
      * intros ([|x d1] & d2 & H & Hn); injection H as H1 H2; [congruence|]. subst. exists d1, d2. split; [reflexivity|]. intros k' H. apply (Hn k'). now right.
Qed.
Lemma translate_iff m s n : translate m s = Some n <-> renames m s n.
Proof. destruct m; cbn [translate renames]; [apply strip_iff|reflexivity|apply key_of_iff]. Qed.

Lemma accepts_B nm m ls sls ks bls ck p l s :
  accepts (B nm m ls sls ks bls ck) p l s <->
  exists n, translate m s = Some n /\
    match p with
    | [] => exists x, leaf_in ls l = Some x /\ l_name x = n
    | sg :: t => match kid ks sg with Some c => accepts c t l n | None => False end
    end.
Proof.
  destruct p; (split; intros (n & H & H'); exists n; (split; [|exact H'])); first [now apply translate_iff|now apply translate_iff in H].
Qed.

Lemma accepts_place b : forall p l s, accepts b p l s -> In (p, l) (places b).
Proof.
  induction b as [nm m ls sls ks bls ck IH] using bundle_ind2. intros p l s. rewrite accepts_B, places_B, in_app_iff.
  intros [n [Ht H]]. destruct p as [|sg t].
  - left. destruct H as [x [Hx _]]. apply leaf_in_Some in Hx. destruct Hx as [Hx <-]. apply in_map_iff. exists x. auto.
  - right. destruct (kid ks sg) as [c|] eqn:Ek; [|destruct H]. apply kid_Some in Ek.
    apply places_kids_In. exists sg, c, (t, l). repeat split; eauto.
Qed.

Lemma leaf_of_accepts ls n l : NoDup (map l_id ls) ->
  leaf_of ls n = Some l -> exists x, leaf_in ls l = Some x /\ l_name x = n.
Proof.
  intros Hn H. apply leaf_of_Some in H. destruct H as [x [Hx [<- Hnm]]]. exists x. split; [|exact Hnm]. now apply leaf_in_In.
Qed.

(** Splitting a list of places at the first element satisfying a predicate. *)
Definition first_such {A} (P : A -> Prop) (l : list A) (o : option A) : Prop :=
  match o with
  | Some x => exists l1 l2, l = l1 ++ x :: l2 /\ P x /\ forall y, In y l1 -> ~ P y
  | None => forall y, In y l -> ~ P y
  end.
Lemma first_app {A} (P : A -> Prop) l1 l2 o1 o2 :
  first_such P l1 o1 -> first_such P l2 o2 -> first_such P (l1 ++ l2) (orelse o1 o2).
Proof.
  destruct o1 as [x|]; cbn [orelse first_such].
  - intros (a & c & -> & Hx & Ha) _. exists a, (c ++ l2). rewrite <- app_assoc. auto.
  - intros Hn1. destruct o2 as [y|].
    + intros (a & c & -> & Hy & Ha). exists (l1 ++ a), c. rewrite <- app_assoc. repeat split; auto.
      intros z Hz. apply in_app_iff in Hz. destruct Hz; auto.
    + intros Hn2 z Hz. apply in_app_iff in Hz. destruct Hz; auto.
Qed.
Lemma first_map {A C} (f : A -> C) (P : C -> Prop) l o : first_such (fun x => P (f x)) l o -> first_such P (map f l) (option_map f o).
Proof.
  destruct o as [x|]; cbn [first_such option_map].
  - intros (a & c & -> & Hx & Ha). exists (map f a), (map f c). rewrite map_app. repeat split; auto.
    intros y Hy. apply in_map_iff in Hy. destruct Hy as [z [<- Hz]]. auto.
  - intros H y Hy. apply in_map_iff in Hy. destruct Hy as [z [<- Hz]]. auto.
Qed.
Lemma first_ext {A} (P Q : A -> Prop) l o : (forall x, In x l -> (P x <-> Q x)) -> first_such P l o -> first_such Q l o.
Proof.
  intros H. destruct o as [x|]; cbn [first_such].
  - intros (a & c & -> & Hx & Ha). exists a, c. repeat split; [apply H; [apply in_app_iff; right; now left|exact Hx]|].
    intros y Hy Hq. apply (Ha y Hy). apply H; [apply in_app_iff; now left|exact Hq].
  - intros Ha y Hy Hq. apply (Ha y Hy). now apply H.
Qed.

Lemma route_first b : wf b -> forall s, first_such (fun pl => accepts b (fst pl) (snd pl) s) (places b) (route b s).
Proof.
  induction b as [nm m ls sls ks bls ck IH] using bundle_ind2. intros Hwf s.
  inversion Hwf as [? ? ? ? ? ? ? Hni Hnn Hnk Hwk]; subst.
  rewrite route_B, places_B. destruct (translate m s) as [n|] eqn:Et.
  2:{ intros pl _ H. apply accepts_B in H. destruct H as [n [H _]]. congruence. }
  assert (Hleaf : first_such (fun pl : place => accepts (B nm m ls sls ks bls ck) (fst pl) (snd pl) s)
                    (map (fun x => ([], l_id x)) ls) (option_map (fun l => ([], l)) (leaf_of ls n))).
  { replace (map (fun x => ([], l_id x)) ls : list place) with (map (fun l => ([], l)) (map l_id ls) : list place)
      by (rewrite map_map; reflexivity).
    apply first_map. cbn [fst snd].
    apply (first_ext (fun l => exists x, leaf_in ls l = Some x /\ l_name x = n)).
    { intros l _. rewrite accepts_B, Et. split; [intros H; exists n; auto|intros [n' [[= <-] H]]; exact H]. }
    destruct (leaf_of ls n) as [l|] eqn:El; cbn [first_such].
    - assert (Hacc := leaf_of_accepts _ _ _ Hni El).
      assert (Hin : In l (map l_id ls)).
      { apply leaf_of_Some in El. destruct El as [x [Hx [<- _]]]. now apply in_map. }
      apply in_split in Hin. destruct Hin as (a & c & Hac). exists a, c. repeat split; auto.
      intros y Hy [x [Hx Hnx]]. apply leaf_in_Some in Hx. destruct Hx as [Hx <-].
      assert (H1 := leaf_of_uniq _ _ Hnn Hx). rewrite Hnx, El in H1. injection H1 as ->.
      rewrite Hac in Hni. apply NoDup_remove_2 in Hni. apply Hni. apply in_app_iff. now left.
    - intros y Hy [x [Hx Hnx]]. apply leaf_in_Some in Hx. destruct Hx as [Hx <-].
      apply leaf_of_None in El. apply El. rewrite <- Hnx. now apply in_map. }
  assert (Hkids : first_such (fun pl : place => accepts (B nm m ls sls ks bls ck) (fst pl) (snd pl) s)
                    (places_kids ks) (route_kids n ks)).
  { assert (G : forall ks', (forall x, In x ks' -> In x ks) -> first_such (fun pl : place => accepts (B nm m ls sls ks bls ck) (fst pl) (snd pl) s)
                    (places_kids ks') (route_kids n ks')); [|apply G; auto].
    induction ks' as [|[sg c] t IHt]; intros Hsub; cbn [places_kids route_kids]; [intros ? []|].
    fold places_kids. fold (route_kids n). apply first_app; [|apply IHt; intros; apply Hsub; now right].
    unfold down. apply (first_map (fun pl : place => (sg :: fst pl, snd pl))).
    assert (Hin : In (sg, c) ks) by (apply Hsub; now left).
    eapply first_ext; [|apply (IH _ _ Hin (Hwk _ _ Hin) n)]. cbv beta. intros pl _. cbn [fst snd]. rewrite accepts_B, Et, (kid_In _ _ _ Hnk Hin).
    split; [intros H; exists n; auto|intros [n' [[= <-] H]]; exact H]. }
  assert (H := first_app _ _ _ _ _ Hleaf Hkids). destruct (leaf_of ls n); exact H.
Qed.

Lemma wf_places b : wf b -> NoDup (places b).
Proof.
  induction b as [nm m ls sls ks bls ck IH] using bundle_ind2. intros Hwf.
  inversion Hwf as [? ? ? ? ? ? ? Hni Hnn Hnk Hwk]; subst. rewrite places_B.
  assert (Happ : forall (A : Type) (l1 l2 : list A), NoDup l1 -> NoDup l2 -> (forall x, In x l1 -> ~ In x l2) -> NoDup (l1 ++ l2)).
  { intros A l1 l2 H1 H2 Hd. induction H1 as [|x l1 Hx H1 IH1]; [exact H2|]. cbn [app]. constructor.
    - rewrite in_app_iff. intros [H|H]; [auto|]. apply (Hd x); [now left|exact H].
    - apply IH1. intros y Hy. apply Hd. now right. }
  assert (Hinj : forall (A C : Type) (f : A -> C) l, (forall x y, f x = f y -> x = y) -> NoDup l -> NoDup (map f l)).
  { intros A C f l Hf H1. induction H1 as [|x l Hx H1 IH1]; cbn [map]; constructor; [|exact IH1].
    intros H. apply in_map_iff in H. destruct H as [y [Hy Hi]]. apply Hf in Hy. subst. auto. }
  apply Happ.
  - rewrite <- (map_map l_id (fun l => ([], l) : place)). apply Hinj; [|exact Hni]. intros x y [= ->]. reflexivity.
  - assert (G : forall ks', (forall x, In x ks' -> In x ks) -> NoDup (map fst ks') -> NoDup (places_kids ks')); [|apply G; auto].
    induction ks' as [|[sg c] t IHt]; intros Hsub Hn'; cbn [places_kids]; [constructor|]. fold places_kids.
    cbn [map fst] in Hn'. inversion Hn' as [|? ? Hnis Hnt]; subst. apply Happ.
    + apply Hinj; [|eapply IH, Hwk; apply Hsub; now left]. intros [x1 x2] [y1 y2] [= -> ->]. reflexivity.
    + apply IHt; [intros; apply Hsub; now right|exact Hnt].
    + intros pl Hp Hq. apply in_map_iff in Hp. destruct Hp as [q [<- Hp]]. apply places_kids_In in Hq.
      destruct Hq as (s' & c' & q' & Hi & _ & [= <- _ _]). apply Hnis. change sg with (fst (sg, c')). now apply in_map.
  - intros pl Hp Hq. apply in_map_iff in Hp. destruct Hp as [x [<- _]]. apply places_kids_In in Hq.
    destruct Hq as (? & ? & ? & _ & _ & [=]).
Qed.

Lemma route_goes_to b s pl : wf b -> (route b s = Some pl <-> goes_to b s pl).
Proof.
  intros Hwf. assert (H := route_first b Hwf s). split.
  - intros E. rewrite E in H. exact H.
  - intros (a & c & Hac & Hacc & Ha). destruct (route b s) as [q|].
    + destruct H as (a' & c' & Hac' & Hacc' & Ha'). f_equal.
      assert (Hn := wf_places b Hwf).
      assert (G : forall (a a' c c' : list place), a ++ pl :: c = a' ++ q :: c' ->
                (forall y, In y a -> ~ accepts b (fst y) (snd y) s) -> (forall y, In y a' -> ~ accepts b (fst y) (snd y) s) -> q = pl).
      { clear - Hacc Hacc'. induction a as [|x a IH]; intros [|x' a'] c c' E Ha Ha'; cbn [app] in E.
        - congruence.
        - injection E as -> E. exfalso. apply (Ha' x'); [now left|exact Hacc].
        - injection E as -> E. exfalso. apply (Ha q); [now left|exact Hacc'].
        - injection E as -> E. apply (IH _ _ _ E); intros y Hy; [apply Ha|apply Ha']; now right. }
      eapply G; [rewrite <- Hac; exact Hac'|exact Ha|exact Ha'].
    + exfalso. apply (H pl); [|exact Hacc]. rewrite Hac. apply in_app_iff. right. now left.
Qed.
Lemma route_None_iff b s : wf b -> (route b s = None <-> forall p l, ~ accepts b p l s).
Proof.
  intros Hwf. assert (H := route_first b Hwf s). split.
  - intros E p l Ha. rewrite E in H. apply (H (p, l)); [eapply accepts_place; exact Ha|exact Ha].
  - intros Ha. destruct (route b s) as [[p l]|]; [|reflexivity]. destruct H as (? & ? & _ & Hacc & _). exfalso. exact (Ha _ _ Hacc).
Qed.
Lemma place_slot b : wf b -> forall pl, In pl (places b) <-> slot_at b pl <> None.
Proof.
  induction b as [nm m ls sls ks bls ck IH] using bundle_ind2. intros Hwf [p l].
  inversion Hwf as [? ? ? ? ? ? ? Hni Hnn Hnk Hwk]; subst. rewrite places_B, in_app_iff.
  destruct p as [|s p].
  - rewrite slot_at_nil. cbn [b_leaves]. split.
    + intros [H|H].
      * apply in_map_iff in H. destruct H as [x [[= <-] Hx]]. rewrite (leaf_in_In _ _ Hni Hx). discriminate.
      * apply places_kids_In in H. destruct H as (? & ? & ? & _ & _ & [=]).
    + intros H. left. destruct (leaf_in ls l) as [x|] eqn:E; [|contradiction H; reflexivity].
      apply leaf_in_Some in E. destruct E as [Hx <-]. apply in_map_iff. eauto.
  - rewrite slot_at_cons. cbn [b_kids]. split.
    + intros [H|H].
      * apply in_map_iff in H. destruct H as [x [[=] _]].
      * apply places_kids_In in H. destruct H as (s' & c & [p' l'] & Hi & Hq & [= -> -> ->]).
        rewrite (kid_In _ _ _ Hnk Hi). apply (IH _ _ Hi (Hwk _ _ Hi)). exact Hq.
    + intros H. right. destruct (kid ks s) as [c|] eqn:E; [|contradiction H; reflexivity]. apply kid_Some in E.
      apply places_kids_In. exists s, c, (p, l). repeat split; auto. apply (IH _ _ E (Hwk _ _ E)). exact H.
Qed.

(** * Counting *)
Definition pinhits (i : nat) (f : entry -> bool) (es : list entry) : nat :=
  List.length (filter (fun e => Nat.eqb (e_pin e) i && f e) es).

Lemma same_pin_refl p : same_pin p p. Proof. repeat split. Qed.
Lemma same_pin_trans p q r : same_pin p q -> same_pin q r -> same_pin p r.
Proof. unfold same_pin. intuition congruence. Qed.

Lemma count_up_spec st i j : nconn (count_up st i) j = nconn st j + (if Nat.eqb i j then 1 else 0) /\ same_pin (count_up st i j) (st j).
Proof.
  unfold nconn, count_up, upd. rewrite (Nat.eqb_sym i j). destruct (Nat.eqb j i) eqn:E; [|split; [lia|apply same_pin_refl]].
  apply Nat.eqb_eq in E. subst. cbn [set_nconn p_nconn]. split; [destruct (p_nconn (st i)); lia|repeat split].
Qed.

Lemma bind_here_st m es : forall ls ck st i,
  nconn (h_st (bind_here m es ls ck st)) i = nconn st i + pinhits i (fun e => match hits m ls e with Some _ => true | None => false end) es /\
  same_pin (h_st (bind_here m es ls ck st) i) (st i).
Proof.
  induction es as [|e t IH]; intros ls ck st i; cbn [bind_here h_st]; [split; [unfold pinhits; cbn; lia|apply same_pin_refl]|].
  unfold pinhits. cbn [filter]. unfold hits at 1. destruct (translate m (e_name e)) as [n|] eqn:E.
  - destruct (has_leaf ls n) eqn:Eh; cbn [h_st].
    + destruct (IH (set_slot ls n (SPin (e_pin e))) (first_clk ck st (e_pin e)) (count_up st (e_pin e)) i) as [H1 H2].
      destruct (count_up_spec st (e_pin e) i) as [H3 H4]. split; [|eapply same_pin_trans; eauto].
      rewrite H1, H3. unfold pinhits. erewrite filter_ext.
      2:{ intros a. assert (Hh : hits m (set_slot ls n (SPin (e_pin e))) a = hits m ls a).
          { unfold hits. destruct (translate m (e_name a)); [|reflexivity]. now rewrite set_slot_has. }
          rewrite Hh. reflexivity. }
      destruct (Nat.eqb (e_pin e) i); cbn [andb List.length]; lia.
    + rewrite andb_false_r. apply IH.
  - cbn [h_st]. rewrite andb_false_r. apply IH.
Qed.

Lemma pinhits_perm i f l1 l2 : Permutation l1 l2 -> pinhits i f l1 = pinhits i f l2.
Proof. intros H. unfold pinhits. apply Permutation_length. now apply Permutation_filter. Qed.
Lemma pinhits_filter i f g l : pinhits i f (filter g l) = pinhits i (fun e => g e && f e) l.
Proof.
  unfold pinhits. rewrite filter_filter. f_equal. apply filter_ext. intros e. destruct (g e), (Nat.eqb (e_pin e) i), (f e); reflexivity.
Qed.
Lemma pinhits_split i f g h l : (forall e, In e l -> Nat.b2n (f e) = Nat.b2n (g e) + Nat.b2n (h e)) ->
  pinhits i f l = pinhits i g l + pinhits i h l.
Proof.
  unfold pinhits. induction l as [|e t IH]; intros H; [reflexivity|]. cbn [filter].
  assert (He := H e (or_introl eq_refl)). assert (Ht := IH (fun x Hx => H x (or_intror Hx))).
  destruct (Nat.eqb (e_pin e) i); cbn [andb]; [|exact Ht].
  destruct (f e), (g e), (h e); cbn [Nat.b2n List.length] in *; lia.
Qed.

Lemma routed_unrouted b e : negb (unrouted b e) = match route b (e_name e) with Some _ => true | None => false end.
Proof. unfold unrouted. destruct (route b (e_name e)); reflexivity. Qed.

Lemma bind_count acc b : wf b -> forall stack es st b1 st1 rest, NoDup (map e_org es) ->
  bind_b acc stack b es st = Ok (b1, st1, rest) ->
  forall i, nconn st1 i = nconn st i + pinhits i (fun e => negb (unrouted b e)) es /\ same_pin (st1 i) (st i).
Proof.
  induction b as [nm m ls sls ks bls ck IH] using bundle_ind2. intros Hwf stack es st b1 st1 rest Ho.
  rewrite bind_B. cbv zeta. set (stack1 := stack ++ _). set (h := bind_here m es ls ck st).
  inversion Hwf as [? ? ? ? ? ? ? Hni Hnn Hnk Hwk]; subst.
  destruct (missing acc stack1 (h_conn h) (h_ls h)) as [ls1|] eqn:Em; [|discriminate].
  assert (HK : forall ks' es' st' ck' ks1 st1 rest1 ck1,
    (forall s c, In (s, c) ks' -> In (s, c) ks) -> NoDup (map e_org es') ->
    bind_kids acc stack1 ks' es' st' ck' = Ok (ks1, st1, rest1, ck1) ->
    forall i, nconn st1 i = nconn st' i + pinhits i (fun e => negb (unrouted_k ks' e)) es' /\ same_pin (st1 i) (st' i)).
  { induction ks' as [|[s c] t IHt]; intros es' st' ck' ks1 st1' rest1 ck1 Hsub Hno; cbn [bind_kids].
    - intros [= <- <- <- <-] i. split; [|apply same_pin_refl].
      assert (Hz : pinhits i (fun e => negb (unrouted_k [] e)) es' = 0); [|lia].
      unfold pinhits. clear. induction es' as [|e u IHu]; [reflexivity|]. cbn [filter unrouted_k route_kids negb]. now rewrite andb_false_r.
    - destruct (bind_b acc stack1 c es' st') as [[[c1 stc] esc]|] eqn:Ec; [|discriminate].
      fold (bind_kids acc stack1).
      destruct (bind_kids acc stack1 t esc stc (next_clk s (b_clk c1) ck')) as [[[[t1 stt] est] ckt]|] eqn:Et; [|discriminate].
      intros [= <- <- <- <-] i. assert (Hin : In (s, c) ks) by (apply Hsub; now left).
      destruct (bind_main _ _ (Hwk _ _ Hin) _ _ _ _ _ _ Hno Ec) as (Hp1 & _).
      destruct (IH _ _ Hin (Hwk _ _ Hin) _ _ _ _ _ _ Hno Ec i) as [Hc1 Hc2].
      assert (Hno1 := orgs_perm_filter _ _ _ Hno Hp1).
      destruct (IHt _ _ _ _ _ _ _ (fun s0 c0 H0 => Hsub s0 c0 (or_intror H0)) Hno1 Et i) as [Hk1 Hk2].
      split; [|eapply same_pin_trans; eauto]. rewrite Hk1, Hc1, (pinhits_perm _ _ _ _ Hp1), pinhits_filter.
      rewrite <- Nat.add_assoc. f_equal. symmetry. apply pinhits_split. intros e _.
      unfold unrouted, unrouted_k. cbn [route_kids]. fold (route_kids (e_name e)).
      destruct (route c (e_name e)); cbn [negb andb down option_map orelse Nat.b2n]; [reflexivity|].
      destruct (route_kids (e_name e) t); reflexivity. }
  destruct (bind_kids acc stack1 ks (h_match h) (h_st h) (h_ck h)) as [[[[ks1 stk] restk] ckk]|] eqn:Ek; [|discriminate].
  intros [= <- <- <-] i.
  assert (Hmatch : h_match h = flat_map (passes m ls) es) by apply bind_here_match.
  assert (Hnm : NoDup (map e_org (h_match h))) by (rewrite Hmatch; now apply passes_orgs).
  destruct (HK _ _ _ _ _ _ _ _ (fun _ _ H => H) Hnm Ek i) as [Hk1 Hk2].
  destruct (bind_here_st m es ls ck st i) as [Hh1 Hh2]. fold h in Hh1, Hh2.
  split; [|eapply same_pin_trans; eauto]. rewrite Hk1, Hh1, Hmatch, <- Nat.add_assoc. f_equal.
  clear. induction es as [|e t IH]; [reflexivity|]. unfold pinhits in *. cbn [flat_map filter]. rewrite filter_app, app_length.
  assert (Hstep : (if Nat.eqb (e_pin e) i && negb (unrouted (B nm m ls sls ks bls ck) e) then 1 else 0) =
     (if Nat.eqb (e_pin e) i && match hits m ls e with Some _ => true | None => false end then 1 else 0) +
     List.length (filter (fun e0 => Nat.eqb (e_pin e0) i && negb (unrouted_k ks e0)) (passes m ls e))).
  { unfold unrouted. rewrite route_B. unfold hits, passes. destruct (translate m (e_name e)) as [n|].
    - rewrite leaf_of_has. destruct (leaf_of ls n); cbn [filter List.length negb]; [lia|].
      unfold unrouted_k. cbn [e_pin e_name]. rewrite andb_false_r. destruct (Nat.eqb (e_pin e) i); cbn [andb]; [|reflexivity].
      destruct (route_kids n ks); reflexivity.
    - cbn [filter List.length negb]. rewrite !andb_false_r. reflexivity. }
  destruct (Nat.eqb (e_pin e) i && negb (unrouted (B nm m ls sls ks bls ck) e)),
           (Nat.eqb (e_pin e) i && match hits m ls e with Some _ => true | None => false end); cbn [List.length]; lia.
Qed.

(** * Detection *)
Definition detect_kids := fix go (ks : list (seg * bundle)) (es : list entry) (ck : option nat)
  : list (seg * bundle) * list entry * option nat :=
  match ks with
  | [] => ([], es, ck)
  | (s, c) :: t =>
      let (c1, es1) := detect_b c es in
      let '(t1, es2, ck2) := go t es1 (next_clk s (b_clk c1) ck) in
      ((s, c1) :: t1, es2, ck2)
  end.
Lemma detect_B nm m ls sls ks bls ck es :
  detect_b (B nm m ls sls ks bls ck) es =
  let h := bind_here m es ls ck (fun _ => mk_pin 0 false 0 None Imme 0) in
  let '(ks1, rest, ck1) := detect_kids ks (h_match h) ck in
  (B nm m ls sls ks1 bls ck1, revert rest es ++ h_rest h).
Proof. reflexivity. Qed.

Lemma detect_main b : wf b -> forall es, NoDup (map e_org es) ->
  Permutation (snd (detect_b b es)) (filter (unrouted b) es) /\
  (forall pl, slot_at (fst (detect_b b es)) pl = slot_at b pl).
Proof.
  induction b as [nm m ls sls ks bls ck IH] using bundle_ind2. intros Hwf es Ho.
  rewrite detect_B. cbv zeta. set (h := bind_here _ _ _ _ _).
  inversion Hwf as [? ? ? ? ? ? ? Hni Hnn Hnk Hwk]; subst.
  assert (HK : forall ks' es' ck' ks1 rest1 ck1,
    (forall s c, In (s, c) ks' -> In (s, c) ks) -> NoDup (map e_org es') ->
    detect_kids ks' es' ck' = (ks1, rest1, ck1) ->
    Permutation rest1 (filter (unrouted_k ks') es') /\
    (forall s, match kid ks' s with None => kid ks1 s = None | Some c => exists c1, kid ks1 s = Some c1 /\ forall pl, slot_at c1 pl = slot_at c pl end)).
  { induction ks' as [|[s c] t IHt]; intros es' ck' ks1 rest1 ck1 Hsub Hno; cbn [detect_kids].
    - intros [= <- <- <-]. split; [|reflexivity].
      assert (Ht : filter (unrouted_k []) es' = es').
      { clear. induction es' as [|e u IHu]; [reflexivity|]. cbn. now rewrite IHu. }
      rewrite Ht. apply Permutation_refl.
    - assert (Hin : In (s, c) ks) by (apply Hsub; now left).
      destruct (IH _ _ Hin (Hwk _ _ Hin) es' Hno) as [Hp1 Hs1]. destruct (detect_b c es') as [c1 esc]. cbn [fst snd] in *.
      fold detect_kids. destruct (detect_kids t esc (next_clk s (b_clk c1) ck')) as [[t1 est] ckt] eqn:Et.
      intros [= <- <- <-]. assert (Hno1 := orgs_perm_filter _ _ _ Hno Hp1).
      destruct (IHt _ _ _ _ _ (fun s0 c0 H0 => Hsub s0 c0 (or_intror H0)) Hno1 Et) as (Hp2 & Hk2). split.
      + eapply Permutation_trans; [exact Hp2|]. eapply Permutation_trans; [apply Permutation_filter; exact Hp1|].
        rewrite filter_filter. erewrite filter_ext; [apply Permutation_refl|]. intros e. cbv beta.
        unfold unrouted, unrouted_k. cbn [route_kids]. destruct (route c (e_name e)); reflexivity.
      + intros s'. cbn [kid]. destruct (seg_eq_dec s' s); [exists c1; auto|apply Hk2]. }
  destruct (detect_kids ks (h_match h) ck) as [[ks1 restk] ckk] eqn:Ek. cbn [fst snd].
  assert (Hmatch : h_match h = flat_map (passes m ls) es) by apply bind_here_match.
  assert (Hnm : NoDup (map e_org (h_match h))) by (rewrite Hmatch; now apply passes_orgs).
  destruct (HK _ _ _ _ _ _ (fun _ _ H => H) Hnm Ek) as (Hp & Hkids). split.
  - unfold h. rewrite bind_here_rest. fold h. eapply Permutation_trans; [|apply revert_level; exact Ho].
    apply Permutation_app_tail. unfold revert. apply Permutation_map. rewrite <- Hmatch. exact Hp.
  - intros [p l]. destruct p as [|s p]; [reflexivity|]. rewrite !slot_at_cons. cbn [b_kids].
    specialize (Hkids s). destruct (kid ks s) as [c|]; [|now rewrite Hkids]. destruct Hkids as [c1 [-> Hs]]. apply Hs.
Qed.
