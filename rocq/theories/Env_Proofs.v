(** Lemmas about attach. *)
From Coq Require Import List String Bool Arith Lia.
From Verif Require Import Py Env_Model Env_Spec.
Import ListNotations.
Open Scope list_scope.

Lemma smem_iff x l : smem x l = true <-> In x l.
Proof.
  induction l as [|y l IH]; cbn; [split; [discriminate|contradiction]|].
  rewrite orb_true_iff, IH, String.eqb_eq. split; intros [->|H]; auto.
Qed.

(** ** How flags evolve *)
Record evolves (fl fl' : flags) (hit : nat -> bool) (mark : nat -> nat -> bool) : Prop := {
  ev_hit : forall i, f_hit fl' i = f_hit fl i || hit i;
  ev_len : forall i, List.length (f_meth fl' i) = List.length (f_meth fl i);
  ev_mark : forall i k, nth k (f_meth fl' i) false =
                        nth k (f_meth fl i) false || (mark i k && Nat.ltb k (List.length (f_meth fl i))) }.

Lemma evolves_refl fl : evolves fl fl (fun _ => false) (fun _ _ => false).
Proof. constructor; intros; rewrite ?orb_false_r; reflexivity. Qed.
Lemma evolves_ext fl fl' h h' m m' : evolves fl fl' h m -> (forall i, h i = h' i) -> (forall i k, m i k = m' i k) -> evolves fl fl' h' m'.
Proof. intros [A B C] H M. constructor; intros; [rewrite <- H; apply A|apply B|rewrite <- M; apply C]. Qed.
Lemma evolves_trans f1 f2 f3 h1 h2 m1 m2 : evolves f1 f2 h1 m1 -> evolves f2 f3 h2 m2 ->
  evolves f1 f3 (fun i => h1 i || h2 i) (fun i k => m1 i k || m2 i k).
Proof.
  intros [A1 B1 C1] [A2 B2 C2]. constructor; intros.
  - rewrite A2, A1, orb_assoc. reflexivity.
  - rewrite B2, B1. reflexivity.
  - rewrite C2, C1, B1. destruct (nth k (f_meth f1 i) false), (m1 i k), (m2 i k), (Nat.ltb k _); reflexivity.
Qed.

Lemma set_nth_len k l : List.length (set_nth k l) = List.length l.
Proof. revert k. induction l as [|b l IH]; intros [|k]; cbn; auto. Qed.
Lemma set_nth_nth k j l : nth j (set_nth k l) false = nth j l false || (Nat.eqb j k && Nat.ltb j (List.length l)).
Proof.
  revert k j. induction l as [|b l IH]; intros k j.
  - cbn [set_nth List.length Nat.ltb]. rewrite andb_comm. destruct k, j; reflexivity.
  - destruct k as [|k], j as [|j]; cbn [set_nth nth List.length].
    + cbn. rewrite orb_true_r. reflexivity.
    + cbn. rewrite orb_false_r. reflexivity.
    + cbn. rewrite orb_false_r. reflexivity.
    + rewrite IH. reflexivity.
Qed.

Definition names_b (d : decl) (a : string) : bool := String.eqb a (d_name d) || smem a (d_agents d).
Definition lists_b (d : decl) (a m : string) : bool := smem (path_of a m) (d_methods d).
Definition sel_b (d : decl) (a m : string) : bool := names_b d a || lists_b d a m.
Definition dhit (d : decl) (a m : string) (i : nat) : bool := Nat.eqb i (d_id d) && sel_b d a m.
Definition dmark (d : decl) (a m : string) (i k : nat) : bool :=
  Nat.eqb i (d_id d) && (negb (names_b d a) && lists_b d a m) && Nat.eqb k (index (path_of a m) (d_methods d)).

Lemma contains_ev fl d a m : let (b, fl') := contains fl d a m in
  b = sel_b d a m /\ evolves fl fl' (dhit d a m) (dmark d a m).
Proof.
  unfold contains, dhit, dmark, sel_b. fold (names_b d a). fold (lists_b d a m).
  destruct (names_b d a) eqn:E1; cbn [orb negb andb].
  - split; [reflexivity|]. constructor; intros; cbn.
    + destruct (Nat.eqb i (d_id d)); rewrite ?orb_true_r, ?orb_false_r; reflexivity.
    + reflexivity.
    + rewrite andb_false_r. cbn. rewrite orb_false_r. reflexivity.
  - destruct (lists_b d a m) eqn:E2; cbn [andb].
    + split; [reflexivity|]. constructor; intros; cbn [f_hit f_meth set_meth set_hit].
      * destruct (Nat.eqb i (d_id d)); rewrite ?orb_true_r, ?orb_false_r; reflexivity.
      * destruct (Nat.eqb_spec i (d_id d)) as [->|]; [apply set_nth_len|reflexivity].
      * destruct (Nat.eqb_spec i (d_id d)) as [->|]; cbn [andb]; [apply set_nth_nth|rewrite orb_false_r; reflexivity].
    + split; [reflexivity|]. eapply evolves_ext; [apply evolves_refl| |]; intros; rewrite ?andb_false_r; reflexivity.
Qed.

Lemma all_containing_ev ds a m : forall fl, let (l, fl') := all_containing fl ds a m in
  l = map d_id (filter (fun d => sel_b d a m) ds) /\
  evolves fl fl' (fun i => existsb (fun d => dhit d a m i) ds) (fun i k => existsb (fun d => dmark d a m i k) ds).
Proof.
  induction ds as [|d ds IH]; intros fl; cbn [all_containing].
  - split; [reflexivity|apply evolves_refl].
  - pose proof (contains_ev fl d a m) as H. destruct (contains fl d a m) as [b fl1]. destruct H as [-> H1].
    specialize (IH fl1). destruct (all_containing fl1 ds a m) as [l fl2]. destruct IH as [-> H2].
    split; [cbn [filter]; destruct (sel_b d a m); reflexivity|]. cbn [existsb].
    exact (evolves_trans _ _ _ _ _ _ _ H1 H2).
Qed.

Definition first_id (l : list item) (p : string) : option nat := option_map t_id (find (fun h => String.eqb (t_path h) p) l).
Definition opt_is (o : option nat) (i : nat) : bool := match o with Some j => Nat.eqb i j | None => false end.

Lemma get_item_ev l p : forall fl, let (o, fl') := get_item fl l p in
  o = first_id l p /\ evolves fl fl' (opt_is (first_id l p)) (fun _ _ => false).
Proof.
  induction l as [|h l IH]; intros fl; cbn [get_item]; unfold first_id; cbn [find].
  - split; [reflexivity|apply evolves_refl].
  - destruct (String.eqb (t_path h) p) eqn:E; [|apply IH]. cbn [option_map opt_is]. split; [reflexivity|].
    constructor; intros; cbn; rewrite ?orb_false_r; try reflexivity. destruct (Nat.eqb i (t_id h)); rewrite ?orb_true_r, ?orb_false_r; reflexivity.
Qed.

(** one visit of a method *)
Definition vhit (md : model) (hooks ports : list item) (a m : string) (i : nat) : bool :=
  existsb (fun d => dhit d a m i) (m_ahooks md ++ m_aports md) ||
  (opt_is (first_id hooks (path_of a m)) i || opt_is (first_id ports (path_of a m)) i).
Definition vmark (md : model) (a m : string) (i k : nat) : bool :=
  existsb (fun d => dmark d a m i k) (m_ahooks md ++ m_aports md).

Definition the_info (md : model) (hooks ports : list item) (a m : string) : info :=
  mk_info (map d_id (filter (fun d => sel_b d a m) (m_ahooks md))) (map d_id (filter (fun d => sel_b d a m) (m_aports md)))
    (first_id hooks (path_of a m)) (first_id ports (path_of a m)).

Lemma make_info_ev md hooks ports a m fl : let (i, fl') := make_info fl md hooks ports a m in
  i = the_info md hooks ports a m /\ evolves fl fl' (vhit md hooks ports a m) (vmark md a m).
Proof.
  unfold make_info.
  pose proof (all_containing_ev (m_ahooks md) a m fl) as H1. destruct (all_containing fl (m_ahooks md) a m) as [ah fl1]. destruct H1 as [-> H1].
  pose proof (all_containing_ev (m_aports md) a m fl1) as H2. destruct (all_containing fl1 (m_aports md) a m) as [ap fl2]. destruct H2 as [-> H2].
  pose proof (get_item_ev hooks (path_of a m) fl2) as H3. destruct (get_item fl2 hooks (path_of a m)) as [h fl3]. destruct H3 as [-> H3].
  pose proof (get_item_ev ports (path_of a m) fl3) as H4. destruct (get_item fl3 ports (path_of a m)) as [p fl4]. destruct H4 as [-> H4].
  split; [reflexivity|].
  eapply evolves_ext; [exact (evolves_trans _ _ _ _ _ _ _ (evolves_trans _ _ _ _ _ _ _ H1 H2) (evolves_trans _ _ _ _ _ _ _ H3 H4))| |].
  - intros i. unfold vhit. rewrite existsb_app. reflexivity.
  - intros i k. unfold vmark. rewrite existsb_app, orb_false_r. reflexivity.
Qed.

Lemma inject_methods_ev md hooks ports a : forall l fl, let (l', fl') := inject_methods fl md hooks ports a l in
  l' = map (fun x => (fst x, set_info (snd x) (m_id md) (the_info md hooks ports a (fst x)))) l /\
  evolves fl fl' (fun i => existsb (fun x => vhit md hooks ports a (fst x) i) l)
                 (fun i k => existsb (fun x => vmark md a (fst x) i k) l).
Proof.
  induction l as [|[m is] l IH]; intros fl; cbn [inject_methods].
  - split; [reflexivity|apply evolves_refl].
  - pose proof (make_info_ev md hooks ports a m fl) as H. destruct (make_info fl md hooks ports a m) as [i fl1]. destruct H as [-> H1].
    specialize (IH fl1). destruct (inject_methods fl1 md hooks ports a l) as [l' fl2]. destruct IH as [-> H2].
    split; [reflexivity|]. exact (evolves_trans _ _ _ _ _ _ _ H1 H2).
Qed.

Definition inj_list (md : model) hooks ports a (l : list (string * infos)) :=
  map (fun x => (fst x, set_info (snd x) (m_id md) (the_info md hooks ports a (fst x)))) l.
Definition inj_agent (md : model) (ag : agent) : agent :=
  mk_agent (a_name ag) (inj_list md (m_dhooks md) (m_dports md) (a_name ag) (a_drivers ag))
    (inj_list md (m_mhooks md) (m_mports md) (a_name ag) (a_monitors ag)).
Definition ahit (md : model) (ag : agent) (i : nat) : bool :=
  existsb (fun x => vhit md (m_dhooks md) (m_dports md) (a_name ag) (fst x) i) (a_drivers ag) ||
  existsb (fun x => vhit md (m_mhooks md) (m_mports md) (a_name ag) (fst x) i) (a_monitors ag).
Definition amark (md : model) (ag : agent) (i k : nat) : bool :=
  existsb (fun x => vmark md (a_name ag) (fst x) i k) (a_drivers ag) ||
  existsb (fun x => vmark md (a_name ag) (fst x) i k) (a_monitors ag).

Lemma inject_agents_ev md : forall l fl, let (l', fl') := inject_agents fl md l in
  l' = map (inj_agent md) l /\
  evolves fl fl' (fun i => existsb (fun ag => ahit md ag i) l) (fun i k => existsb (fun ag => amark md ag i k) l).
Proof.
  induction l as [|ag l IH]; intros fl; cbn [inject_agents].
  - split; [reflexivity|apply evolves_refl].
  - unfold inject_agent.
    pose proof (inject_methods_ev md (m_dhooks md) (m_dports md) (a_name ag) (a_drivers ag) fl) as H.
    destruct (inject_methods fl md (m_dhooks md) (m_dports md) (a_name ag) (a_drivers ag)) as [ds fl1]. destruct H as [-> H1].
    pose proof (inject_methods_ev md (m_mhooks md) (m_mports md) (a_name ag) (a_monitors ag) fl1) as H.
    destruct (inject_methods fl1 md (m_mhooks md) (m_mports md) (a_name ag) (a_monitors ag)) as [ms fl2]. destruct H as [-> H2].
    specialize (IH fl2). destruct (inject_agents fl2 md l) as [l' fl3]. destruct IH as [-> H3].
    split; [reflexivity|]. exact (evolves_trans _ _ _ _ _ _ _ (evolves_trans _ _ _ _ _ _ _ H1 H2) H3).
Qed.

(** ** attach unfolded *)
Lemma attach_eq e fl md r e' fl' : attach e fl md = (r, e', fl') ->
  e_agents e' = map (inj_agent md) (e_agents e) /\ e_attrs e' = e_attrs e /\
  evolves fl fl' (fun i => existsb (fun ag => ahit md ag i) (e_agents e)) (fun i k => existsb (fun ag => amark md ag i k) (e_agents e)) /\
  r = ensure_model_match fl' e' md /\
  e_attached e' = match r with Ok _ => e_attached e ++ [m_id md] | Exn _ => e_attached e end.
Proof.
  unfold attach. pose proof (inject_agents_ev md (e_agents e) fl) as H. destruct (inject_agents fl md (e_agents e)) as [ags fl1].
  destruct H as [-> Hev].
  destruct (ensure_model_match fl1 _ md) as [u|x] eqn:E; intros [= <- <- <-]; cbn.
  - repeat split; try apply Hev. destruct u. symmetry. unfold ensure_model_match in *. cbn [e_attrs] in *. exact E.
  - repeat split; try apply Hev. symmetry. exact E.
Qed.

(** ** set_info *)
Lemma set_info_same l k v : entry_of (set_info l k v) k = Some v.
Proof.
  unfold entry_of. induction l as [|[k' v'] l IH]; cbn; [rewrite Nat.eqb_refl; reflexivity|].
  destruct (Nat.eqb_spec k k') as [->|Hne]; cbn; [rewrite Nat.eqb_refl; reflexivity|].
  destruct (Nat.eqb_spec k' k) as [->|]; [contradiction|]. exact IH.
Qed.
Lemma set_info_other l k v j : j <> k -> entry_of (set_info l k v) j = entry_of l j.
Proof.
  intros Hj. unfold entry_of. induction l as [|[k' v'] l IH]; cbn.
  - destruct (Nat.eqb_spec k j); [congruence|reflexivity].
  - destruct (Nat.eqb_spec k k') as [->|Hne]; cbn.
    + destruct (Nat.eqb_spec k' j); [congruence|reflexivity].
    + destruct (Nat.eqb k' j); [reflexivity|exact IH].
Qed.
Lemma set_info_order l k v : map fst (set_info l k v) = if existsb (Nat.eqb k) (map fst l) then map fst l else map fst l ++ [k].
Proof.
  induction l as [|[k' v'] l IH]; cbn; [reflexivity|]. destruct (Nat.eqb_spec k k') as [->|Hne]; cbn; [reflexivity|].
  rewrite IH. destruct (existsb (Nat.eqb k) (map fst l)); reflexivity.
Qed.

Lemma names_b_iff d a : names_b d a = true <-> names_agent d a.
Proof. unfold names_b, names_agent. rewrite orb_true_iff, String.eqb_eq, smem_iff. reflexivity. Qed.
Lemma lists_b_iff d a m : lists_b d a m = true <-> In (a ++ "." ++ m)%string (d_methods d).
Proof. unfold lists_b, path_of. apply smem_iff. Qed.
Lemma sel_b_iff d a m : sel_b d a m = true <-> selects d a m.
Proof. unfold sel_b, selects. rewrite orb_true_iff, names_b_iff, lists_b_iff. reflexivity. Qed.

Lemma first_id_some l p i : first_id l p = Some i -> exists h, In h l /\ t_path h = p /\ t_id h = i.
Proof.
  unfold first_id. destruct (find _ l) as [h|] eqn:E; [|discriminate]. intros [= <-]. apply find_some in E.
  destruct E as [H1 H2]. apply String.eqb_eq in H2. eauto.
Qed.
Lemma first_id_none l p : first_id l p = None -> forall h, In h l -> t_path h <> p.
Proof.
  unfold first_id. destruct (find _ l) as [h|] eqn:E; [discriminate|]. intros _ h Hin Hp.
  pose proof (find_none _ _ E h Hin) as H. cbn in H. rewrite Hp, String.eqb_refl in H. discriminate.
Qed.
Lemma first_id_unique l : NoDup (map t_path l) -> forall h, In h l -> first_id l (t_path h) = Some (t_id h).
Proof.
  induction l as [|h0 l IH]; intros Hn h Hin; [contradiction|]. inversion Hn as [|? ? Hn1 Hn2]; subst.
  unfold first_id. cbn [find]. destruct (String.eqb_spec (t_path h0) (t_path h)) as [E|E].
  - destruct Hin as [->|Hin]; [reflexivity|]. exfalso. apply Hn1. rewrite E. apply in_map. exact Hin.
  - destruct Hin as [->|Hin]; [contradiction|]. apply IH; assumption.
Qed.
(** if every element is the first of its path, with distinct numbers, then paths are distinct *)
Lemma all_first_nodup l : NoDup (map t_id l) -> (forall h, In h l -> first_id l (t_path h) = Some (t_id h)) -> NoDup (map t_path l).
Proof.
  induction l as [|h0 l IH]; intros Hn Hf; [constructor|]. inversion Hn as [|? ? Hn1 Hn2]; subst. constructor.
  - intros Hin. apply in_map_iff in Hin. destruct Hin as [h [Hp Hin]].
    specialize (Hf h (or_intror Hin)). unfold first_id in Hf. cbn [find] in Hf.
    rewrite Hp, String.eqb_refl in Hf. cbn in Hf. injection Hf as E. apply Hn1. rewrite E. apply in_map. exact Hin.
  - apply IH; [exact Hn2|]. intros h Hin. specialize (Hf h (or_intror Hin)). unfold first_id in *. cbn [find] in Hf.
    destruct (String.eqb_spec (t_path h0) (t_path h)) as [E|E]; [|exact Hf]. cbn in Hf. injection Hf as Hid.
    exfalso. apply Hn1. rewrite Hid. apply in_map. exact Hin.
Qed.

(** ** the check functions *)
Lemma each_ok {A} (f : A -> res unit) l : each f l = Ok tt <-> forall x, In x l -> f x = Ok tt.
Proof.
  induction l as [|x l IH]; cbn; [split; [contradiction|reflexivity]|].
  destruct (f x) as [[]|e] eqn:E.
  - rewrite IH. split; [intros H y [<-|Hy]; auto|intros H y Hy; apply H; auto].
  - split; [discriminate|]. intros H. rewrite (H x (or_introl eq_refl)) in E. discriminate.
Qed.
Lemma require_ok b e : require b e = Ok tt <-> b = true.
Proof. unfold require. destruct b; split; congruence. Qed.
Lemma then_ok a b : then_ a b = Ok tt <-> a = Ok tt /\ b = Ok tt.
Proof. unfold then_. destruct a as [[]|]; split; try tauto; try discriminate; intros [H _]; discriminate. Qed.

Definition all_true (l : list bool) : Prop := forall k, k < List.length l -> nth k l false = true.
Lemma each_bool l x : each (fun b => require b x) l = Ok tt <-> all_true l.
Proof.
  rewrite each_ok. unfold all_true. split.
  - intros H k Hk. specialize (H (nth k l false) (nth_In l false Hk)). apply require_ok in H. exact H.
  - intros H b Hb. apply require_ok. apply In_nth with (d := false) in Hb. destruct Hb as [k [Hk <-]]. apply H. exact Hk.
Qed.

Lemma verdict_ok fl e md : ensure_model_match fl e md = Ok tt <->
  (forall h, In h (m_dhooks md ++ m_mhooks md ++ m_dports md ++ m_mports md) -> f_hit fl (t_id h) = true) /\
  (forall d, In d (m_ahooks md) -> all_true (f_meth fl (d_id d)) /\ (forall a, In a (d_agents d) -> In a (e_attrs e)) /\ (d_name d = ""%string \/ In (d_name d) (e_attrs e))) /\
  (forall d, In d (m_aports md) -> f_hit fl (d_id d) = true /\ all_true (f_meth fl (d_id d)) /\ (forall a, In a (d_agents d) -> In a (e_attrs e)) /\ (d_own d = ""%string \/ In (d_own d) (e_attrs e))).
Proof.
  unfold ensure_model_match, ensure_all_matched. rewrite !then_ok, !each_ok.
  assert (forall (l : list item), (forall x, In x l -> require (f_hit fl (t_id x)) ValueError = Ok tt) <-> (forall x, In x l -> f_hit fl (t_id x) = true)) as Hi.
  { intros l. split; intros H x Hx; apply (require_ok _ ValueError); apply H; exact Hx. }
  rewrite !Hi.
  assert (forall ex (l : list string), each (fun a => require (smem a (e_attrs e)) ex) l = Ok tt <-> (forall a, In a l -> In a (e_attrs e))) as Ha.
  { intros ex l. rewrite each_ok. split; intros H x Hx; [apply smem_iff, (require_ok _ ex), H; exact Hx|apply require_ok, smem_iff, H; exact Hx]. }
  assert (forall s ex, require (String.eqb s "" || smem s (e_attrs e)) ex = Ok tt <-> (s = ""%string \/ In s (e_attrs e))) as Hn.
  { intros s ex. rewrite require_ok, orb_true_iff, String.eqb_eq, smem_iff. reflexivity. }
  split.
  - intros [[H1 [H2 [H3 [H4 [H5 H6]]]]] [H7 H8]]. split; [|split].
    + intros h. rewrite !in_app_iff. intros [H|[H|[H|H]]]; auto.
    + intros d Hd. specialize (H1 d Hd). specialize (H7 d Hd). apply each_bool in H1. apply then_ok in H7. destruct H7 as [H7 H9].
      rewrite Ha in H7. rewrite Hn in H9. auto.
    + intros d Hd. specialize (H4 d Hd). specialize (H8 d Hd). apply then_ok in H4. destruct H4 as [H4 H9]. apply require_ok in H4. apply each_bool in H9.
      apply then_ok in H8. destruct H8 as [H8 H10]. rewrite Ha in H8. rewrite Hn in H10. auto.
  - intros [H1 [H2 H3]]. assert (forall l, incl l (m_dhooks md ++ m_mhooks md ++ m_dports md ++ m_mports md) -> forall x, In x l -> f_hit fl (t_id x) = true) as H1'.
    { intros l Hl x Hx. apply H1, Hl, Hx. }
    repeat split.
    + intros d Hd. apply each_bool. apply (H2 d Hd).
    + apply H1'. intros x Hx. rewrite !in_app_iff. auto.
    + apply H1'. intros x Hx. rewrite !in_app_iff. auto.
    + intros d Hd. apply then_ok. rewrite require_ok, each_bool. destruct (H3 d Hd) as [A [B _]]. auto.
    + apply H1'. intros x Hx. rewrite !in_app_iff. auto.
    + apply H1'. intros x Hx. rewrite !in_app_iff. auto.
    + intros d Hd. apply then_ok. rewrite Ha, Hn. destruct (H2 d Hd) as [_ [B C]]. auto.
    + intros d Hd. apply then_ok. rewrite Ha, Hn. destruct (H3 d Hd) as [_ [_ [B C]]]. auto.
Qed.

(** ** hits in terms of the methods of the env *)
Lemma hit_iff md e i : existsb (fun ag => ahit md ag i) (e_agents e) = true <->
  (exists a m, driver_of e a m /\ vhit md (m_dhooks md) (m_dports md) a m i = true) \/
  (exists a m, monitor_of e a m /\ vhit md (m_mhooks md) (m_mports md) a m i = true).
Proof.
  rewrite existsb_exists. split.
  - intros [ag [Hag H]]. unfold ahit in H. apply orb_true_iff in H. destruct H as [H|H]; apply existsb_exists in H; destruct H as [x [Hx H]]; [left|right];
      exists (a_name ag), (fst x); (split; [|exact H]); exists ag; repeat split; auto; apply in_map; exact Hx.
  - intros [[a [m [[ag [Hag [<- Hm]]] H]]]|[a [m [[ag [Hag [<- Hm]]] H]]]]; exists ag; (split; [exact Hag|]); unfold ahit; apply orb_true_iff; [left|right];
      apply existsb_exists; apply in_map_iff in Hm; destruct Hm as [x [<- Hx]]; exists x; auto.
Qed.
Lemma mark_iff md e i k : existsb (fun ag => amark md ag i k) (e_agents e) = true <->
  exists a m, method_of e a m /\ vmark md a m i k = true.
Proof.
  rewrite existsb_exists. split.
  - intros [ag [Hag H]]. unfold amark in H. apply orb_true_iff in H. destruct H as [H|H]; apply existsb_exists in H; destruct H as [x [Hx H]];
      exists (a_name ag), (fst x); (split; [|exact H]); [left|right]; exists ag; repeat split; auto; apply in_map; exact Hx.
  - intros [a [m [[[ag [Hag [<- Hm]]]|[ag [Hag [<- Hm]]]] H]]]; exists ag; (split; [exact Hag|]); unfold amark; apply orb_true_iff; [left|right];
      apply existsb_exists; apply in_map_iff in Hm; destruct Hm as [x [<- Hx]]; exists x; auto.
Qed.

(** consequences of distinct numbers *)
Lemma nodup_app_disj {A} (l1 l2 : list A) : NoDup (l1 ++ l2) -> forall x, In x l1 -> In x l2 -> False.
Proof.
  induction l1 as [|y l1 IH]; intros H x H1 H2; [contradiction|]. cbn in H. inversion H as [|? ? Hn Hd]; subst.
  destruct H1 as [->|H1]; [apply Hn; apply in_app_iff; right; exact H2|exact (IH Hd x H1 H2)].
Qed.
Lemma nodup_app_l {A} (l1 l2 : list A) : NoDup (l1 ++ l2) -> NoDup l1.
Proof. induction l1 as [|y l1 IH]; intros H; [constructor|]. inversion H as [|? ? Hn Hd]; subst. constructor; [intros X; apply Hn, in_app_iff; left; exact X|exact (IH Hd)]. Qed.
Lemma nodup_app_r {A} (l1 l2 : list A) : NoDup (l1 ++ l2) -> NoDup l2.
Proof. induction l1 as [|y l1 IH]; intros H; [exact H|]. inversion H; subst. auto. Qed.
Lemma nodup_map_inj {A B} (f : A -> B) l x y : NoDup (map f l) -> In x l -> In y l -> f x = f y -> x = y.
Proof.
  induction l as [|z l IH]; intros Hn Hx Hy E; [contradiction|]. cbn in Hn. inversion Hn as [|? ? H1 H2]; subst.
  destruct Hx as [->|Hx], Hy as [->|Hy]; [reflexivity| | |exact (IH H2 Hx Hy E)].
  - exfalso. apply H1. rewrite E. apply in_map. exact Hy.
  - exfalso. apply H1. rewrite <- E. apply in_map. exact Hx.
Qed.

Lemma opt_is_iff o i : opt_is o i = true <-> o = Some i.
Proof. destruct o as [j|]; cbn; [rewrite Nat.eqb_eq; split; congruence|split; discriminate]. Qed.

Section Distinct.
Variables (md : model) (Hids : NoDup (ids md)).

Lemma ids_item h l : incl l (m_dhooks md ++ m_mhooks md ++ m_dports md ++ m_mports md) -> In h l -> In (t_id h) (map t_id (m_dhooks md ++ m_mhooks md ++ m_dports md ++ m_mports md)).
Proof. intros Hl Hin. apply in_map, Hl, Hin. Qed.
Lemma decl_item_disj d h : In d (m_ahooks md ++ m_aports md) -> In h (m_dhooks md ++ m_mhooks md ++ m_dports md ++ m_mports md) -> t_id h = d_id d -> False.
Proof. intros Hd Hh E. apply (nodup_app_disj _ _ Hids (d_id d)); [apply in_map; exact Hd|rewrite <- E; apply in_map; exact Hh]. Qed.
Lemma items_nodup : NoDup (map t_id (m_dhooks md ++ m_mhooks md ++ m_dports md ++ m_mports md)).
Proof. exact (nodup_app_r _ _ Hids). Qed.
Lemma decls_nodup : NoDup (map d_id (m_ahooks md ++ m_aports md)).
Proof. exact (nodup_app_l _ _ Hids). Qed.

(** a hit of an item only comes from its own list *)
Lemma vhit_item hooks ports a m h :
  incl (hooks ++ ports) (m_dhooks md ++ m_mhooks md ++ m_dports md ++ m_mports md) ->
  In h (m_dhooks md ++ m_mhooks md ++ m_dports md ++ m_mports md) ->
  vhit md hooks ports a m (t_id h) = true <->
  (In h hooks /\ first_id hooks (path_of a m) = Some (t_id h)) \/ (In h ports /\ first_id ports (path_of a m) = Some (t_id h)).
Proof.
  intros Hincl Hh. unfold vhit. rewrite !orb_true_iff, !opt_is_iff.
  assert (forall l, incl l (hooks ++ ports) -> first_id l (path_of a m) = Some (t_id h) -> In h l) as Hin.
  { intros l Hl Hf. apply first_id_some in Hf. destruct Hf as [h' [H1 [H2 H3]]].
    assert (h' = h) as ->; [|exact H1]. apply (nodup_map_inj t_id _ h' h items_nodup); auto. }
  split.
  - intros [H|[H|H]].
    + exfalso. apply existsb_exists in H. destruct H as [d [Hd H]]. unfold dhit in H. apply andb_true_iff in H. destruct H as [H _].
      apply Nat.eqb_eq in H. exact (decl_item_disj d h Hd Hh H).
    + left. split; [|exact H]. apply Hin; [apply incl_appl, incl_refl|exact H].
    + right. split; [|exact H]. apply Hin; [apply incl_appr, incl_refl|exact H].
  - intros [[_ H]|[_ H]]; auto.
Qed.

Lemma vhit_decl hooks ports a m d :
  incl (hooks ++ ports) (m_dhooks md ++ m_mhooks md ++ m_dports md ++ m_mports md) -> In d (m_ahooks md ++ m_aports md) ->
  vhit md hooks ports a m (d_id d) = true <-> selects d a m.
Proof.
  intros Hincl Hd. unfold vhit. rewrite !orb_true_iff, !opt_is_iff. split.
  - intros [H|[H|H]].
    + apply existsb_exists in H. destruct H as [d' [Hd' H]]. unfold dhit in H. apply andb_true_iff in H. destruct H as [H1 H2].
      apply Nat.eqb_eq in H1. assert (d = d') as -> by (apply (nodup_map_inj d_id _ d d' decls_nodup); auto). apply sel_b_iff. exact H2.
    + exfalso. apply first_id_some in H. destruct H as [h [H1 [_ H2]]]. apply (decl_item_disj d h Hd); [apply Hincl, in_app_iff; left; exact H1|exact H2].
    + exfalso. apply first_id_some in H. destruct H as [h [H1 [_ H2]]]. apply (decl_item_disj d h Hd); [apply Hincl, in_app_iff; right; exact H1|exact H2].
  - intros H. left. apply existsb_exists. exists d. split; [exact Hd|]. unfold dhit. rewrite Nat.eqb_refl. apply sel_b_iff. exact H.
Qed.

Lemma vmark_decl a m d k : In d (m_ahooks md ++ m_aports md) ->
  vmark md a m (d_id d) k = true <-> ~ names_agent d a /\ In (path_of a m) (d_methods d) /\ k = index (path_of a m) (d_methods d).
Proof.
  intros Hd. unfold vmark. rewrite existsb_exists. split.
  - intros [d' [Hd' H]]. unfold dmark in H. rewrite !andb_true_iff in H. destruct H as [[H1 [H2 H3]] H4].
    apply Nat.eqb_eq in H1, H4. assert (d = d') as -> by (apply (nodup_map_inj d_id _ d d' decls_nodup); auto).
    split; [|split; [apply smem_iff; exact H3|exact H4]]. intros Hn. apply names_b_iff in Hn. rewrite Hn in H2. discriminate.
  - intros [H1 [H2 ->]]. exists d. split; [exact Hd|]. unfold dmark. rewrite !Nat.eqb_refl.
    destruct (names_b d a) eqn:E; [apply names_b_iff in E; contradiction|]. cbn. apply smem_iff in H2. unfold lists_b. rewrite H2. reflexivity.
Qed.
End Distinct.

Lemma incl_d md : incl (m_dhooks md ++ m_dports md) (m_dhooks md ++ m_mhooks md ++ m_dports md ++ m_mports md).
Proof. intros x. rewrite !in_app_iff. tauto. Qed.
Lemma incl_m md : incl (m_mhooks md ++ m_mports md) (m_dhooks md ++ m_mhooks md ++ m_dports md ++ m_mports md).
Proof. intros x. rewrite !in_app_iff. tauto. Qed.

(** index facts *)
Lemma index_lt x l : In x l -> index x l < List.length l.
Proof. induction l as [|y l IH]; cbn; [contradiction|]. destruct (String.eqb_spec x y) as [->|]; [lia|]. intros [->|H]; [contradiction|]. specialize (IH H). lia. Qed.
Lemma index_nth x l d : In x l -> nth (index x l) l d = x.
Proof. induction l as [|y l IH]; cbn; [contradiction|]. destruct (String.eqb_spec x y) as [->|]; [reflexivity|]. intros [->|H]; [contradiction|]. exact (IH H). Qed.
Lemma index_of_nth l d k : NoDup l -> k < List.length l -> index (nth k l d) l = k.
Proof.
  intros Hn Hk. apply (NoDup_nth l d); [exact Hn|apply index_lt, nth_In; exact Hk|exact Hk|].
  apply index_nth, nth_In. exact Hk.
Qed.
Lemma all_index_nodup l : (forall k, k < List.length l -> index (nth k l ""%string) l = k) -> NoDup l.
Proof.
  intros H. apply (NoDup_nth l ""%string). intros i j Hi Hj E. rewrite <- (H i Hi), <- (H j Hj), E. reflexivity.
Qed.

(** flags of methods lists, starting from fresh ones *)
Lemma nth_repeat_false k n : nth k (repeat false n) false = false.
Proof. revert k. induction n; intros [|k]; cbn; auto. Qed.

Lemma methods_matched_iff e md fl fl' d : NoDup (ids md) -> In d (m_ahooks md ++ m_aports md) ->
  f_meth fl (d_id d) = repeat false (List.length (d_methods d)) ->
  evolves fl fl' (fun i => existsb (fun ag => ahit md ag i) (e_agents e)) (fun i k => existsb (fun ag => amark md ag i k) (e_agents e)) ->
  all_true (f_meth fl' (d_id d)) <-> methods_exist e d.
Proof.
  intros Hids Hd Hfresh Hev. destruct Hev as [_ Hlen Hmark].
  assert (List.length (f_meth fl' (d_id d)) = List.length (d_methods d)) as Hl by (rewrite Hlen, Hfresh, repeat_length; reflexivity).
  assert (forall k, k < List.length (d_methods d) -> nth k (f_meth fl' (d_id d)) false = true <->
    exists a m, method_of e a m /\ ~ names_agent d a /\ In (path_of a m) (d_methods d) /\ k = index (path_of a m) (d_methods d)) as Hk.
  { intros k Hk. rewrite Hmark, Hfresh, nth_repeat_false, repeat_length. cbn [orb]. apply Nat.ltb_lt in Hk. rewrite Hk, andb_true_r, mark_iff.
    split; intros [a [m [H1 H2]]]; exists a, m; (split; [exact H1|]); apply (vmark_decl md Hids a m d k Hd); exact H2. }
  unfold all_true, methods_exist. rewrite Hl. split.
  - intros H. split.
    + apply all_index_nodup. intros k Hlt. specialize (H k Hlt). apply Hk in H; [|exact Hlt]. destruct H as [a [m [_ [_ [Hin ->]]]]].
      rewrite index_nth by exact Hin. reflexivity.
    + intros p Hp. pose proof (index_lt p _ Hp) as Hlt. specialize (H _ Hlt). apply Hk in H; [|exact Hlt]. destruct H as [a [m [H1 [H2 [H3 H4]]]]].
      exists a, m. split; [exact H1|]. split; [|exact H2]. rewrite <- (index_nth p (d_methods d) ""%string Hp), H4. apply index_nth. exact H3.
  - intros [Hn H] k Hlt. apply Hk; [exact Hlt|]. destruct (H (nth k (d_methods d) ""%string) (nth_In _ _ Hlt)) as [a [m [H1 [H2 H3]]]].
    exists a, m. split; [exact H1|]. split; [exact H3|]. unfold path_of. rewrite <- H2. split; [apply nth_In; exact Hlt|].
    symmetry. apply index_of_nth; assumption.
Qed.

(** item lists *)
Lemma items_matched_iff e md fl fl' : NoDup (ids md) -> fresh fl md ->
  evolves fl fl' (fun i => existsb (fun ag => ahit md ag i) (e_agents e)) (fun i k => existsb (fun ag => amark md ag i k) (e_agents e)) ->
  forall h, In h (m_dhooks md ++ m_mhooks md ++ m_dports md ++ m_mports md) ->
  f_hit fl' (t_id h) = true <->
  (exists a m, driver_of e a m /\ ((In h (m_dhooks md) /\ first_id (m_dhooks md) (path_of a m) = Some (t_id h)) \/ (In h (m_dports md) /\ first_id (m_dports md) (path_of a m) = Some (t_id h)))) \/
  (exists a m, monitor_of e a m /\ ((In h (m_mhooks md) /\ first_id (m_mhooks md) (path_of a m) = Some (t_id h)) \/ (In h (m_mports md) /\ first_id (m_mports md) (path_of a m) = Some (t_id h)))).
Proof.
  intros Hids [_ Hfresh] [Hhit _ _] h Hh. rewrite Hhit, (Hfresh h Hh). cbn [orb]. rewrite hit_iff.
  split; (intros [[a [m [H1 H2]]]|[a [m [H1 H2]]]]; [left|right]; exists a, m; (split; [exact H1|])).
  - exact (proj1 (vhit_item md Hids _ _ a m h (incl_d md) Hh) H2).
  - exact (proj1 (vhit_item md Hids _ _ a m h (incl_m md) Hh) H2).
  - exact (proj2 (vhit_item md Hids _ _ a m h (incl_d md) Hh) H2).
  - exact (proj2 (vhit_item md Hids _ _ a m h (incl_m md) Hh) H2).
Qed.

(** for one list L of items with a method predicate Q: all are first at some Q-path iff paths distinct and existing *)
Lemma list_matched (L : list item) (Q : string -> string -> Prop) : NoDup (map t_id L) ->
  (forall h, In h L -> exists a m, Q a m /\ first_id L (path_of a m) = Some (t_id h)) <->
  NoDup (map t_path L) /\ forall h, In h L -> exists a m, Q a m /\ t_path h = (a ++ "." ++ m)%string.
Proof.
  intros Hn. split.
  - intros H. assert (forall h, In h L -> forall a m, first_id L (path_of a m) = Some (t_id h) -> t_path h = path_of a m) as Hp.
    { intros h Hh a m Hf. apply first_id_some in Hf. destruct Hf as [h' [H1 [H2 H3]]].
      assert (h' = h) as -> by (apply (nodup_map_inj t_id L); auto). exact H2. }
    split.
    + apply all_first_nodup; [exact Hn|]. intros h Hh. destruct (H h Hh) as [a [m [_ Hf]]]. rewrite (Hp h Hh a m Hf). exact Hf.
    + intros h Hh. destruct (H h Hh) as [a [m [HQ Hf]]]. exists a, m. split; [exact HQ|]. exact (Hp h Hh a m Hf).
  - intros [Hd H] h Hh. destruct (H h Hh) as [a [m [HQ E]]]. exists a, m. split; [exact HQ|]. unfold path_of. rewrite <- E. apply first_id_unique; assumption.
Qed.

Lemma nodup_four md : NoDup (ids md) -> NoDup (map t_id (m_dhooks md)) /\ NoDup (map t_id (m_mhooks md)) /\ NoDup (map t_id (m_dports md)) /\ NoDup (map t_id (m_mports md)).
Proof.
  intros H. pose proof (items_nodup md H) as Hi. rewrite !map_app in Hi.
  pose proof (nodup_app_r _ _ Hi) as H2. pose proof (nodup_app_r _ _ H2) as H3.
  split; [exact (nodup_app_l _ _ Hi)|]. split; [exact (nodup_app_l _ _ H2)|]. split; [exact (nodup_app_l _ _ H3)|exact (nodup_app_r _ _ H3)].
Qed.
(** the four lists are disjoint *)
Lemma four_disjoint md : NoDup (ids md) -> forall h,
  (In h (m_dhooks md) -> ~ In h (m_mhooks md) /\ ~ In h (m_dports md) /\ ~ In h (m_mports md)) /\
  (In h (m_mhooks md) -> ~ In h (m_dports md) /\ ~ In h (m_mports md)) /\ (In h (m_dports md) -> ~ In h (m_mports md)).
Proof.
  intros H h. pose proof (items_nodup md H) as Hi. apply NoDup_map_inv in Hi.
  pose proof (nodup_app_disj _ _ Hi h) as D1. pose proof (nodup_app_r _ _ Hi) as Hi2. pose proof (nodup_app_disj _ _ Hi2 h) as D2.
  pose proof (nodup_app_r _ _ Hi2) as Hi3. pose proof (nodup_app_disj _ _ Hi3 h) as D3.
  repeat rewrite in_app_iff in D1. repeat rewrite in_app_iff in D2. idtac. tauto.
Qed.

Theorem verdict_iff e fl md r e' fl' : NoDup (ids md) -> fresh fl md -> attach e fl md = (r, e', fl') ->
  r = Ok tt <-> acceptable e md.
Proof.
  intros Hids Hfr Ha. destruct (attach_eq _ _ _ _ _ _ Ha) as [_ [Hattrs [Hev [-> _]]]]. rewrite verdict_ok, Hattrs.
  pose proof (items_matched_iff e md fl fl' Hids Hfr Hev) as Hit.
  pose proof (nodup_four md Hids) as [N1 [N2 [N3 N4]]]. pose proof (four_disjoint md Hids) as Dj.
  assert ((forall h, In h (m_dhooks md ++ m_mhooks md ++ m_dports md ++ m_mports md) -> f_hit fl' (t_id h) = true) <->
    (forall h, In h (m_dhooks md) -> exists a m, driver_of e a m /\ first_id (m_dhooks md) (path_of a m) = Some (t_id h)) /\
    (forall h, In h (m_dports md) -> exists a m, driver_of e a m /\ first_id (m_dports md) (path_of a m) = Some (t_id h)) /\
    (forall h, In h (m_mhooks md) -> exists a m, monitor_of e a m /\ first_id (m_mhooks md) (path_of a m) = Some (t_id h)) /\
    (forall h, In h (m_mports md) -> exists a m, monitor_of e a m /\ first_id (m_mports md) (path_of a m) = Some (t_id h))) as HI.
  { split.
    - intros H. repeat split; intros h Hh; (assert (In h (m_dhooks md ++ m_mhooks md ++ m_dports md ++ m_mports md)) as Hin by (rewrite !in_app_iff; tauto));
        pose proof (proj1 (Hit h Hin) (H h Hin)) as HH; destruct (Dj h) as [D1 [D2 D3]];
        destruct HH as [[a [m [Q [[I F]|[I F]]]]]|[a [m [Q [[I F]|[I F]]]]]]; try (exists a, m; split; [exact Q|exact F]); tauto.
    - intros [H1 [H2 [H3 H4]]] h Hh. apply (Hit h Hh). rewrite !in_app_iff in Hh. destruct Hh as [Hh|[Hh|[Hh|Hh]]].
      + left. destruct (H1 h Hh) as [a [m [Q F]]]. exists a, m. auto.
      + right. destruct (H3 h Hh) as [a [m [Q F]]]. exists a, m. auto.
      + left. destruct (H2 h Hh) as [a [m [Q F]]]. exists a, m. auto.
      + right. destruct (H4 h Hh) as [a [m [Q F]]]. exists a, m. auto. }
  rewrite HI. rewrite (list_matched (m_dhooks md) (driver_of e) N1), (list_matched (m_dports md) (driver_of e) N3), (list_matched (m_mhooks md) (monitor_of e) N2), (list_matched (m_mports md) (monitor_of e) N4).
  destruct Hfr as [Hfd Hfi].
  assert (forall d, In d (m_ahooks md ++ m_aports md) -> all_true (f_meth fl' (d_id d)) <-> methods_exist e d) as HM.
  { intros d Hd. apply (methods_matched_iff e md fl fl' d Hids Hd); [apply (Hfd d Hd)|exact Hev]. }
  assert (forall d, In d (m_ahooks md ++ m_aports md) -> f_hit fl' (d_id d) = true <-> exists a m, method_of e a m /\ selects d a m) as HS.
  { intros d Hd. destruct Hev as [Hh _ _]. rewrite Hh. destruct (Hfd d Hd) as [-> _]. cbn [orb]. rewrite hit_iff. split.
    - intros [[a [m [Q V]]]|[a [m [Q V]]]]; exists a, m; [split; [left; exact Q|apply (vhit_decl md Hids _ _ a m d (incl_d md) Hd); exact V]|split; [right; exact Q|apply (vhit_decl md Hids _ _ a m d (incl_m md) Hd); exact V]].
    - intros [a [m [[Q|Q] V]]]; [left|right]; exists a, m; (split; [exact Q|]); [apply (vhit_decl md Hids _ _ a m d (incl_d md) Hd); exact V|apply (vhit_decl md Hids _ _ a m d (incl_m md) Hd); exact V]. }
  split.
  - intros [[A1 [A2 [A3 A4]]] [B C]]. constructor; try assumption.
    + intros d Hd. destruct (B d Hd) as [B1 [B2 B3]]. split; [apply HM; [apply in_app_iff; auto|exact B1]|auto].
    + intros d Hd. destruct (C d Hd) as [C1 [C2 [C3 C4]]]. split; [apply HM; [apply in_app_iff; auto|exact C2]|]. split; [apply HS; [apply in_app_iff; auto|exact C1]|auto].
  - intros [A1 A2 A3 A4 B C]. split; [auto|]. split.
    + intros d Hd. destruct (B d Hd) as [B1 [B2 B3]]. split; [apply HM; [apply in_app_iff; auto|exact B1]|auto].
    + intros d Hd. destruct (C d Hd) as [C1 [C2 [C3 C4]]]. split; [apply HS; [apply in_app_iff; auto|exact C2]|]. split; [apply HM; [apply in_app_iff; auto|exact C1]|auto].
Qed.

(** ** dispatch entries *)
Lemma entries_after e fl md r e' fl' : attach e fl md = (r, e', fl') -> forall a m is',
  (driver_entries e' a m is' <-> exists is, driver_entries e a m is /\ is' = set_info is (m_id md) (the_info md (m_dhooks md) (m_dports md) a m)) /\
  (monitor_entries e' a m is' <-> exists is, monitor_entries e a m is /\ is' = set_info is (m_id md) (the_info md (m_mhooks md) (m_mports md) a m)).
Proof.
  intros Ha a m is'. destruct (attach_eq _ _ _ _ _ _ Ha) as [Hags _]. unfold driver_entries, monitor_entries. rewrite Hags.
  split; (split; [intros [ag' [Hin [<- Hm]]]; apply in_map_iff in Hin; destruct Hin as [ag [<- Hag]]; cbn in Hm |- *; apply in_map_iff in Hm;
      destruct Hm as [[m0 is] [[= <- <-] Hm]]; exists is; split; [exists ag; auto|reflexivity]
    |intros [is [[ag [Hag [<- Hm]]] ->]]; exists (inj_agent md ag); split; [apply in_map; exact Hag|]; split; [reflexivity|]; cbn; apply in_map_iff; exists (m, is); auto]).
Qed.

Lemma picked_filter ds a m : picked (fun d => selects d a m) ds (map d_id (filter (fun d => sel_b d a m) ds)).
Proof.
  induction ds as [|d ds IH]; cbn [filter map]; [constructor|].
  destruct (sel_b d a m) eqn:E; cbn [map].
  - apply picked_take; [apply sel_b_iff; exact E|exact IH].
  - apply picked_skip; [|exact IH]. intros H. apply sel_b_iff in H. congruence.
Qed.
Lemma first_with_id l p : first_with l p (first_id l p).
Proof.
  induction l as [|h l IH]; [intros h []|]. unfold first_id in *. cbn [find].
  destruct (String.eqb_spec (t_path h) p) as [E|E].
  - cbn. exists [], h, l. repeat split; auto.
  - destruct (option_map t_id (find (fun h => String.eqb (t_path h) p) l)) as [x|]; cbn [first_with] in *.
    + destruct IH as [l1 [h1 [l2 [-> [H1 [H2 H3]]]]]]. exists (h :: l1), h1, l2. repeat split; auto. intros h' [<-|H]; auto.
    + intros h' [<-|H]; auto.
Qed.
Lemma the_info_right md hooks ports a m : entry_right md hooks ports a m (the_info md hooks ports a m).
Proof. constructor; cbn; [apply picked_filter|apply picked_filter|apply first_with_id|apply first_with_id]. Qed.
Lemma set_info_only is k i : only_changes is (set_info is k i) k i.
Proof.
  split; [apply set_info_same|]. split; [intros j Hj; apply set_info_other; exact Hj|].
  rewrite set_info_order. destruct (existsb (Nat.eqb k) (map fst is)) eqn:E.
  - left. split; [|reflexivity]. apply existsb_exists in E. destruct E as [x [H1 H2]]. apply Nat.eqb_eq in H2. subst. exact H1.
  - right. split; [|reflexivity]. intros Hin. assert (existsb (Nat.eqb k) (map fst is) = true) as X; [|congruence].
    apply existsb_exists. exists k. split; [exact Hin|apply Nat.eqb_refl].
Qed.

(** flags after any attach that passed: everything is marked *)
Lemma passed_marks fl e md : ensure_model_match fl e md = Ok tt ->
  (forall h, In h (m_dhooks md ++ m_mhooks md ++ m_dports md ++ m_mports md) -> f_hit fl (t_id h) = true) /\
  (forall d, In d (m_ahooks md ++ m_aports md) -> all_true (f_meth fl (d_id d))) /\ (forall d, In d (m_aports md) -> f_hit fl (d_id d) = true).
Proof.
  intros H. apply verdict_ok in H. destruct H as [H1 [H2 H3]]. split; [exact H1|]. split.
  - intros d Hd. apply in_app_iff in Hd. destruct Hd as [Hd|Hd]; [apply (H2 d Hd)|apply (H3 d Hd)].
  - intros d Hd. apply (H3 d Hd).
Qed.
Lemma second_attach e1 e2 fl md r1 e1' fl1 r2 e2' fl2 :
  attach e1 fl md = (r1, e1', fl1) -> r1 = Ok tt -> attach e2 fl1 md = (r2, e2', fl2) ->
  r2 = Ok tt <->
  (forall d, In d (m_ahooks md) -> (forall a, In a (d_agents d) -> In a (e_attrs e2)) /\ (d_name d = ""%string \/ In (d_name d) (e_attrs e2))) /\
  (forall d, In d (m_aports md) -> (forall a, In a (d_agents d) -> In a (e_attrs e2)) /\ (d_own d = ""%string \/ In (d_own d) (e_attrs e2))).
Proof.
  intros H1 -> H2. destruct (attach_eq _ _ _ _ _ _ H1) as [_ [_ [_ [Hr1 _]]]]. symmetry in Hr1. apply passed_marks in Hr1. destruct Hr1 as [M1 [M2 M3]].
  destruct (attach_eq _ _ _ _ _ _ H2) as [_ [Hat [[Eh El Em] [-> _]]]]. rewrite verdict_ok, Hat.
  assert (forall d, In d (m_ahooks md ++ m_aports md) -> all_true (f_meth fl2 (d_id d))) as M2'.
  { intros d Hd k Hk. rewrite Em. rewrite El in Hk. rewrite (M2 d Hd k Hk). reflexivity. }
  split.
  - intros [_ [H3 H4]]. split; intros d Hd; [apply (H3 d Hd)|apply (H4 d Hd)].
  - intros [H3 H4]. split; [intros h Hh; rewrite Eh, (M1 h Hh); reflexivity|]. split.
    + intros d Hd. split; [apply M2'; apply in_app_iff; auto|apply (H3 d Hd)].
    + intros d Hd. split; [rewrite Eh, (M3 d Hd); reflexivity|]. split; [apply M2'; apply in_app_iff; auto|apply (H4 d Hd)].
Qed.

(** which exceptions *)
Lemma each_exn {A} (f : A -> res unit) l x : each f l = Exn x -> exists a, In a l /\ f a = Exn x.
Proof.
  induction l as [|a l IH]; cbn; [discriminate|]. destruct (f a) eqn:E; [intros H; destruct (IH H) as [b [Hb Hf]]; eauto|].
  intros [= <-]. eauto.
Qed.
Lemma then_exn a b x : then_ a b = Exn x -> a = Exn x \/ b = Exn x.
Proof. destruct a; cbn; auto. Qed.
Lemma require_exn b e x : require b e = Exn x -> x = e.
Proof. unfold require. destruct b; congruence. Qed.
Lemma error_kind fl e md x : ensure_model_match fl e md = Exn x ->
  x = ValueError \/ (x = AttributeError /\ exists d a, In d (m_aports md) /\ In a (d_agents d) /\ ~ In a (e_attrs e)).
Proof.
  intros H. unfold ensure_model_match, ensure_all_matched in H.
  repeat (apply then_exn in H; destruct H as [H|H]);
    repeat (try (left; apply require_exn in H; exact H); apply each_exn in H; let d := fresh "d" in let Hd := fresh "Hd" in destruct H as [d [Hd H]]; cbv beta in H);
    try (left; apply require_exn in H; exact H).
  - apply then_exn in H. destruct H as [H|H]; [left; apply require_exn in H; exact H|].
    apply each_exn in H. destruct H as [b [_ H]]. left. apply require_exn in H. exact H.
  - apply then_exn in H. destruct H as [H|H]; [|left; apply require_exn in H; exact H].
    apply each_exn in H. destruct H as [b [_ H]]. left. apply require_exn in H. exact H.
  - apply then_exn in H. destruct H as [H|H]; [|left; apply require_exn in H; exact H].
    apply each_exn in H. destruct H as [b [Hb H]]. right. split; [apply require_exn in H; exact H|].
    exists d, b. repeat split; auto. intros Hin. apply smem_iff in Hin. rewrite Hin in H. discriminate.
Qed.
