(** Lemmas about bind at the top, clocks, counting over several bundles, rebinding. *)
From Coq Require Import List String Ascii Bool Arith ZArith Lia Permutation.
From Verif Require Import Py Bundle_Model Bundle_Spec Bundle_Proofs.
Import ListNotations.
Open Scope string_scope.
Open Scope list_scope.

(** * Naming the children changes nothing else *)
Lemma route_set_name nm c s : route (set_name nm c) s = route c s.
Proof. destruct c. reflexivity. Qed.
Lemma accepts_set_name nm c p l s : accepts (set_name nm c) p l s <-> accepts c p l s.
Proof. destruct c, p; reflexivity. Qed.
Lemma slot_set_name nm c pl : slot_at (set_name nm c) pl = slot_at c pl.
Proof. destruct c, pl as [[|s p] l]; reflexivity. Qed.
Lemma places_set_name nm c : places (set_name nm c) = places c.
Proof. destruct c. reflexivity. Qed.
Lemma wf_set_name nm c : wf c -> wf (set_name nm c).
Proof. intros H. destruct H. now constructor. Qed.
Lemma unbound_set_name nm c : unbound c -> unbound (set_name nm c).
Proof. intros H. destruct H. now constructor. Qed.
Lemma plain_set_name nm c : plain_dicts c -> plain_dicts (set_name nm c).
Proof. intros H. destruct H. now constructor. Qed.

Definition name_kid (x : seg * bundle) : seg * bundle := match fst x with PSub n => (fst x, set_name n (snd x)) | PElem _ _ => x end.
Lemma name_kid_fst x : fst (name_kid x) = fst x.
Proof. destruct x as [[n|n i] c]; reflexivity. Qed.
Lemma name_kids_fst ks : map fst (map name_kid ks) = map fst ks.
Proof. rewrite map_map. apply map_ext. apply name_kid_fst. Qed.
Lemma kid_named ks s : kid (map name_kid ks) s =
  option_map (fun c => match s with PSub n => set_name n c | PElem _ _ => c end) (kid ks s).
Proof.
  induction ks as [|[s' c] t IH]; [reflexivity|]. cbn [map]. unfold name_kid at 1. cbn [fst snd].
  destruct s' as [n|n i]; cbn [kid]; destruct (seg_eq_dec s _) as [->|]; auto.
Qed.
Lemma name_kids_B nm m ls sls ks bls ck : name_kids (B nm m ls sls ks bls ck) = B nm m ls sls (map name_kid ks) bls ck.
Proof. reflexivity. Qed.
Lemma In_named ks s c : In (s, c) (map name_kid ks) -> exists c0, In (s, c0) ks /\ (c = c0 \/ exists n, c = set_name n c0).
Proof.
  intros H. apply in_map_iff in H. destruct H as [[s0 c0] [E Hi]]. unfold name_kid in E. cbn [fst snd] in E.
  destruct s0 as [n|n i]; injection E as <- <-; exists c0; eauto.
Qed.

Lemma route_name_kids b s : route (name_kids b) s = route b s.
Proof.
  destruct b as [nm m ls sls ks bls ck]. rewrite name_kids_B, !route_B. destruct (translate m s) as [n|]; [|reflexivity].
  destruct (leaf_of ls n); [reflexivity|]. induction ks as [|[sg c] t IH]; [reflexivity|].
  cbn [map]. unfold name_kid at 1. cbn [fst snd]. destruct sg; cbn [route_kids]; rewrite ?route_set_name;
  fold (route_kids n); rewrite IH; reflexivity.
Qed.
Lemma slot_name_kids b pl : slot_at (name_kids b) pl = slot_at b pl.
Proof.
  destruct b as [nm m ls sls ks bls ck], pl as [[|s p] l]; [reflexivity|]. rewrite name_kids_B, !slot_at_cons. cbn [b_kids].
  rewrite kid_named. destruct (kid ks s) as [c|]; [|reflexivity]. destruct s; cbn [option_map]; [apply slot_set_name|reflexivity].
Qed.
Lemma wf_name_kids b : wf b -> wf (name_kids b).
Proof.
  intros H. destruct H as [nm m ls sls ks bls ck H1 H2 H3 H4]. rewrite name_kids_B. constructor; auto.
  - now rewrite name_kids_fst.
  - intros s c Hi. apply In_named in Hi. destruct Hi as (c0 & Hi & [->|[n ->]]); [|apply wf_set_name]; eauto.
Qed.
Lemma unbound_name_kids b : unbound b -> unbound (name_kids b).
Proof.
  intros H. destruct H as [nm m ls sls ks bls H1 H2]. rewrite name_kids_B. constructor; auto.
  intros s c Hi. apply In_named in Hi. destruct Hi as (c0 & Hi & [->|[n ->]]); [|apply unbound_set_name]; eauto.
Qed.
Lemma plain_name_kids b : plain_dicts b -> plain_dicts (name_kids b).
Proof.
  intros H. destruct H as [nm m ls sls ks bls ck H1 H2]. rewrite name_kids_B. constructor; auto.
  intros s c Hi. apply In_named in Hi. destruct Hi as (c0 & Hi & [->|[n ->]]); [|apply plain_set_name]; eauto.
Qed.

(** * Binding a created bundle *)
Lemma set_modes_nconn b w st i : p_nconn (set_modes b w st i) = p_nconn (st i).
Proof.
  unfold set_modes. generalize (all_signals b ""). intros l. revert st. induction l as [|[n s] t IH]; intros st; [reflexivity|].
  cbn [fold_left]. rewrite IH. unfold mode_one. cbn [snd]. destruct s as [| | |j]; try reflexivity. destruct (p_out (st j)); [reflexivity|].
  unfold upd. destruct (Nat.eqb i j) eqn:E; [|reflexivity]. apply Nat.eqb_eq in E. now subst.
Qed.

Lemma entries_orgs d : map e_org (entries d) = map fst (d_pins d).
Proof. unfold entries. rewrite map_map. reflexivity. Qed.
Lemma In_entries d e : In e (entries d) <-> e_org e = e_name e /\ In (e_name e, e_pin e) (d_pins d).
Proof.
  unfold entries. rewrite in_map_iff. split.
  - intros [[n i] [<- Hi]]. cbn. auto.
  - intros [H1 H2]. exists (e_name e, e_pin e). split; [|exact H2]. destruct e as [a c i]. cbn in *. now subst.
Qed.

Lemma bind_fresh acc t d st t1 st1 : t_bound t = false -> bind acc t d st = Ok (t1, st1) ->
  exists b1 st0 rest, bind_b acc [] (name_kids (t_b t)) (entries d) st = Ok (b1, st0, rest) /\
    t1 = mk_top b1 true (t_mode t) (t_regs t ++ [d_id d]) /\
    st1 = match t_mode t with Some w => set_modes b1 w st0 | None => st0 end.
Proof.
  unfold bind. intros ->. cbn [rbind]. destruct (bind_b acc [] (name_kids (t_b t)) (entries d) st) as [[[b1 st0] rest]|]; cbn [rbind]; [|discriminate].
  intros [= <- <-]. eauto 10.
Qed.

Lemma pinhits_entries d f i : dut_ok d ->
  pinhits i f (entries d) = match find (fun e => Nat.eqb (e_pin e) i) (entries d) with Some e => Nat.b2n (f e) | None => 0 end.
Proof.
  intros [_ Hp]. unfold pinhits. replace (map snd (d_pins d)) with (map e_pin (entries d)) in Hp by (unfold entries; now rewrite map_map).
  revert Hp. generalize (entries d). intros es. induction es as [|e t IH]; cbn [map filter find]; intros Hn; [reflexivity|].
  inversion Hn as [|? ? Hni Hnt]; subst. destruct (Nat.eqb (e_pin e) i) eqn:E; [|apply IH; exact Hnt].
  apply Nat.eqb_eq in E. assert (Hz : filter (fun e0 => Nat.eqb (e_pin e0) i && f e0) t = []).
  { clear IH Hn. induction t as [|x u IHu]; [reflexivity|]. cbn [filter map In] in *. inversion Hnt; subst.
    destruct (Nat.eqb (e_pin x) (e_pin e)) eqn:E2; [apply Nat.eqb_eq in E2; exfalso; apply Hni; auto|]. cbn [andb]. apply IHu; tauto. }
  cbn [andb]. destruct (f e); cbn [List.length Nat.b2n]; now rewrite Hz.
Qed.
Lemma find_entry d s i : dut_ok d -> In (s, i) (d_pins d) -> find (fun e => Nat.eqb (e_pin e) i) (entries d) = Some (mk_entry s s i).
Proof.
  intros [_ Hp] Hi. unfold entries. revert Hp Hi. generalize (d_pins d). intros l.
  induction l as [|[s' i'] t IH]; cbn [map snd fst find In e_pin]; intros Hn Hi; [destruct Hi|]. inversion Hn as [|? ? Hni Hnt]; subst.
  destruct Hi as [[= -> ->]|Hi]; [now rewrite Nat.eqb_refl|].
  destruct (Nat.eqb i' i) eqn:E; [|auto]. apply Nat.eqb_eq in E. subst. exfalso. apply Hni. change i with (snd (s, i)). now apply in_map.
Qed.
Lemma find_entry_none d i : (forall s, ~ In (s, i) (d_pins d)) -> find (fun e => Nat.eqb (e_pin e) i) (entries d) = None.
Proof.
  intros H. destruct (find _ (entries d)) as [e|] eqn:E; [|reflexivity]. apply find_some in E. destruct E as [Hi E].
  apply Nat.eqb_eq in E. apply In_entries in Hi. exfalso. apply (H (e_name e)). rewrite <- E. apply Hi.
Qed.

Definition goes (b : bundle) (s : string) : bool := match route b s with Some _ => true | None => false end.
Lemma goes_iff b s : wf b -> (goes b s = true <-> exists pl, goes_to b s pl).
Proof.
  intros Hw. unfold goes. destruct (route b s) as [pl|] eqn:E.
  - split; [intros _; exists pl; now apply route_goes_to|reflexivity].
  - split; [discriminate|]. intros [pl H]. apply route_goes_to in H; [congruence|exact Hw].
Qed.

Lemma bind_fresh_count acc t d st t1 st1 i : t_bound t = false -> wf (t_b t) -> dut_ok d -> bind acc t d st = Ok (t1, st1) ->
  nconn st1 i = nconn st i + match find (fun e => Nat.eqb (e_pin e) i) (entries d) with
                             | Some e => Nat.b2n (goes (t_b t) (e_name e)) | None => 0 end.
Proof.
  intros Hb Hw Hd H. destruct (bind_fresh _ _ _ _ _ _ Hb H) as (b1 & st0 & rest & Hbb & -> & ->).
  assert (Ho : NoDup (map e_org (entries d))) by (rewrite entries_orgs; apply Hd).
  destruct (bind_count _ _ (wf_name_kids _ Hw) _ _ _ _ _ _ Ho Hbb i) as [Hc _]. rewrite pinhits_entries in Hc by exact Hd.
  replace (nconn match t_mode t with Some w => set_modes b1 w st0 | None => st0 end i) with (nconn st0 i)
    by (unfold nconn; destruct (t_mode t); [now rewrite set_modes_nconn|reflexivity]).
  rewrite Hc. f_equal. destruct (find _ (entries d)) as [e|]; [|reflexivity]. rewrite routed_unrouted, route_name_kids. reflexivity.
Qed.

(** * Several bundles *)
Lemma bind_all_count l : forall d st ts st1 i, dut_ok d ->
  (forall a t, In (a, t) l -> t_bound t = false /\ wf (t_b t)) -> bind_all l d st = Ok (ts, st1) ->
  nconn st1 i = nconn st i + match find (fun e => Nat.eqb (e_pin e) i) (entries d) with
     | Some e => List.length (filter (fun x => goes (t_b (snd x)) (e_name e)) l) | None => 0 end.
Proof.
  induction l as [|[a t] r IH]; intros d st ts st1 i Hd Hl; cbn [bind_all].
  - intros [= <- <-]. destruct (find _ (entries d)); cbn; lia.
  - destruct (bind a t d st) as [[t1 st0]|] eqn:E; [|discriminate].
    destruct (bind_all r d st0) as [[r1 st2]|] eqn:E2; [|discriminate]. intros [= <- <-].
    destruct (Hl a t (or_introl eq_refl)) as [Hb Hw].
    rewrite (IH _ _ _ _ i Hd (fun a0 t0 H0 => Hl a0 t0 (or_intror H0)) E2), (bind_fresh_count _ _ _ _ _ _ i Hb Hw Hd E).
    destruct (find _ (entries d)) as [e|]; [|lia]. cbn [filter snd]. destruct (goes (t_b t) (e_name e)); cbn [Nat.b2n List.length]; lia.
Qed.

(** * Binding does not raise *)
Lemma key_of_None d v : (forall k v', In (k, v') d -> v' <> v) -> key_of d v = None.
Proof.
  induction d as [|[k v'] t IH]; intros H; [reflexivity|]. cbn [key_of]. destruct (String.eqb v v') eqn:E.
  - apply String.eqb_eq in E. subst. exfalso. apply (H k v'); [now left|reflexivity].
  - apply IH. intros k0 v0 H0. apply (H k0 v0). now right.
Qed.
Lemma filter_dict_ok b d target : b_meth b = MDict d -> (forall k v k' v', In (k, v) d -> In (k', v') d -> k <> v') ->
  exists vs, filter_dict b d target = Ok vs.
Proof.
  intros Hm Hd. assert (G : forall d', incl d' d -> exists vs, filter_dict b d' target = Ok vs); [|apply G; apply incl_refl].
  induction d' as [|[k v] t IH]; intros Hi; [exists []; reflexivity|].
  destruct IH as [vs Hvs]; [intros x Hx; apply Hi; now right|].
  cbn [filter_dict]. unfold detect_specific. destruct b as [nm m ls sls ks bls ck]. cbn [b_meth] in Hm. subst m. cbn [dspec translate].
  rewrite key_of_None by (intros k' v' H' ->; apply (Hd k v k' k); [apply Hi; now left|exact H'|reflexivity]).
  destruct (String.eqb (append_level "" k) target); cbn [rbind]; rewrite Hvs; cbn [rbind]; eauto.
Qed.
Lemma rule_string_ok stack : (forall b, In b stack -> plain_dicts b) -> forall sg, exists r, rule_string stack sg = Ok r.
Proof.
  induction stack as [|b t IH]; intros H sg; cbn [rule_string]; [eauto|].
  destruct (IH (fun x Hx => H x (or_intror Hx)) sg) as [r Hr].
  destruct (b_meth b) as [p|raw f|d] eqn:Em; try (rewrite Hr; cbn [rbind]; eauto).
  assert (Hb := H b (or_introl eq_refl)). destruct (filter_dict_ok b d (stack_path t sg) Em) as [vs ->]; [|cbn [rbind]; eauto].
  inversion Hb; subst. cbn [b_meth] in Em. eauto.
Qed.
Lemma missing_ok acc stack conn ls : (forall b, In b stack -> plain_dicts b) -> exists r, missing acc stack conn ls = Ok r.
Proof.
  intros H. induction ls as [|l t [r Hr]]; cbn [missing]; [eauto|]. rewrite Hr. destruct (smem (l_name l) conn); cbn [rbind]; [eauto|].
  destruct (rule_string_ok stack H (l_name l)) as [x ->]. cbn [rbind]. eauto.
Qed.
Lemma bind_ok acc b : plain_dicts b -> forall stack es st, (forall x, In x stack -> plain_dicts x) ->
  exists b1 st1 rest, bind_b acc stack b es st = Ok (b1, st1, rest).
Proof.
  induction b as [nm m ls sls ks bls ck IH] using bundle_ind2. intros Hp stack es st Hs. rewrite bind_B. cbv zeta.
  set (stack1 := stack ++ _).
  assert (Hs1 : forall x, In x stack1 -> plain_dicts x).
  { intros x Hx. apply in_app_iff in Hx. destruct Hx as [Hx|[<-|[]]]; auto. }
  destruct (missing_ok acc stack1 (h_conn (bind_here m es ls ck st)) (h_ls (bind_here m es ls ck st)) Hs1) as [ls1 ->].
  inversion Hp as [? ? ? ? ? ? ? Hd Hk]; subst.
  assert (G : forall ks' es st ck, incl ks' ks -> exists r, bind_kids acc stack1 ks' es st ck = Ok r).
  { induction ks' as [|[s c] t IHt]; intros es' st' ck' Hi; [eexists; reflexivity|]. cbn [bind_kids].
    assert (Hin : In (s, c) ks) by (apply Hi; now left).
    destruct (IH _ _ Hin (Hk _ _ Hin) stack1 es' st' Hs1) as (c1 & st1 & es1 & ->). fold (bind_kids acc stack1).
    destruct (IHt es1 st1 (next_clk s (b_clk c1) ck') (fun x Hx => Hi x (or_intror Hx))) as [[[[t1 st2] es2] ck2] ->]. eauto. }
  destruct (G ks (h_match (bind_here m es ls ck st)) (h_st (bind_here m es ls ck st)) (h_ck (bind_here m es ls ck st)) (incl_refl _)) as [[[[ks1 st1] rest] ck1] ->].
  eauto.
Qed.

(** * The clock event *)
Definition clk_ok (c : nat) (o : option nat) : Prop := o = None \/ o = Some c.
Lemma bind_here_ck m c es : forall ls ck st, (forall e, In e es -> p_clk (st (e_pin e)) = c) -> clk_ok c ck ->
  clk_ok c (h_ck (bind_here m es ls ck st)) /\
  (ck = Some c \/ (exists e, In e es /\ hits m ls e <> None) -> h_ck (bind_here m es ls ck st) = Some c).
Proof.
  induction es as [|e t IH]; intros ls ck st Hc Hk; cbn [bind_here h_ck].
  - split; [exact Hk|]. intros [H|[e [[] _]]]. exact H.
  - assert (Ht : forall e0, In e0 t -> p_clk (st (e_pin e0)) = c) by (intros; apply Hc; now right).
    destruct (translate m (e_name e)) as [n|] eqn:Et; [destruct (has_leaf ls n) eqn:Eh|]; cbn [h_ck].
    + assert (Hc1 : first_clk ck st (e_pin e) = Some c).
      { unfold first_clk. destruct Hk as [->| ->]; [f_equal; apply Hc; now left|reflexivity]. }
      destruct (IH (set_slot ls n (SPin (e_pin e))) (first_clk ck st (e_pin e)) (count_up st (e_pin e))) as [H1 H2].
      * intros e0 H0. destruct (count_up_spec st (e_pin e) (e_pin e0)) as [_ Hs]. destruct Hs as (_ & _ & _ & _ & ->). auto.
      * right. exact Hc1.
      * split; [exact H1|]. intros _. apply H2. now left.
    + destruct (IH ls ck st Ht Hk) as [H1 H2]. split; [exact H1|]. intros [H|[e0 [[->|Hi] Hh]]]; apply H2; auto.
      * exfalso. apply Hh. unfold hits. now rewrite Et, Eh.
      * right. eauto.
    + destruct (IH ls ck st Ht Hk) as [H1 H2]. split; [exact H1|]. intros [H|[e0 [[->|Hi] Hh]]]; apply H2; auto.
      * exfalso. apply Hh. unfold hits. now rewrite Et.
      * right. eauto.
Qed.

(** All clock events of the tree are absent. *)
Lemma unbound_clk b : unbound b -> b_clk b = None.
Proof. intros []. reflexivity. Qed.

Lemma bind_clk acc c b : wf b -> unbound b -> forall stack es st b1 st1 rest,
  NoDup (map e_org es) -> (forall e, In e es -> p_clk (st (e_pin e)) = c) ->
  bind_b acc stack b es st = Ok (b1, st1, rest) ->
  clk_ok c (b_clk b1) /\
  (forall e p l, In e es -> route b (e_name e) = Some (p, l) -> off_lists p -> b_clk b1 = Some c).
Proof.
  induction b as [nm m ls sls ks bls ck IH] using bundle_ind2. intros Hwf Hub stack es st b1 st1 rest Ho Hc.
  rewrite bind_B. cbv zeta. set (stack1 := stack ++ _). set (h := bind_here m es ls ck st).
  inversion Hwf as [? ? ? ? ? ? ? Hni Hnn Hnk Hwk]; subst.
  assert (Hck := unbound_clk _ Hub). cbn [b_clk] in Hck. subst ck.
  inversion Hub as [? ? ? ? ? ? Hul Huk]; subst.
  destruct (missing acc stack1 (h_conn h) (h_ls h)) as [ls1|] eqn:Em; [|discriminate].
  assert (HK : forall ks' es' st' ck' ks1 st1 rest1 ck1,
    (forall s c, In (s, c) ks' -> In (s, c) ks) -> NoDup (map e_org es') -> (forall e, In e es' -> p_clk (st' (e_pin e)) = c) -> clk_ok c ck' ->
    bind_kids acc stack1 ks' es' st' ck' = Ok (ks1, st1, rest1, ck1) ->
    clk_ok c ck1 /\ (ck' = Some c -> ck1 = Some c) /\
    (forall e p l, In e es' -> route_kids (e_name e) ks' = Some (p, l) -> off_lists p -> ck1 = Some c)).
  { induction ks' as [|[s k] t IHt]; intros es' st' ck' ks1 st1' rest1 ck1 Hsub Hno Hcl Hk; cbn [bind_kids].
    - intros [= <- <- <- <-]. repeat split; auto. intros e p l _ Hr. discriminate Hr.
    - destruct (bind_b acc stack1 k es' st') as [[[c1 stc] esc]|] eqn:Ec; [|discriminate].
      fold (bind_kids acc stack1).
      destruct (bind_kids acc stack1 t esc stc (next_clk s (b_clk c1) ck')) as [[[[t1 stt] est] ckt]|] eqn:Et; [|discriminate].
      intros [= <- <- <- <-]. assert (Hin : In (s, k) ks) by (apply Hsub; now left).
      destruct (bind_main _ _ (Hwk _ _ Hin) _ _ _ _ _ _ Hno Ec) as (Hp1 & _).
      assert (Hcnt := bind_count _ _ (Hwk _ _ Hin) _ _ _ _ _ _ Hno Ec).
      destruct (IH _ _ Hin (Hwk _ _ Hin) (Huk _ _ Hin) _ _ _ _ _ _ Hno Hcl Ec) as [Hc1 Hc2].
      assert (Hno1 := orgs_perm_filter _ _ _ Hno Hp1).
      assert (Hesc : forall e, In e esc <-> In e es' /\ route k (e_name e) = None).
      { intros e. rewrite (Permutation_in' eq_refl Hp1), filter_In. unfold unrouted.
        destruct (route k (e_name e)); split; intros [? ?]; split; auto; discriminate. }
      assert (Hcl1 : forall e, In e esc -> p_clk (stc (e_pin e)) = c).
      { intros e He. apply Hesc in He. destruct (Hcnt (e_pin e)) as [_ Hs]. destruct Hs as (_ & _ & _ & _ & ->). apply Hcl. apply He. }
      assert (Hnk1 : clk_ok c (next_clk s (b_clk c1) ck')).
      { unfold next_clk. destruct s; [|exact Hk]. destruct Hc1 as [->| ->]; [exact Hk|now right]. }
      destruct (IHt _ _ _ _ _ _ _ (fun s0 c0 H0 => Hsub s0 c0 (or_intror H0)) Hno1 Hcl1 Hnk1 Et) as (H1 & H2 & H3).
      repeat split; auto.
      + intros ->. apply H2. unfold next_clk. destruct s; [|reflexivity]. destruct Hc1 as [->| ->]; reflexivity.
      + intros e p l Hi Hr Hoff. cbn [route_kids] in Hr. destruct (route k (e_name e)) as [[q ql]|] eqn:Er; cbn [down option_map orelse fst snd] in Hr.
        * injection Hr as <- <-. apply H2. assert (Hs : exists n, s = PSub n) by (apply Hoff; now left). destruct Hs as [n ->].
          rewrite (Hc2 e q ql Hi Er); [reflexivity|]. intros x Hx. apply Hoff. now right.
        * fold (route_kids (e_name e)) in Hr. eapply H3; [apply Hesc; split; eauto|exact Hr|exact Hoff]. }
  destruct (bind_kids acc stack1 ks (h_match h) (h_st h) (h_ck h)) as [[[[ks1 stk] restk] ckk]|] eqn:Ek; [|discriminate].
  intros [= <- <- <-]. cbn [b_clk].
  assert (Hmatch : h_match h = flat_map (passes m ls) es) by apply bind_here_match.
  assert (Hnm : NoDup (map e_org (h_match h))) by (rewrite Hmatch; now apply passes_orgs).
  destruct (bind_here_ck m c es ls None st Hc (or_introl eq_refl)) as [Hh1 Hh2]. fold h in Hh1, Hh2.
  assert (Hhc : forall e, In e (h_match h) -> p_clk (h_st h (e_pin e)) = c).
  { intros e He. destruct (bind_here_st m es ls None st (e_pin e)) as [_ Hs]. fold h in Hs. destruct Hs as (_ & _ & _ & _ & ->).
    rewrite Hmatch in He. apply in_flat_map in He. destruct He as [e0 [H0 He]]. unfold passes in He.
    destruct (translate m (e_name e0)) as [n|]; [|destruct He]. destruct (has_leaf ls n); [destruct He|]. destruct He as [<-|[]]. cbn [e_pin]. auto. }
  destruct (HK _ _ _ _ _ _ _ _ (fun _ _ H => H) Hnm Hhc Hh1 Ek) as (H1 & H2 & H3). split; [exact H1|].
  intros e p l Hi Hr Hoff. rewrite route_B in Hr. destruct (translate m (e_name e)) as [n|] eqn:Et; [|discriminate].
  destruct (leaf_of ls n) as [l'|] eqn:El.
  - apply H2, Hh2. right. exists e. split; [exact Hi|]. unfold hits. now rewrite Et, leaf_of_has, El.
  - eapply (H3 (mk_entry n (e_org e) (e_pin e))); [|exact Hr|exact Hoff]. rewrite Hmatch. apply in_flat_map. exists e. split; [exact Hi|].
    unfold passes. rewrite Et, leaf_of_has, El. now left.
Qed.
