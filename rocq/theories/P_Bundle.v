(** Property theorems for bundles: C41 - C47, C57, C63, C69. *)
From Coq Require Import List String Ascii Bool Arith ZArith Lia Permutation.
From Verif Require Import Py Bundle_Model Bundle_Spec Bundle_Proofs Bundle2_Proofs Bundle3_Proofs Bundle4_Proofs Bundle5_Proofs.
Import ListNotations.
Open Scope string_scope.
Open Scope list_scope.

(** Concrete bundles and DUTs for the examples and counterexamples. *)
Definition sig (n : string) : leaf := mk_leaf (LSig n) n true SPlaceholder.
Definition el (n : string) (i : nat) (nm : string) : leaf := mk_leaf (LEl n i) nm true SPlaceholder.
Definition pin0 (c : nat) : pin := mk_pin 0 false 8 None Imme c.
Definition st0 : store := fun _ => pin0 7.
Definition reqb : bundle := B "" (MPrefix "req_") [sig "valid"; sig "ready"] [] [] [] None.
Definition vecb : bundle := B "" (MRegex "v(.*)" (fun s => strip "v" s)) [sig "x"] [] [] [] None.
(** Prefix "io_", an own signal, a signal list, a sub-bundle, a list of one bundle. *)
Definition treeb : bundle :=
  B "top" (MPrefix "io_") [sig "a"; el "data" 0 "data_0"; el "data" 1 "data_1"] ["data"] [(PSub "req", reqb); (PElem "vec" 0, vecb)] ["vec"] None.
Definition fresh (b : bundle) : top := mk_top b false None [].
Definition dut1 : dut := mk_dut 0 [("io_a", 0); ("io_data_1", 1); ("io_req_valid", 2); ("io_vx", 3); ("other", 4)].
(** The same without lists. *)
Definition plainb : bundle := B "top" (MPrefix "io_") [sig "a"] [] [(PSub "req", reqb)] [] None.
Definition dut2 : dut := mk_dut 1 [("io_a", 10); ("io_req_ready", 11)].

Ltac nodup := repeat (constructor; [cbn; intuition congruence|]); constructor.
Ltac in_cases := cbn [In] in *; repeat match goal with H : _ \/ _ |- _ => destruct H as [H|H] | H : False |- _ => destruct H end.
Ltac tree := repeat first [ progress intros | constructor | discriminate | match goal with H : In _ _ |- _ => progress in_cases end
                          | match goal with H : (_, _) = (_, _) |- _ => injection H; intros; clear H; subst end | progress subst | reflexivity | (cbn; intuition congruence) ].
Lemma runs {A C} (r : res (A * C)) (Q : A -> C -> Prop) : match r with Ok (a, c) => Q a c | Exn _ => False end -> exists a c, r = Ok (a, c) /\ Q a c.
Proof. destruct r as [[a c]|]; [eauto|intros []]. Qed.
Ltac run := apply runs; vm_compute; repeat split.
Lemma treeb_ok : created (fresh treeb).
Proof. split; [reflexivity|split; unfold fresh, treeb, reqb, vecb, sig, el; cbn [t_b]]; tree. Qed.
Lemma plainb_ok : created (fresh plainb).
Proof. split; [reflexivity|split; unfold fresh, plainb, reqb, sig; cbn [t_b]]; tree. Qed.
Lemma dut1_ok : dut_ok dut1.
Proof. split; cbn; nodup. Qed.
Lemma dut2_ok : dut_ok dut2.
Proof. split; cbn; nodup. Qed.

(** C41: a signal holds a pin only if the pin's name is accepted there, and there first. *)
Theorem C41_only : forall acc t d st t1 st1 pl i, created t -> dut_ok d -> bind acc t d st = Ok (t1, st1) ->
  slot_at (t_b t1) pl = Some (SPin i) ->
  exists s, In (s, i) (d_pins d) /\ accepts (t_b t) (fst pl) (snd pl) s /\ goes_to (t_b t) s pl.
Proof.
  intros acc t d st t1 st1 pl i Hc Hd H Hs. assert (S := bind_spec _ _ _ _ _ _ Hc Hd H pl). destruct (slot_at (t_b t) pl) as [s0|] eqn:E; [|congruence].
  destruct S as (s1 & E1 & [(n & j & Hi & Hg & ->)|[_ ->]]).
  - rewrite E1 in Hs. injection Hs as ->. exists n. repeat split; auto. now apply goes_accepts.
  - rewrite E1 in Hs. injection Hs as Hs. destruct acc; [discriminate|]. subst s0. destruct Hc as (_ & Hu & _).
    destruct (unbound_slot _ Hu _ _ E); discriminate.
Qed.
Print Assumptions C41_only.

(** C41: a pin whose name is accepted somewhere has exactly one place to go to, and this signal is connected to a pin that goes there. *)
Theorem C41_routed : forall acc t d st t1 st1 s i p l, created t -> dut_ok d -> bind acc t d st = Ok (t1, st1) ->
  In (s, i) (d_pins d) -> accepts (t_b t) p l s ->
  exists pl, goes_to (t_b t) s pl /\ (forall q, goes_to (t_b t) s q -> q = pl) /\
    exists s' j, slot_at (t_b t1) pl = Some (SPin j) /\ In (s', j) (d_pins d) /\ goes_to (t_b t) s' pl.
Proof.
  intros acc t d st t1 st1 s i p l Hc Hd H Hi Ha. destruct (accepted_goes _ _ _ _ (proj2 (proj2 Hc)) Ha) as [pl Hg]. exists pl. split; [exact Hg|].
  split; [intros q Hq; eapply goes_fun; eauto; apply Hc|].
  assert (S := bind_spec _ _ _ _ _ _ Hc Hd H pl). destruct (slot_at (t_b t) pl) as [s0|] eqn:E.
  - destruct S as (s1 & E1 & [(n & j & Hj & Hn & ->)|[Hno _]]); [eauto|]. exfalso. eapply Hno; eauto.
  - exfalso. eapply goes_slot; [|exact Hg|exact E]. apply Hc.
Qed.
Print Assumptions C41_routed.

(** C41: if it is the only pin of the DUT that goes there, the signal is this pin. *)
Theorem C41_exact : forall acc t d st t1 st1 s i pl, created t -> dut_ok d -> bind acc t d st = Ok (t1, st1) ->
  In (s, i) (d_pins d) -> goes_to (t_b t) s pl -> (forall s' j, In (s', j) (d_pins d) -> goes_to (t_b t) s' pl -> s' = s) ->
  slot_at (t_b t1) pl = Some (SPin i).
Proof.
  intros acc t d st t1 st1 s i pl Hc Hd H Hi Hg Hone. assert (S := bind_spec _ _ _ _ _ _ Hc Hd H pl). destruct (slot_at (t_b t) pl) as [s0|] eqn:E.
  - destruct S as (s1 & E1 & [(n & j & Hj & Hn & ->)|[Hno _]]).
    + rewrite (Hone _ _ Hj Hn) in Hj. now rewrite (pin_num _ _ _ _ Hd Hi Hj).
    + exfalso. eapply Hno; eauto.
  - exfalso. eapply goes_slot; [|exact Hg|exact E]. apply Hc.
Qed.
Print Assumptions C41_exact.

Example C41_ex : exists t1 st1, bind true (fresh treeb) dut1 st0 = Ok (t1, st1) /\
  slot_at (t_b t1) ([], LSig "a") = Some (SPin 0) /\ slot_at (t_b t1) ([], LEl "data" 0) = Some SDummy /\
  slot_at (t_b t1) ([], LEl "data" 1) = Some (SPin 1) /\ slot_at (t_b t1) ([PSub "req"], LSig "valid") = Some (SPin 2) /\
  slot_at (t_b t1) ([PElem "vec" 0], LSig "x") = Some (SPin 3).
Proof. run. Qed.

(** C42: one bind attaches a pin to at most one signal. *)
Theorem C42_once : forall acc t d st t1 st1 p1 p2 i, created t -> dut_ok d -> bind acc t d st = Ok (t1, st1) ->
  slot_at (t_b t1) p1 = Some (SPin i) -> slot_at (t_b t1) p2 = Some (SPin i) -> p1 = p2.
Proof.
  intros acc t d st t1 st1 p1 p2 i Hc Hd H H1 H2. destruct (C41_only _ _ _ _ _ _ _ _ Hc Hd H H1) as (s1 & I1 & _ & G1).
  destruct (C41_only _ _ _ _ _ _ _ _ Hc Hd H H2) as (s2 & I2 & _ & G2). rewrite (pin_name _ _ _ _ Hd I1 I2) in G1. eapply goes_fun; eauto. apply Hc.
Qed.
Print Assumptions C42_once.

(** C42: a signal that found no pin becomes a dummy, or stays as the class declared it; no signal appears or disappears. *)
Theorem C42_unconnected : forall acc t d st t1 st1 pl, created t -> dut_ok d -> bind acc t d st = Ok (t1, st1) ->
  (slot_at (t_b t1) pl = None <-> slot_at (t_b t) pl = None) /\
  ((forall s i, In (s, i) (d_pins d) -> ~ goes_to (t_b t) s pl) -> slot_at (t_b t) pl <> None ->
   slot_at (t_b t1) pl = if acc then Some SDummy else slot_at (t_b t) pl) /\
  (forall s, slot_at (t_b t) pl = Some s -> s = SPlaceholder \/ s = SAbsent).
Proof.
  intros acc t d st t1 st1 pl Hc Hd H. assert (S := bind_spec _ _ _ _ _ _ Hc Hd H pl). split; [|split].
  - destruct (slot_at (t_b t) pl); [|tauto]. destruct S as (s1 & -> & _). split; discriminate.
  - intros Hno Hs. destruct (slot_at (t_b t) pl) as [s0|]; [|contradiction]. destruct S as (s1 & -> & [(n & j & Hj & Hn & _)|[_ ->]]).
    + exfalso. eapply Hno; eauto.
    + now destruct acc.
  - intros s Hs. eapply unbound_slot; [apply Hc|exact Hs].
Qed.
Print Assumptions C42_unconnected.

(** C42: the pins handed back are exactly those that reach no signal, under their original names. *)
Theorem C42_handed_back : forall acc t d st b1 st1 rest, created t -> dut_ok d ->
  bind_b acc [] (name_kids (t_b t)) (entries d) st = Ok (b1, st1, rest) ->
  NoDup rest /\ forall e, In e rest <-> (e_org e = e_name e /\ In (e_name e, e_pin e) (d_pins d) /\ forall pl, ~ goes_to (t_b t) (e_name e) pl).
Proof.
  intros acc t d st b1 st1 rest Hc Hd H. destruct Hc as (_ & _ & Hw).
  assert (Ho : NoDup (map e_org (entries d))) by (rewrite entries_orgs; apply Hd).
  destruct (bind_main _ _ (wf_name_kids _ Hw) _ _ _ _ _ _ Ho H) as (Hp & _ & _). split.
  - eapply Permutation_NoDup; [apply Permutation_sym; exact Hp|]. apply NoDup_filter. eapply NoDup_map_inv. exact Ho.
  - intros e. assert (Hi : In e rest <-> In e (filter (unrouted (name_kids (t_b t))) (entries d))).
    { split; apply Permutation_in; [exact Hp|now apply Permutation_sym]. }
    rewrite Hi, filter_In, In_entries. unfold unrouted. rewrite route_name_kids. destruct (route (t_b t) (e_name e)) as [q|] eqn:E.
    + split; [intros [_ F]; discriminate|]. intros (_ & _ & F). exfalso. apply (F q). now apply route_goes_to.
    + split; [intros [[A B] _]|intros (A & B & _); auto]. repeat split; auto. intros pl Hg. apply route_goes_to in Hg; [congruence|exact Hw].
Qed.
Print Assumptions C42_handed_back.

Example C42_ex : exists b1 s1, bind_b false [] (name_kids treeb) (entries dut1) st0 = Ok (b1, s1, [mk_entry "other" "other" 4]).
Proof. eexists _, _. reflexivity. Qed.
Example C42_ex2 : exists t1 st1, bind false (fresh treeb) dut1 st0 = Ok (t1, st1) /\ slot_at (t_b t1) ([PSub "req"], LSig "ready") = Some SPlaceholder.
Proof. run. Qed.

(** C43: detection answers true exactly if binding to a DUT with such a pin connects the pin to some signal. *)
Theorem C43_predicts : forall t s i acc st t1 st1, created t -> bind acc t (mk_dut 0 [(s, i)]) st = Ok (t1, st1) ->
  (snd (detect_connectivity (t_b t) s) = true <-> exists pl, slot_at (t_b t1) pl = Some (SPin i)).
Proof.
  intros t s i acc st t1 st1 Hc H. assert (Hd : dut_ok (mk_dut 0 [(s, i)])) by (split; cbn; nodup). rewrite detect_goes by apply Hc. split.
  - intros [pl Hg]. exists pl. eapply C41_exact; eauto; [now left|]. intros s' j [[= <- <-]|[]] _. reflexivity.
  - intros [pl Hs]. destruct (C41_only _ _ _ _ _ _ _ _ Hc Hd H Hs) as (s' & [[= <-]|[]] & _ & Hg). eauto.
Qed.
Print Assumptions C43_predicts.

(** C43: in any DUT, the pin is counted as connected exactly if detection says so. *)
Theorem C43_counted : forall t d s i acc st t1 st1, created t -> dut_ok d -> In (s, i) (d_pins d) -> bind acc t d st = Ok (t1, st1) ->
  nconn st1 i = nconn st i + (if snd (detect_connectivity (t_b t) s) then 1 else 0).
Proof.
  intros t d s i acc st t1 st1 (Hb & Hu & Hw) Hd Hi H. rewrite (bind_fresh_count _ _ _ _ _ _ i Hb Hw Hd H), (find_entry _ _ _ Hd Hi). cbn [e_name].
  destruct (goes (t_b t) s) eqn:E.
  - apply goes_iff, detect_goes in E; auto. now rewrite E.
  - destruct (snd (detect_connectivity (t_b t) s)) eqn:E2; [|reflexivity]. apply detect_goes, goes_iff in E2; auto. congruence.
Qed.
Print Assumptions C43_counted.

(** C43: detection changes no signal of any bundle, and nothing at all of a bundle that is not yet bound. *)
Theorem C43_no_change : forall b s, wf b -> (forall pl, slot_at (fst (detect_connectivity b s)) pl = slot_at b pl) /\
  (unbound b -> fst (detect_connectivity b s) = b).
Proof.
  intros b s Hw. unfold detect_connectivity. split.
  - destruct (detect_main b Hw [mk_entry s s 0]) as [_ Hs]; [cbn; nodup|]. destruct (detect_b b _) as [b1 r]. exact Hs.
  - intros Hu. assert (H := detect_same b Hu [mk_entry s s 0]). destruct (detect_b b _) as [b1 r]. exact H.
Qed.
Print Assumptions C43_no_change.

Example C43_ex : snd (detect_connectivity treeb "io_req_valid") = true /\ snd (detect_connectivity treeb "io_req_vali") = false /\
  snd (detect_connectivity treeb "io_vx") = true /\ snd (detect_connectivity treeb "other") = false.
Proof. repeat split. Qed.

(** C44 is false: with a prefix rule the path is ignored; a name that no rule matches answers true if it is the path itself;
    with other rules a name that connects raises TypeError. *)
Theorem C44_refuted :
  (detect_specific treeb "io_a" "req.ready" = Ok true /\ ~ accepts treeb [PSub "req"] (LSig "ready") "io_a") /\
  (detect_specific treeb "a" "a" = Ok true /\ forall pl, ~ goes_to treeb "a" pl) /\
  (detect_specific treeb "io_vx" "vec[0].x" = Exn TypeError /\ goes_to treeb "io_vx" ([PElem "vec" 0], LSig "x")).
Proof.
  assert (Hw : wf treeb) by apply treeb_ok. split; [split|split; [split|split]].
  - reflexivity.
  - intros (n & [= <-] & H). cbn in H. destruct H as (n & H & _). discriminate.
  - reflexivity.
  - intros pl H. apply route_goes_to in H; [discriminate|exact Hw].
  - reflexivity.
  - apply route_goes_to; [exact Hw|reflexivity].
Qed.
Print Assumptions C44_refuted.

(** C44, what holds: with prefix rules only, the call never raises, and a name that goes to some signal (in particular the
    given one) is answered with true.  Missing: names that go elsewhere should be answered with false. *)
Theorem C44_partial : forall b s target, wf b -> prefix_only b ->
  (exists r, detect_specific b s target = Ok r) /\
  (forall pl, goes_to b s pl -> detect_specific b s target = Ok true).
Proof.
  intros b s target Hw Hp. destruct (dspec_prefix b Hp "" target s) as [H1 H2]. unfold detect_specific. split.
  - destruct H1 as [-> | ->]; cbn [rbind]; eauto.
  - intros pl Hg. apply route_goes_to in Hg; [|exact Hw]. rewrite H2 by congruence. reflexivity.
Qed.
Print Assumptions C44_partial.
Example C44_ex : wf plainb /\ prefix_only plainb /\ goes_to plainb "io_req_ready" ([PSub "req"], LSig "ready").
Proof.
  assert (Hw : wf plainb) by apply plainb_ok. split; [exact Hw|split; [unfold plainb, reqb; tree|]]. apply route_goes_to; [exact Hw|reflexivity].
Qed.

(** C45: every pin is counted once for every bundle in which its name goes to a signal. *)
Theorem C45_counts : forall l d st ts st1, dut_ok d -> (forall a t, In (a, t) l -> created t) -> (forall s i, In (s, i) (d_pins d) -> nconn st i = 0) ->
  bind_all l d st = Ok (ts, st1) -> forall s,
  (In s (detect_unconnected d st1) <-> In s (map fst (d_pins d)) /\ forall a t pl, In (a, t) l -> ~ goes_to (t_b t) s pl) /\
  (In s (detect_multiple d st1) <-> In s (map fst (d_pins d)) /\ exists k1 k2 x1 x2 p1 p2, k1 < k2 /\ nth_error l k1 = Some x1 /\ nth_error l k2 = Some x2 /\
     goes_to (t_b (snd x1)) s p1 /\ goes_to (t_b (snd x2)) s p2).
Proof.
  intros l d st ts st1 Hd Hl Hz H s.
  assert (Hl' : forall a t, In (a, t) l -> t_bound t = false /\ wf (t_b t)) by (intros a t Hi; destruct (Hl _ _ Hi) as (? & _ & ?); auto).
  assert (Hn : forall i, In (s, i) (d_pins d) -> nconn st1 i = List.length (filter (fun x => goes (t_b (snd x)) s) l)).
  { intros i Hi. rewrite (bind_all_count _ _ _ _ _ i Hd Hl' H), (find_entry _ _ _ Hd Hi), (Hz _ _ Hi). reflexivity. }
  split.
  - unfold detect_unconnected. split.
    + intros Hi. apply in_map_iff in Hi. destruct Hi as [[s' i] [E Hi]]. cbn [fst] in E. subst s'. apply filter_In in Hi. destruct Hi as [Hi Hf]. cbn [snd] in Hf.
      split; [change s with (fst (s, i)); now apply in_map|]. assert (H0 : nconn st1 i = 0).
      { unfold nconn. destruct (p_nconn (st1 i)) as [n|]; [now apply Nat.eqb_eq|reflexivity]. }
      rewrite (Hn _ Hi) in H0. intros a t pl Hat Hg. assert (Hb := proj1 (zero_filter _ _) H0 _ Hat). cbn [snd] in Hb.
      assert (goes (t_b t) s = true) by (apply goes_iff; [apply (Hl' _ _ Hat)|eauto]). congruence.
    + intros [Hi Ha]. apply in_map_iff in Hi. destruct Hi as [[s' i] [E Hi]]. cbn [fst] in E. subst s'. apply in_map_iff. exists (s, i). split; [reflexivity|].
      apply filter_In. split; [exact Hi|]. cbn [snd]. assert (H0 : nconn st1 i = 0).
      { rewrite (Hn _ Hi). apply zero_filter. intros [a t] Hat. cbn [snd]. destruct (goes (t_b t) s) eqn:E; [|reflexivity].
        apply goes_iff in E; [|apply (Hl' _ _ Hat)]. destruct E as [pl Hg]. exfalso. eapply Ha; eauto. }
      unfold nconn in H0. destruct (p_nconn (st1 i)); [now subst|reflexivity].
  - assert (Htwo : 2 <= List.length (filter (fun x => goes (t_b (snd x)) s) l) <-> exists k1 k2 x1 x2 p1 p2, k1 < k2 /\ nth_error l k1 = Some x1 /\ nth_error l k2 = Some x2 /\
       goes_to (t_b (snd x1)) s p1 /\ goes_to (t_b (snd x2)) s p2).
    { rewrite two_filter. split.
      - intros (k1 & k2 & [a1 t1] & [a2 t2] & Hk & N1 & N2 & G1 & G2). cbn [snd] in *.
        apply goes_iff in G1; [|apply (Hl' a1), (nth_error_In _ _ N1)]. apply goes_iff in G2; [|apply (Hl' a2), (nth_error_In _ _ N2)].
        destruct G1 as [p1 G1], G2 as [p2 G2]. exists k1, k2, (a1, t1), (a2, t2), p1, p2. auto.
      - intros (k1 & k2 & [a1 t1] & [a2 t2] & p1 & p2 & Hk & N1 & N2 & G1 & G2). cbn [snd] in *. exists k1, k2, (a1, t1), (a2, t2). repeat split; auto; apply goes_iff; eauto;
        [apply (Hl' a1), (nth_error_In _ _ N1)|apply (Hl' a2), (nth_error_In _ _ N2)]. }
    unfold detect_multiple. split.
    + intros Hi. apply in_map_iff in Hi. destruct Hi as [[s' i] [E Hi]]. cbn [fst] in E. subst s'. apply filter_In in Hi. destruct Hi as [Hi Hf]. cbn [snd] in Hf.
      split; [change s with (fst (s, i)); now apply in_map|]. apply Htwo. rewrite <- (Hn _ Hi). unfold nconn. destruct (p_nconn (st1 i)) as [n|]; [|discriminate].
      apply Nat.ltb_lt in Hf. lia.
    + intros [Hi Ha]. apply in_map_iff in Hi. destruct Hi as [[s' i] [E Hi]]. cbn [fst] in E. subst s'. apply in_map_iff. exists (s, i). split; [reflexivity|].
      apply filter_In. split; [exact Hi|]. cbn [snd]. apply Htwo in Ha. rewrite <- (Hn _ Hi) in Ha. unfold nconn in Ha. destruct (p_nconn (st1 i)); [apply Nat.ltb_lt; lia|lia].
Qed.
Print Assumptions C45_counts.

(** C45 is false in terms of the signals themselves: a pin replaced by a second pin that goes to the same signal is
    counted as connected although no signal holds it. *)
Definition anyb : bundle := B "" (MRegex "" (fun _ => Some "x")) [sig "x"] [] [] [] None.
Theorem C45_refuted : exists d, dut_ok d /\ created (fresh anyb) /\ In ("p", 0) (d_pins d) /\
  exists ts st1, bind_all [(true, fresh anyb)] d st0 = Ok (ts, st1) /\
    ~ In "p" (detect_unconnected d st1) /\ forall t1, In t1 ts -> forall pl, slot_at (t_b t1) pl <> Some (SPin 0).
Proof.
  exists (mk_dut 0 [("p", 0); ("q", 1)]). split; [split; cbn; nodup|]. split.
  { split; [reflexivity|split; unfold fresh, anyb, sig; cbn [t_b]]; tree. }
  split; [now left|]. apply runs. cbv -[slot_at t_b sig]. split; [tauto|]. intros t1 [<-|[]].
  intros [[|s p] l]; unfold slot_at, leaf_at; cbn -[leafid_eq_dec]; [|discriminate]. destruct (leafid_eq_dec l (LSig "x")); discriminate.
Qed.
Print Assumptions C45_refuted.

(** C45, what holds: if no two pins go to the same signal of a bundle, the two lists are exact for the signals themselves. *)
Theorem C45_partial : forall l d st ts st1, dut_ok d -> (forall a t, In (a, t) l -> created t /\ one_pin_each (t_b t) d) ->
  (forall s i, In (s, i) (d_pins d) -> nconn st i = 0) -> bind_all l d st = Ok (ts, st1) -> forall s i, In (s, i) (d_pins d) ->
  (In s (detect_unconnected d st1) <-> forall t1 pl, In t1 ts -> slot_at (t_b t1) pl <> Some (SPin i)) /\
  (In s (detect_multiple d st1) <-> exists k1 k2 t1 t2 p1 p2, k1 < k2 /\ nth_error ts k1 = Some t1 /\ nth_error ts k2 = Some t2 /\
     slot_at (t_b t1) p1 = Some (SPin i) /\ slot_at (t_b t2) p2 = Some (SPin i)).
Proof.
  intros l d st ts st1 Hd Hl Hz H s i Hi. destruct (C45_counts l d st ts st1 Hd (fun a t Ht => proj1 (Hl a t Ht)) Hz H s) as [U M].
  destruct (bind_all_nth _ _ _ _ _ H) as [Hlen Hnth]. assert (Hin : In s (map fst (d_pins d))) by (change s with (fst (s, i)); now apply in_map).
  assert (Hgo : forall k a t t1, nth_error l k = Some (a, t) -> nth_error ts k = Some t1 -> forall pl, goes_to (t_b t) s pl <-> slot_at (t_b t1) pl = Some (SPin i)).
  { intros k a t t1 N1 N2 pl. destruct (Hnth _ _ _ N1) as (t1' & s0 & s1 & N3 & Hb). rewrite N2 in N3. injection N3 as <-.
    destruct (Hl a t (nth_error_In _ _ N1)) as [Hc Ho]. split.
    - intros Hg. eapply C41_exact; eauto.
    - intros Hs. destruct (C41_only _ _ _ _ _ _ _ _ Hc Hd Hb Hs) as (s' & Hs' & _ & Hg). now rewrite (pin_name _ _ _ _ Hd Hi Hs'). }
  assert (Hback : forall k t1, nth_error ts k = Some t1 -> exists a t, nth_error l k = Some (a, t)).
  { intros k t1 N. destruct (nth_error l k) as [[a t]|] eqn:E; [eauto|]. apply nth_error_None in E. assert (nth_error ts k = None) by (apply nth_error_None; lia). congruence. }
  split.
  - rewrite U. split.
    + intros [_ Ha] t1 pl Ht Hs. apply In_nth_error in Ht. destruct Ht as [k N]. destruct (Hback _ _ N) as (a & t & N1).
      apply (Ha a t pl (nth_error_In _ _ N1)). eapply Hgo; eauto.
    + intros Ha. split; [exact Hin|]. intros a t pl Ht Hg. apply In_nth_error in Ht. destruct Ht as [k N]. destruct (Hnth _ _ _ N) as (t1 & _ & _ & N1 & _).
      apply (Ha t1 pl (nth_error_In _ _ N1)). eapply Hgo; eauto.
  - rewrite M. split.
    + intros [_ (k1 & k2 & [a1 x1] & [a2 x2] & p1 & p2 & Hk & N1 & N2 & G1 & G2)]. destruct (Hnth _ _ _ N1) as (t1 & _ & _ & M1 & _), (Hnth _ _ _ N2) as (t2 & _ & _ & M2 & _).
      exists k1, k2, t1, t2, p1, p2. repeat split; auto; [eapply (Hgo k1)|eapply (Hgo k2)]; eauto.
    + intros (k1 & k2 & t1 & t2 & p1 & p2 & Hk & M1 & M2 & G1 & G2). split; [exact Hin|].
      destruct (Hback _ _ M1) as (a1 & x1 & N1), (Hback _ _ M2) as (a2 & x2 & N2). exists k1, k2, (a1, x1), (a2, x2), p1, p2.
      repeat split; auto; cbn [snd]; [eapply (Hgo k1)|eapply (Hgo k2)]; eauto.
Qed.
Print Assumptions C45_partial.
Example C45_ex : exists ts st1, bind_all [(true, fresh plainb); (false, fresh plainb)] dut1 st0 = Ok (ts, st1) /\
  detect_unconnected dut1 st1 = ["io_data_1"; "io_vx"; "other"] /\ detect_multiple dut1 st1 = ["io_a"; "io_req_valid"].
Proof. run. Qed.

(** C46 is false: elements of signal lists and bundle lists are not released, so binding twice to the same DUT counts them
    twice; a declared signal without pin makes the second bind raise. *)
Definition listb : bundle := B "" (MPrefix "") [el "data" 0 "d0"] ["data"] [] [] None.
Definition vlistb : bundle := B "" (MPrefix "") [] [] [(PElem "vec" 0, vecb)] ["vec"] None.
Theorem C46_refuted :
  (created (fresh listb) /\ exists t1 st1, bind true (fresh listb) (mk_dut 0 [("d0", 0)]) st0 = Ok (t1, st1) /\ nconn st1 0 = 1 /\
     exists t2 st2, bind true t1 (mk_dut 0 [("d0", 0)]) st1 = Ok (t2, st2) /\ nconn st2 0 = 2) /\
  (created (fresh vlistb) /\ exists t1 st1, bind true (fresh vlistb) (mk_dut 0 [("vx", 0)]) st0 = Ok (t1, st1) /\ nconn st1 0 = 1 /\
     exists t2 st2, bind true t1 (mk_dut 0 [("vx", 0)]) st1 = Ok (t2, st2) /\ nconn st2 0 = 2) /\
  (created (fresh plainb) /\ exists t1 st1, bind false (fresh plainb) dut2 st0 = Ok (t1, st1) /\ bind false t1 dut2 st1 = Exn AttributeError).
Proof.
  split; [|split]; (split; [|apply runs]).
  - split; [reflexivity|split; unfold fresh, listb, el; cbn [t_b]]; tree.
  - vm_compute. split; [reflexivity|]. eexists _, _. repeat split.
  - split; [reflexivity|split; unfold fresh, vlistb, vecb, sig; cbn [t_b]]; tree.
  - vm_compute. split; [reflexivity|]. eexists _, _. repeat split.
  - exact plainb_ok.
  - vm_compute. reflexivity.
Qed.
Print Assumptions C46_refuted.

(** C46, what holds: without lists, with dict rules in which no key is a value, no two pins for one signal and the default
    access, both binds succeed and afterwards every signal and every count is as after the second bind alone. *)
Theorem C46_partial : forall t d1 d2 st, created t -> no_lists (t_b t) -> plain_dicts (t_b t) -> dut_ok d1 -> dut_ok d2 ->
  one_pin_each (t_b t) d1 -> one_pin_each (t_b t) d2 ->
  exists t1 st1 t2 st2 t3 st3,
    bind true t d1 st = Ok (t1, st1) /\ bind true t1 d2 st1 = Ok (t2, st2) /\ bind true t d2 st = Ok (t3, st3) /\
    (forall pl, slot_at (t_b t2) pl = slot_at (t_b t3) pl) /\ (forall i, nconn st2 i = nconn st3 i).
Proof. exact rebind_lemma. Qed.
Print Assumptions C46_partial.
(** C46: trees with prefix rules only satisfy the conditions on the rules. *)
Theorem C46_prefix_partial : forall t d1 d2 st, created t -> no_lists (t_b t) -> prefix_only (t_b t) -> dut_ok d1 -> dut_ok d2 ->
  exists t1 st1 t2 st2 t3 st3,
    bind true t d1 st = Ok (t1, st1) /\ bind true t1 d2 st1 = Ok (t2, st2) /\ bind true t d2 st = Ok (t3, st3) /\
    (forall pl, slot_at (t_b t2) pl = slot_at (t_b t3) pl) /\ (forall i, nconn st2 i = nconn st3 i).
Proof.
  intros t d1 d2 st Hc Hn Hp H1 H2. assert (Hw : wf (t_b t)) by apply Hc. apply rebind_lemma; auto; [now apply prefix_plain|now apply prefix_one_each|now apply prefix_one_each].
Qed.
Print Assumptions C46_prefix_partial.
Example C46_ex : created (fresh plainb) /\ no_lists plainb /\ prefix_only plainb /\ exists t1 st1,
  bind true (fresh plainb) dut1 st0 = Ok (t1, st1) /\ nconn st1 0 = 1 /\ exists t2 st2, bind true t1 dut2 st1 = Ok (t2, st2) /\
  nconn st2 0 = 0 /\ nconn st2 11 = 1 /\ slot_at (t_b t2) ([PSub "req"], LSig "valid") = Some SDummy.
Proof.
  split; [exact plainb_ok|]. split.
  { unfold plainb, reqb, sig. constructor; intros; in_cases; subst; try (injection H as <- <-); try (eexists; reflexivity).
    constructor; intros; in_cases; subst; eexists; reflexivity. }
  split; [unfold plainb, reqb; tree|]. apply runs. vm_compute. split; [reflexivity|]. eexists _, _. repeat split.
Qed.

(** C47 is false: after rebinding to a DUT with another clock the old clock is kept; a bundle whose connected signals are
    all in a bundle list has no clock. *)
Definition st_two : store := fun i => pin0 (if Nat.ltb i 10 then 7 else 8).
Theorem C47_refuted :
  (created (fresh plainb) /\ (forall s i, In (s, i) (d_pins dut1) -> p_clk (st_two i) = 7) /\ (forall s i, In (s, i) (d_pins dut2) -> p_clk (st_two i) = 8) /\
   exists t1 st1, bind true (fresh plainb) dut1 st_two = Ok (t1, st1) /\ step_clock t1 = Some 7 /\
     exists t2 st2, bind true t1 dut2 st1 = Ok (t2, st2) /\ slot_at (t_b t2) ([], LSig "a") = Some (SPin 10) /\ step_clock t2 = Some 7) /\
  (created (fresh vlistb) /\ exists t1 st1, bind true (fresh vlistb) (mk_dut 0 [("vx", 0)]) st0 = Ok (t1, st1) /\
     slot_at (t_b t1) ([PElem "vec" 0], LSig "x") = Some (SPin 0) /\ step_clock t1 = None).
Proof.
  split.
  - split; [exact plainb_ok|]. split; [|split]; [intros s i H; cbn in H; in_cases; injection H as <- <-; reflexivity..|].
    apply runs. vm_compute. split; [reflexivity|]. eexists _, _. repeat split.
  - split; [split; [reflexivity|split; unfold fresh, vlistb, vecb, sig; cbn [t_b]]; tree|]. run.
Qed.
Print Assumptions C47_refuted.

(** C47, what holds: on the first bind, if all pins of the DUT have clock c and some signal outside of bundle lists is connected,
    step waits for c; and it never waits for anything but c. *)
Theorem C47_partial : forall acc t d st t1 st1 c, created t -> dut_ok d -> (forall s i, In (s, i) (d_pins d) -> p_clk (st i) = c) ->
  bind acc t d st = Ok (t1, st1) ->
  (step_clock t1 = None \/ step_clock t1 = Some c) /\
  (forall p l i, slot_at (t_b t1) (p, l) = Some (SPin i) -> off_lists p -> step_clock t1 = Some c).
Proof.
  intros acc t d st t1 st1 c Hc Hd Hk H. assert (Honly := fun pl i => C41_only _ _ _ _ _ _ pl i Hc Hd H). destruct Hc as (Hb & Hu & Hw).
  destruct (bind_fresh _ _ _ _ _ _ Hb H) as (b1 & s0 & rest & Hbb & -> & ->). unfold step_clock. cbn [t_b] in *.
  assert (Ho : NoDup (map e_org (entries d))) by (rewrite entries_orgs; apply Hd).
  destruct (bind_clk _ c _ (wf_name_kids _ Hw) (unbound_name_kids _ Hu) _ _ _ _ _ _ Ho (fun e He => Hk _ _ (proj2 (proj1 (In_entries _ _) He))) Hbb) as [H1 H2]. split.
  - exact H1.
  - intros p l i Hs Hoff. destruct (Honly _ _ Hs) as (s & Hi & _ & Hg). apply (H2 (mk_entry s s i) p l); [apply In_entries; auto| |exact Hoff].
    rewrite route_name_kids. now apply route_goes_to.
Qed.
Print Assumptions C47_partial.
Example C47_ex : exists t1 st1, bind true (fresh treeb) dut1 st0 = Ok (t1, st1) /\ slot_at (t_b t1) ([PSub "req"], LSig "valid") = Some (SPin 2) /\
  off_lists [PSub "req"] /\ step_clock t1 = Some 7.
Proof. apply runs. vm_compute. repeat split. intros s [<-|[]]. eauto. Qed.

(** C57: all_signals yields every signal exactly once, each with its own dotted path. *)
Theorem C57_signals : forall b, wf b -> idents b ->
  NoDup (map fst (all_signals b "")) /\
  (forall n s, In (n, s) (all_signals b "") <-> exists p l, slot_at b (p, l) = Some s /\ n = dotted p l) /\
  (forall p l p' l', slot_at b (p, l) <> None -> slot_at b (p', l') <> None -> dotted p l = dotted p' l' -> (p, l) = (p', l')).
Proof.
  intros b Hw Hid. split; [now apply texts_distinct|]. split.
  - intros n s. rewrite (all_signals_places b Hw Hid), in_map_iff. split.
    + intros ([p l] & E & Hi). cbn [fst snd under] in E. apply place_slot in Hi; [|exact Hw]. destruct (slot_at b (p, l)) as [s'|] eqn:Es; [|contradiction].
      injection E as <- <-. eauto.
    + intros (p & l & Hs & ->). exists (p, l). rewrite Hs. split; [reflexivity|]. apply place_slot; [exact Hw|congruence].
  - intros p l p' l' H H' E. apply place_slot in H, H'; auto. destruct (places_idents b Hid _ _ H) as [A1 A2], (places_idents b Hid _ _ H') as [B1 B2].
    destruct (dotted_inj p p' l l' A1 B1 A2 B2 E) as [-> ->]. reflexivity.
Qed.
Print Assumptions C57_signals.

(** C57: for prefix-only trees the rule of every signal is the text of all prefixes on the way followed by its name, under
    distinct keys. *)
Theorem C57_rules : forall b, wf b -> idents b -> prefix_only b -> exists rs, all_signals_rule b = Ok rs /\ NoDup (map fst rs) /\
  (forall k r, In (k, r) rs <-> exists p l, full_name b p l = Some r /\ k = under (b_name b) (dotted p l)) /\
  (forall p l, full_name b p l <> None <-> slot_at b (p, l) <> None).
Proof.
  intros b Hw Hid Hp. unfold all_signals_rule. rewrite (rules_places b Hw Hid Hp [] (b_name b)) by (intros x []). eexists. split; [reflexivity|].
  assert (Hiff : forall p l, full_name b p l <> None <-> slot_at b (p, l) <> None).
  { intros p l. rewrite <- place_slot by exact Hw. split.
    - intros H. destruct (full_name b p l) as [r|] eqn:E; [|contradiction]. apply accepts_full in E; [|exact Hp]. eapply accepts_place; exact E.
    - intros H. destruct (full_name_place b Hw Hp p l H) as [r ->]. discriminate. }
  split; [|split; [|exact Hiff]].
  - rewrite map_map. cbn [fst]. apply map_NoDup; [|now apply wf_places]. intros [p l] [p' l'] H H' E. cbn [fst snd] in E. apply under_inj in E.
    destruct (places_idents b Hid _ _ H) as [A1 A2], (places_idents b Hid _ _ H') as [B1 B2]. destruct (dotted_inj p p' l l' A1 B1 A2 B2 E) as [-> ->]. reflexivity.
  - intros k r. rewrite in_map_iff. cbn [stack_text append]. split.
    + intros ([p l] & E & Hi). cbn [fst snd] in E. destruct (full_name_place b Hw Hp p l Hi) as [r' Hr]. rewrite Hr in E. injection E as <- <-. eauto.
    + intros (p & l & Hr & ->). exists (p, l). cbn [fst snd]. rewrite Hr. split; [reflexivity|]. apply place_slot; [exact Hw|]. apply Hiff. congruence.
Qed.
Print Assumptions C57_rules.

(** C57: a pin whose name is the rule of a signal goes to this signal unless an earlier signal accepts it, and with prefix rules
    it is the only name that can go there. *)
Theorem C57_describes : forall b p l s, wf b -> prefix_only b -> full_name b p l = Some s ->
  (goes_to b s (p, l) \/ exists l1 l2 q, places b = l1 ++ (p, l) :: l2 /\ In q l1 /\ full_name b (fst q) (snd q) = Some s) /\
  (forall s', goes_to b s' (p, l) -> s' = s).
Proof.
  intros b p l s Hw Hp Hf. assert (Ha : accepts b p l s) by now apply accepts_full. split.
  - destruct (accepted_goes _ _ _ _ Hw Ha) as [[q ql] Hg]. destruct Hg as (l1 & l2 & Hpl & Hq & Hno).
    assert (Hin := accepts_place _ _ _ _ Ha). rewrite Hpl in Hin. apply in_app_iff in Hin. destruct Hin as [Hin|[E|Hin]].
    + exfalso. apply (Hno _ Hin). exact Ha.
    + left. exists l1, l2. rewrite <- E in *. auto.
    + right. apply in_split in Hin. destruct Hin as (m1 & m2 & ->). exists (l1 ++ (q, ql) :: m1), m2, (q, ql). split.
      * rewrite Hpl, <- app_assoc. reflexivity.
      * split; [apply in_app_iff; right; now left|]. apply accepts_full in Hq; auto.
  - intros s' Hg. apply goes_accepts in Hg. apply accepts_full in Hg; [|exact Hp]. cbn [fst snd] in Hg. congruence.
Qed.
Print Assumptions C57_describes.
Example C57_ex : map fst (all_signals treeb "") = ["a"; "data[0]"; "data[1]"; "req.valid"; "req.ready"; "vec[0].x"] /\
  all_signals_rule plainb = Ok [("top.a", "io_a"); ("top.req.valid", "io_req_valid"); ("top.req.ready", "io_req_ready")] /\
  full_name plainb [PSub "req"] (LSig "ready") = Some "io_req_ready".
Proof. repeat split. Qed.
Example C57_ex2 : idents treeb.
Proof. unfold treeb, reqb, vecb, sig, el. repeat (tree; unfold leafid_ok, seg_ok, ident; cbn -[no_char]; repeat split; try discriminate; cbn; repeat split; try discriminate). Qed.

(** C63: set_write_mode sets the mode of every connected pin that is not an output, and changes nothing else. *)
Theorem C63_exact : forall w t st t' st', wf (t_b t) -> set_write_mode w t st = (t', st') ->
  t_b t' = t_b t /\ t_mode t' = Some w /\
  forall i, ((exists pl, slot_at (t_b t) pl = Some (SPin i)) -> p_out (st i) = false -> st' i = set_mode (st i) w) /\
            ((forall pl, slot_at (t_b t) pl <> Some (SPin i)) \/ p_out (st i) = true -> st' i = st i).
Proof.
  intros w t st t' st' Hw [= <- <-]. split; [reflexivity|split; [reflexivity|]]. intros i. rewrite set_modes_spec.
  assert (He : existsb (fun x => match snd x with SPin j => Nat.eqb j i | _ => false end) (all_signals (t_b t) "") = true <-> exists pl, slot_at (t_b t) pl = Some (SPin i)).
  { rewrite existsb_exists. split.
    - intros ([n s] & Hi & E). cbn [snd] in E. destruct s as [| | |j]; try discriminate. apply Nat.eqb_eq in E. subst j.
      apply (in_all_signals (t_b t) Hw ""). change (SPin i) with (snd (n, SPin i)). now apply in_map.
    - intros H. apply (in_all_signals (t_b t) Hw "") in H. apply in_map_iff in H. destruct H as [x [E Hi]]. exists x. split; [exact Hi|]. rewrite E. apply Nat.eqb_refl. }
  split.
  - intros H Ho. apply He in H. now rewrite H, Ho.
  - intros [H|Ho]; [|now rewrite Ho, andb_false_r]. destruct (existsb _ _); [|reflexivity]. destruct (proj1 He eq_refl) as [pl Hs]. exfalso. exact (H _ Hs).
Qed.
Print Assumptions C63_exact.

(** C63: a mode set before bind is given to the pins that bind connects (unless outputs), and to no other. *)
Theorem C63_at_bind : forall acc t d st t1 st1 w, created t -> dut_ok d -> t_mode t = Some w -> bind acc t d st = Ok (t1, st1) ->
  t_mode t1 = Some w /\
  forall i, ((exists pl, slot_at (t_b t1) pl = Some (SPin i)) -> p_out (st i) = false -> p_mode (st1 i) = w) /\
            ((forall pl, slot_at (t_b t1) pl <> Some (SPin i)) \/ p_out (st i) = true -> p_mode (st1 i) = p_mode (st i)) /\
            p_val (st1 i) = p_val (st i).
Proof.
  intros acc t d st t1 st1 w Hc Hd Hm H. destruct Hc as (Hb & Hu & Hw).
  destruct (bind_fresh _ _ _ _ _ _ Hb H) as (b1 & s0 & rest & Hbb & -> & ->). rewrite Hm. cbn [t_b t_mode]. split; [reflexivity|].
  assert (Ho : NoDup (map e_org (entries d))) by (rewrite entries_orgs; apply Hd).
  assert (Hw1 : wf b1). { apply erase_wf. rewrite (bind_erase _ _ (wf_name_kids _ Hw) _ _ _ _ _ _ Hbb). apply erase_wf. now apply wf_name_kids. }
  intros i. destruct (bind_count _ _ (wf_name_kids _ Hw) _ _ _ _ _ _ Ho Hbb i) as [_ (Hv & Hout & _ & Hmode & _)].
  destruct (C63_exact w (mk_top b1 true None []) s0 _ _ Hw1 eq_refl) as (_ & _ & Hx). cbn [t_b] in Hx. destruct (Hx i) as [H1 H2]. split; [|split].
  - intros Hs Hi. rewrite H1; [reflexivity|exact Hs|congruence].
  - intros Hs. rewrite H2; [exact Hmode|]. rewrite Hout. exact Hs.
  - rewrite set_modes_spec, <- Hv. destruct (_ && _); reflexivity.
Qed.
Print Assumptions C63_at_bind.
Example C63_ex : let t := fst (set_write_mode Fall (fresh treeb) st0) in let st := upd st0 2 (mk_pin 0 true 8 None Imme 7) in
  exists t1 st1, bind true t dut1 st = Ok (t1, st1) /\ map (fun i => p_mode (st1 i)) [0; 1; 2; 3; 4] = [Fall; Fall; Imme; Fall; Imme].
Proof. intros t st. run. Qed.

(** C69 is false: the texts made for missing signals can raise when a dict rule exchanges names. *)
Definition swapb : bundle := B "" (MDict [("a", "b"); ("b", "a")]) [sig "a"; sig "b"] [] [] [] None.
Theorem C69_refuted : exists d, dut_ok d /\ created (fresh swapb) /\ bind true (fresh swapb) d st0 = Exn TypeError.
Proof.
  exists (mk_dut 0 []). split; [split; constructor|]. split; [|reflexivity]. split; [reflexivity|split; unfold fresh, swapb, sig; cbn [t_b]]; tree.
Qed.
Print Assumptions C69_refuted.
(** C69, what holds: no exception if in no dict rule a key is also a value. *)
Theorem C69_partial : forall acc t d st, created t -> plain_dicts (t_b t) -> exists t1 st1, bind acc t d st = Ok (t1, st1) /\ t_bound t1 = true.
Proof.
  intros acc t d st (Hb & _ & _) Hp. destruct (bind_ok acc _ (plain_name_kids _ Hp) [] (entries d) st (fun x (F : In x []) => match F with end)) as (b1 & s1 & r & E).
  unfold bind. rewrite Hb. cbn [rbind]. rewrite E. cbn [rbind]. eauto.
Qed.
Print Assumptions C69_partial.
Example C69_ex : plain_dicts (B "" (MDict [("a", "x"); ("b", "y")]) [sig "a"; sig "b"] [] [(PSub "r", reqb)] [] None).
Proof. unfold reqb, sig. constructor; [|tree]. intros d [= <-] k v k' v' H H'. cbn in H, H'. in_cases; injection H as <- <-; injection H' as <- <-; discriminate. Qed.
