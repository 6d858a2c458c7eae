(** C103: a bind that raises. *)
From Coq Require Import List String Bool Arith Lia ZArith.
From Verif Require Import Py Bundle_Model Bundle_Spec Bundle_Proofs Bundle2_Proofs BindX_Model BindX_Proofs Make_Model P_Bundle.
Import ListNotations.
Open Scope string_scope.
Open Scope list_scope.
Open Scope nat_scope.

(** The two models of bind agree: the same result, the same exception. *)
Theorem C103_agrees acc t d st : bind acc t d st = match bind_x acc t d st with (t1, st1, Ok _) => Ok (t1, st1) | (_, _, Exn x) => Exn x end.
Proof.
  unfold bind, bind_x. destruct (t_bound t).
  - rewrite unbind_agree. destruct (unbind_bx (t_b t) st) as [[b0 s0] [u|x]]; cbn [rbind]; [|reflexivity]. rewrite bind_agree. destruct (bind_bx acc [] b0 (entries d) s0) as [[b1 s1] [r|x]]; reflexivity.
  - cbn [rbind]. rewrite bind_agree. destruct (bind_bx acc [] (name_kids (t_b t)) (entries d) st) as [[b1 s1] [r|x]]; reflexivity.
Qed.
Print Assumptions C103_agrees.

(** What holds when the bind of a bundle that is not bound raises: it is still not bound, its write mode and the registered callbacks are unchanged, and so are values, modes, directions, widths and clock
    of all pins.  The connections made before the exception stay: a signal that holds a pin it did not hold before holds one whose name goes there, and this pin has been counted, once.  No pin is counted
    twice, and pins of other DUTs are not counted. *)
Theorem C103_kept_partial acc t d st t1 st1 x : t_bound t = false -> wf (t_b t) -> dut_ok d -> bind_x acc t d st = (t1, st1, Exn x) ->
  t_bound t1 = false /\ t_mode t1 = t_mode t /\ t_regs t1 = t_regs t /\
  forall i, same_pin (st1 i) (st i) /\ nconn st i <= nconn st1 i <= S (nconn st i) /\ ((forall s, ~ In (s, i) (d_pins d)) -> nconn st1 i = nconn st i) /\
    forall pl, slot_at (t_b t1) pl = Some (SPin i) -> slot_at (t_b t) pl = Some (SPin i) \/ (nconn st1 i = S (nconn st i) /\ exists s, In (s, i) (d_pins d) /\ goes_to (t_b t) s pl).
Proof.
  intros Hb Hw Hd H. unfold bind_x in H. rewrite Hb in H. destruct (bind_bx acc [] (name_kids (t_b t)) (entries d) st) as [[b1 s1] [r|y]] eqn:E; [discriminate|]. injection H as <- <- _. cbn [t_bound t_mode t_regs t_b].
  split; auto. split; auto. split; auto. intros i. assert (Ho : NoDup (map e_org (entries d))) by (rewrite entries_orgs; apply Hd).
  destruct (half_x acc _ (wf_name_kids _ Hw) _ _ _ _ _ _ Ho E) as [HA HB]. destruct (HA i) as [A1 A2]. pose proof (pinhits_entries d (routed (name_kids (t_b t))) i Hd) as P.
  assert (PB : pinhits i (routed (name_kids (t_b t))) (entries d) <= 1) by (rewrite P; destruct (find _ _) as [e|]; [destruct (routed _ e); cbn; lia|lia]).
  split; [exact A1|]. split; [lia|]. split.
  - intros Hn. rewrite find_entry_none in P by exact Hn. lia.
  - intros pl Hs. destruct (HB _ _ Hs) as [X|[X (e & He & Hr & Hp)]]; [left; now rewrite slot_name_kids in X|right]. split; [lia|]. unfold entries in He. apply in_map_iff in He. destruct He as ([s j] & <- & Hi). cbn [e_name e_pin fst snd] in *. subst j.
    exists s. split; auto. apply route_goes_to; auto. now rewrite route_name_kids in Hr.
Qed.
Print Assumptions C103_kept_partial.

(** The connections of the failed attempt are never taken back: when the rules have been corrected (whatever they are now) and the bundle, which still counts as not bound, is bound to the DUT, a pin that
    both attempts connect is counted twice, and reported as connected more than once. *)
Theorem C103_repeated acc t d st t1 st1 x acc2 t2 t3 st3 s i pl pl2 : t_bound t = false -> wf (t_b t) -> dut_ok d -> bind_x acc t d st = (t1, st1, Exn x) ->
  t_bound t2 = t_bound t1 -> wf (t_b t2) -> bind acc2 t2 d st1 = Ok (t3, st3) ->
  In (s, i) (d_pins d) -> slot_at (t_b t1) pl = Some (SPin i) -> slot_at (t_b t) pl <> Some (SPin i) -> goes_to (t_b t2) s pl2 ->
  nconn st3 i = S (S (nconn st i)) /\ In s (detect_multiple d st3).
Proof.
  intros Hb Hw Hd H Hb2 Hw2 H2 Hi Hs Hs0 Hg. destruct (C103_kept_partial _ _ _ _ _ _ _ Hb Hw Hd H) as (B1 & _ & _ & K). destruct (K i) as (_ & _ & _ & Q). destruct (Q pl Hs) as [X|[X _]]; [contradiction|].
  assert (N : nconn st3 i = S (S (nconn st i))).
  { rewrite (bind_fresh_count _ _ _ _ _ _ i (eq_trans Hb2 B1) Hw2 Hd H2), (find_entry _ _ _ Hd Hi), X. cbn [e_name]. assert (goes (t_b t2) s = true) as -> by (apply goes_iff; eauto). cbn. lia. }
  split; auto. unfold detect_multiple. apply in_map_iff. exists (s, i). split; auto. apply filter_In. split; auto. cbn [snd]. unfold nconn in N. destruct (p_nconn (st3 i)); [apply Nat.ltb_lt; lia|discriminate].
Qed.
Print Assumptions C103_repeated.

(** Not true: after a bind that raised, correcting the rules and binding again gives what binding with the right rules at once would have given.  The dictionary exchanges "a" and "b", so the text made for
    the missing signals raises, after "c" has been connected; with the corrected dictionary the one pin of the DUT is connected to the one signal "c" of the one bundle, but reported as connected more than
    once.  Bound with the corrected dictionary at once, it is not. *)
Definition wrongb : bundle := B "" (MDict [("a", "b"); ("b", "a"); ("c", "p")]) [sig "a"; sig "b"; sig "c"] [] [] [] None.
Definition dutp : dut := mk_dut 0 [("p", 0)].
Definition right_dict : dict string := [("c", "p")].
Definition corrected (t : top) : top := mk_top (fst (with_dict right_dict (t_b t))) (t_bound t) (t_mode t) (t_regs t).
Theorem C103_refuted : dut_ok dutp /\ created (fresh wrongb) /\ exists t1 st1 t3 st3 t4 st4, bind_x true (fresh wrongb) dutp st0 = (t1, st1, Exn TypeError) /\
  bind true (corrected t1) dutp st1 = Ok (t3, st3) /\ detect_multiple dutp st3 = ["p"] /\
  bind true (corrected (fresh wrongb)) dutp st0 = Ok (t4, st4) /\ detect_multiple dutp st4 = [] /\ forall pl, slot_at (t_b t3) pl = slot_at (t_b t4) pl.
Proof.
  split; [split; cbn; nodup|]. split.
  { split; [reflexivity|split; unfold fresh, wrongb, sig; cbn [t_b]]; tree. }
  assert (X : exists t1 st1, bind_x true (fresh wrongb) dutp st0 = (t1, st1, Exn TypeError) /\ t1 = mk_top (B "" (MDict [("a", "b"); ("b", "a"); ("c", "p")]) [sig "a"; sig "b"; mk_leaf (LSig "c") "c" true (SPin 0)] [] [] [] (Some 7)) false None [] /\ st1 = h_st (bind_here (b_meth wrongb) (entries dutp) (b_leaves wrongb) None st0)).
  { eexists. eexists. split; [vm_compute; reflexivity|]. split; reflexivity. }
  destruct X as (t1 & st1 & E & Et & Es). exists t1, st1. subst t1 st1.
  assert (Y : forall (r : res (top * store)) (Q : top -> store -> Prop), match r with Ok (a, c) => Q a c | Exn _ => False end -> exists a c, r = Ok (a, c) /\ Q a c) by (intros [[a c]|] Q; [eauto|intros []]).
  destruct (Y (bind true (corrected (mk_top (B "" (MDict [("a", "b"); ("b", "a"); ("c", "p")]) [sig "a"; sig "b"; mk_leaf (LSig "c") "c" true (SPin 0)] [] [] [] (Some 7)) false None [])) dutp (h_st (bind_here (b_meth wrongb) (entries dutp) (b_leaves wrongb) None st0)))
    (fun a c => detect_multiple dutp c = ["p"] /\ b_leaves (t_b a) = [mk_leaf (LSig "a") "a" true SDummy; mk_leaf (LSig "b") "b" true SDummy; mk_leaf (LSig "c") "c" true (SPin 0)] /\ b_kids (t_b a) = [])) as (t3 & st3 & E3 & D3 & L3 & K3); [vm_compute; auto|].
  destruct (Y (bind true (corrected (fresh wrongb)) dutp st0) (fun a c => detect_multiple dutp c = [] /\ b_leaves (t_b a) = [mk_leaf (LSig "a") "a" true SDummy; mk_leaf (LSig "b") "b" true SDummy; mk_leaf (LSig "c") "c" true (SPin 0)] /\ b_kids (t_b a) = [])) as (t4 & st4 & E4 & D4 & L4 & K4); [vm_compute; auto|].
  exists t3, st3, t4, st4. repeat (split; [assumption|]). intros [[|s p] l]; [rewrite !slot_at_nil, L3, L4; reflexivity|rewrite !slot_at_cons, K3, K4; reflexivity].
Qed.
Print Assumptions C103_refuted.

(** Not true either for bundles that are bound: if rebinding raises because a signal cannot be disconnected (a declared signal that was left unconnected), then the bundle can never be bound again, to any DUT. *)
Theorem C103_stuck acc t d st x : t_bound t = true -> unbind_b (t_b t) st = Exn x ->
  exists t1 st1, bind_x acc t d st = (t1, st1, Exn x) /\ t_bound t1 = true /\ forall acc' d' st', exists x', bind acc' t1 d' st' = Exn x'.
Proof.
  intros Hb Hu. rewrite unbind_agree in Hu. unfold bind_x. rewrite Hb. destruct (unbind_bx (t_b t) st) as [[b1 s1] [u|y]] eqn:E; [discriminate|]. injection Hu as ->. eexists. eexists. split; [reflexivity|]. split; [reflexivity|].
  intros acc' d' st'. unfold bind. cbn [t_bound t_b]. destruct (unbind_stuck _ _ _ _ _ E st') as [x' ->]. cbn [rbind]. eauto.
Qed.
Print Assumptions C103_stuck.
(** Such a bundle: "a" and "b" are declared, the DUT has only "a", and unconnected signals are not replaced.  The failed rebinding has also disconnected "a". *)
Definition twob : bundle := B "" (MPrefix "") [sig "a"; sig "b"] [] [] [] None.
Definition duta : dut := mk_dut 0 [("a", 0)].
Definition onea : top := mk_top (B "" (MPrefix "") [mk_leaf (LSig "a") "a" true (SPin 0); sig "b"] [] [] [] (Some 7)) true None [0].
Theorem C103_stuck_refuted : created (fresh twob) /\ dut_ok duta /\ exists t1 st1 t2 st2, bind false (fresh twob) duta st0 = Ok (t1, st1) /\ slot_at (t_b t1) ([], LSig "a") = Some (SPin 0) /\ unbind_b (t_b t1) st1 = Exn AttributeError /\
  bind_x false t1 duta st1 = (t2, st2, Exn AttributeError) /\ slot_at (t_b t2) ([], LSig "a") = Some SPlaceholder /\ forall acc d st, exists x, bind acc t2 d st = Exn x.
Proof.
  split; [split; [reflexivity|split; unfold fresh, twob, sig; cbn [t_b]]; tree|]. split; [split; cbn; nodup|].
  assert (X : exists t1 st1, bind false (fresh twob) duta st0 = Ok (t1, st1) /\ t1 = onea) by (eexists; eexists; split; [vm_compute; reflexivity|reflexivity]).
  destruct X as (t1 & st1 & E & ->). assert (U : unbind_b (t_b onea) st1 = Exn AttributeError) by reflexivity.
  destruct (C103_stuck false onea duta st1 _ eq_refl U) as (t2 & st2 & E2 & _ & S2). exists onea, st1, t2, st2.
  split; [exact E|]. split; [reflexivity|]. split; [exact U|]. split; [exact E2|]. split; [|exact S2]. unfold bind_x in E2. cbn in E2. injection E2 as <- _. reflexivity.
Qed.
Print Assumptions C103_stuck_refuted.

(** The hypotheses of [C103_repeated] are met by the execution of [C103_refuted]; here with a sub-bundle in which the exception is raised, after the signal above it has been connected. *)
Definition deepb : bundle := B "" (MPrefix "") [sig "v"] [] [(PSub "r", wrongb)] [] None.
Definition dutv : dut := mk_dut 0 [("v", 0); ("p", 1); ("w", 2)].
Example C103_nonvacuous : created (fresh deepb) /\ dut_ok dutv /\ exists t1 st1 t3 st3, bind_x true (fresh deepb) dutv st0 = (t1, st1, Exn TypeError) /\
  slot_at (t_b t1) ([], LSig "v") = Some (SPin 0) /\ slot_at (t_b t1) ([PSub "r"], LSig "c") = Some (SPin 1) /\ slot_at (t_b t1) ([PSub "r"], LSig "a") = Some SPlaceholder /\ map (nconn st1) [0; 1; 2] = [1; 1; 0] /\
  bind true (fresh plainb) dutv st1 = Ok (t3, st3).
Proof.
  split; [split; [reflexivity|split; unfold fresh, deepb, wrongb, sig; cbn [t_b]]; tree|]. split; [split; cbn; nodup|].
  assert (X : exists t1 st1, bind_x true (fresh deepb) dutv st0 = (t1, st1, Exn TypeError) /\ slot_at (t_b t1) ([], LSig "v") = Some (SPin 0) /\ slot_at (t_b t1) ([PSub "r"], LSig "c") = Some (SPin 1) /\ slot_at (t_b t1) ([PSub "r"], LSig "a") = Some SPlaceholder /\ map (nconn st1) [0; 1; 2] = [1; 1; 0]).
  { eexists. eexists. split; [vm_compute; reflexivity|]. repeat split. }
  destruct X as (t1 & st1 & X). destruct (C69_partial true (fresh plainb) dutv st1) as (t3 & st3 & E & _); [apply plainb_ok|unfold plainb, reqb, sig; tree|]. exists t1, st1, t3, st3. tauto.
Qed.
