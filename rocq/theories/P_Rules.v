(** C93: the rules of the signals of bundles made from a dictionary. *)
From Coq Require Import List String Ascii Bool Arith ZArith Lia.
From Verif Require Import Py Bundle_Model Bundle_Spec Rules_Spec Bundle_Proofs Bundle2_Proofs Bundle3_Proofs Bundle4_Proofs P_Bundle.
Import ListNotations.
Open Scope string_scope.
Open Scope list_scope.

Lemma filter_lookup b d : b_meth b = MDict d -> (forall k v k' v', In (k, v) d -> In (k', v') d -> k <> v') ->
  forall target d', incl d' d -> NoDup (map fst d') ->
  (forall v, In (target, v) d' -> filter_dict b d' target = Ok [v]) /\ ((forall v, ~ In (target, v) d') -> filter_dict b d' target = Ok []).
Proof.
  intros Hm Hd target. destruct b as [nm m ls sls ks bls ck]. cbn [b_meth] in Hm. subst m.
  induction d' as [|[k v] t IH]; intros Hi Hn; [split; [intros v []|reflexivity]|].
  cbn [map fst] in Hn. apply NoDup_cons_iff in Hn as [Hk Hn]. destruct (IH (fun x Hx => Hi x (or_intror Hx)) Hn) as [I1 I2]. clear IH.
  assert (E : forall v0, In (target, v0) ((k, v) :: t) <-> (k = target /\ v = v0) \/ In (target, v0) t) by (intros v0; simpl; split; intros [H|H]; auto; [injection H as -> ->; auto|destruct H as [-> ->]; auto]).
  cbn [filter_dict]. unfold detect_specific. cbn [dspec translate].
  rewrite key_of_None by (intros k' v' H' ->; apply (Hd k v k' k); [apply Hi; now left|exact H'|reflexivity]).
  unfold append_level. rewrite String.eqb_refl. destruct (String.eqb_spec k target) as [->|Nk]; cbn [rbind].
  - assert (Z : forall v0, ~ In (target, v0) t) by (intros v0 H; apply Hk; apply in_map_iff; exists (target, v0); auto). rewrite (I2 Z). cbn [rbind]. split.
    + intros v0 H. apply E in H as [[_ ->]|H]; [reflexivity|exfalso; now apply (Z v0)].
    + intros H. exfalso. apply (H v). now left.
  - split.
    + intros v0 H. apply E in H as [[H _]|H]; [contradiction|]. rewrite (I1 v0 H). reflexivity.
    + intros H. rewrite I2 by (intros v0 H0; apply (H v0); now right). reflexivity.
Qed.

Lemma here_in stack level ls : forall rs, rules_here stack level ls = Ok rs -> forall x, In x ls -> exists r, rule_string stack (l_name x) = Ok r /\ In (append_level level (leaf_label (l_id x)), r) rs.
Proof.
  induction ls as [|y t IH]; intros rs H x Hx; [destruct Hx|]. cbn [rules_here] in H. destruct (rule_string stack (l_name y)) as [r|] eqn:E; [|discriminate]. cbn [rbind] in H.
  destruct (rules_here stack level t) as [rs'|] eqn:E2; [|discriminate]. cbn [rbind] in H. injection H as <-. destruct Hx as [->|Hx]; [exists r; split; [auto|now left]|].
  destruct (IH rs' eq_refl x Hx) as (r' & A & B). exists r'. split; [auto|now right].
Qed.
Lemma kids_in stack level ks : forall rs, rules_kids stack level ks = Ok rs -> forall s c, In (s, c) ks -> exists r, rules_b stack c (append_level level (seg_label s)) = Ok r /\ incl r rs.
Proof.
  induction ks as [|[s' c'] t IH]; intros rs H s c Hx; [destruct Hx|]. cbn [rules_kids] in H. fold (rules_kids stack level) in H. destruct (rules_b stack c' (append_level level (seg_label s'))) as [r|] eqn:E; [|discriminate]. cbn [rbind] in H.
  destruct (rules_kids stack level t) as [rs'|] eqn:E2; [|discriminate]. cbn [rbind] in H. injection H as <-. destruct Hx as [Hx|Hx]; [injection Hx as -> ->; exists r; split; [auto|now apply incl_appl, incl_refl]|].
  destruct (IH rs' eq_refl s c Hx) as (r' & A & B). exists r'. split; [auto|now apply incl_appr].
Qed.

(** The rule of every signal at or below [e], which is reached from [c] under the bundles [stack]. *)
Lemma rules_down c p ns e : leads c p ns e -> idents c -> forall stack level rs, rules_b stack c level = Ok rs -> forall x, In x (b_leaves e) ->
  exists below r, map b_name below = ns /\ rule_string (stack ++ c :: below) (l_name x) = Ok r /\ In (under level (dotted p (l_id x)), r) rs.
Proof.
  induction 1 as [b|b s c p ns e Hk D IH]; intros Hid stack level rs H x Hx.
  - destruct b as [nm m ls sls ks bls ck]. rewrite rules_B in H. cbv zeta in H. destruct (rules_here _ level ls) as [r1|] eqn:E1; [|discriminate]. cbn [rbind] in H.
    destruct (rules_kids _ level ks) as [r2|] eqn:E2; [|discriminate]. cbn [rbind] in H. injection H as <-. destruct (here_in _ _ _ _ E1 x Hx) as (r & A & B).
    exists [], r. split; [reflexivity|]. split; [exact A|]. apply in_app_iff. now left.
  - destruct b as [nm m ls sls ks bls ck]. cbn [b_kids] in Hk. inversion Hid as [? ? ? ? ? ? ? Hil Hik]; subst. rewrite rules_B in H. cbv zeta in H. destruct (rules_here _ level ls) as [r1|] eqn:E1; [|discriminate]. cbn [rbind] in H.
    destruct (rules_kids _ level ks) as [r2|] eqn:E2; [|discriminate]. cbn [rbind] in H. injection H as <-. destruct (kids_in _ _ _ _ E2 s c Hk) as (r & A & B).
    destruct (Hik s c Hk) as [Hseg Hidc]. destruct (IH Hidc _ _ _ A x Hx) as (below & r' & N & R & I). exists (c :: below), r'. split; [cbn [map]; now rewrite N|]. split.
    + rewrite <- app_assoc in R. exact R.
    + apply in_app_iff. right. apply B. rewrite under_deeper in I by now apply seg_label_ne. exact I.
Qed.
Lemma stack_path_names below sg : stack_path below sg = path (map b_name below) sg.
Proof.
  unfold path. induction below as [|b t IH]; [reflexivity|]. cbn [stack_path map]. rewrite IH. destruct t; reflexivity.
Qed.

(** In a bundle made from a dictionary (no key of which is a pin name) the rule of a signal, at any depth, is the pin name the dictionary
    has under the path of the signal, and says so if there is none. *)
Theorem C93_rules b d rs p ns e x : idents b -> b_meth b = MDict d -> NoDup (map fst d) -> (forall k v k' v', In (k, v) d -> In (k', v') d -> k <> v') ->
  all_signals_rule b = Ok rs -> leads b p ns e -> In x (b_leaves e) ->
  (forall v, In (path ns (l_name x), v) d -> In (under (b_name b) (dotted p (l_id x)), v) rs) /\
  ((forall v, ~ In (path ns (l_name x), v) d) -> In (under (b_name b) (dotted p (l_id x)), no_match) rs).
Proof.
  intros Hid Hm Hn Hd H D Hx. destruct (rules_down b p ns e D Hid [] (b_name b) rs H x Hx) as (below & r & N & R & I). cbn [app rule_string] in R. rewrite Hm, stack_path_names, N in R.
  destruct (filter_lookup b d Hm Hd (path ns (l_name x)) d (incl_refl _) Hn) as [F1 F2]. split.
  - intros v Hv. rewrite (F1 v Hv) in R. cbn [rbind dict_string] in R. injection R as <-. exact I.
  - intros Hv. rewrite (F2 Hv) in R. cbn [rbind dict_string] in R. injection R as <-. exact I.
Qed.
Print Assumptions C93_rules.

(** For the signals of the bundle itself the rule is right: the pin with this name goes to the signal.  Missing: the signals of its
    sub-bundles, for which it is false (see the refutation). *)
Theorem C93_describes_partial b d x v : wf b -> b_meth b = MDict d -> NoDup (map snd d) -> In x (b_leaves b) -> In (l_name x, v) d -> goes_to b v ([], l_id x).
Proof.
  intros Hw Hm Hn Hx Hv. destruct b as [nm m ls sls ks bls ck]. cbn [b_meth b_leaves] in *. subst m. inversion Hw as [? ? ? ? ? ? ? Hni Hnn Hnk Hwk]; subst.
  destruct (in_split _ _ Hx) as (a & c & E). 
  assert (U : forall n, renames (MDict d) v n -> n = l_name x).
  { intros n R. cbn [renames] in R. clear - R Hv Hn. destruct R as (d1 & d2 & E & Hd1). revert d1 E Hd1. 
    assert (G : forall d, NoDup (map snd d) -> In (l_name x, v) d -> In (n, v) d -> n = l_name x).
    { clear. induction d as [|[k w] t IH]; intros N H1 H2; [destruct H1|]. cbn [map snd] in N. apply NoDup_cons_iff in N as [N1 N2].
      destruct H1 as [H1|H1], H2 as [H2|H2]; [congruence|injection H1 as -> ->; exfalso; apply N1; apply in_map_iff; exists (n, v); auto|injection H2 as -> ->; exfalso; apply N1; apply in_map_iff; exists (l_name x, v); auto|auto]. }
    intros d1 E _. apply (G d); auto. rewrite E. apply in_app_iff. right. now left. }
  assert (A : accepts (B nm (MDict d) ls sls ks bls ck) [] (l_id x) v).
  { cbn [accepts b_meth b_leaves]. exists (l_name x). split; [|exists x; split; [now apply leaf_in_In|reflexivity]].
    cbn [renames]. destruct (in_split _ _ Hv) as (d1 & d2 & Ed). exists d1, d2. split; [auto|]. intros k' H. rewrite Ed in Hn. rewrite map_app in Hn. cbn [map snd] in Hn. apply NoDup_remove_2 in Hn. apply Hn. apply in_app_iff. left. apply in_map_iff. exists (k', v). auto. }
  exists (map (fun y => ([], l_id y)) a), (map (fun y => ([], l_id y)) c ++ places_kids ks). split; [rewrite places_B, E, map_app; cbn [map]; rewrite <- app_assoc; reflexivity|]. split; [exact A|].
  intros q Hq. apply in_map_iff in Hq as (y & <- & Hy). cbn [fst snd accepts b_meth b_leaves]. intros (n & R & z & Hz & En). apply U in R. subst n.
  assert (Hyl : In y ls) by (rewrite E; apply in_app_iff; now left). rewrite (leaf_in_In _ _ Hni Hyl) in Hz. injection Hz as <-. rewrite E, map_app in Hnn. cbn [map] in Hnn. apply NoDup_remove_2 in Hnn. apply Hnn. apply in_app_iff. left. rewrite <- En. now apply in_map.
Qed.
Print Assumptions C93_describes_partial.

(** For the signals of sub-bundles it is not: the dictionary has the names the sub-bundle expects ("req_valid"), the rule looks for the path
    ("req.valid").  A bound bundle all of whose signals are connected is said to match nothing. *)
Definition dictb : bundle := B "top" (MDict [("a", "pin_a"); ("req_valid", "pin_v"); ("req_ready", "pin_r")]) [sig "a"] [] [(PSub "req", reqb)] [] None.
Definition dut3 : dut := mk_dut 0 [("pin_a", 0); ("pin_v", 1); ("pin_r", 2)].
Theorem C93_refuted : exists t1 st1, created (fresh dictb) /\ bind true (fresh dictb) dut3 st0 = Ok (t1, st1) /\
  slot_at (t_b t1) ([PSub "req"], LSig "valid") = Some (SPin 1) /\
  all_signals_rule (t_b t1) = Ok [("top.a", "pin_a"); ("top.req.valid", no_match); ("top.req.ready", no_match)].
Proof.
  assert (C : created (fresh dictb)) by (split; [reflexivity|split; unfold fresh, dictb, reqb, sig; cbn [t_b]]; tree).
  destruct (bind true (fresh dictb) dut3 st0) as [[t1 st1]|] eqn:E; [|vm_compute in E; discriminate]. exists t1, st1. split; [exact C|]. split; [reflexivity|]. vm_compute in E. injection E as <- <-. split; vm_compute; reflexivity.
Qed.
Print Assumptions C93_refuted.
(** The hypotheses of the two theorems above are met, also below: here the sub-bundle takes its names as they are. *)
Definition subb : bundle := B "req" (MPrefix "req.") [sig "valid"; sig "ready"] [] [] [] None.
Definition dictb2 : bundle := B "top" (MDict [("a", "pin_a"); ("req.valid", "pin_v")]) [sig "a"] [] [(PSub "req", subb)] [] None.
Example C93_ex : wf dictb2 /\ idents dictb2 /\ NoDup (map fst [("a", "pin_a"); ("req.valid", "pin_v")]) /\ NoDup (map snd [("a", "pin_a"); ("req.valid", "pin_v")]) /\
  leads dictb2 [PSub "req"] ["req"] subb /\ path ["req"] "valid" = "req.valid" /\
  all_signals_rule dictb2 = Ok [("top.a", "pin_a"); ("top.req.valid", "pin_v"); ("top.req.ready", no_match)].
Proof.
  split; [unfold dictb2, subb, sig; tree|]. split; [unfold dictb2, subb, sig; repeat (tree; unfold leafid_ok, seg_ok, ident; cbn -[no_char]; repeat split; try discriminate; cbn; repeat split; try discriminate)|].
  split; [cbn [map fst]; nodup|]. split; [cbn [map snd]; nodup|]. split; [apply (dn_kid dictb2 (PSub "req") subb [] []); [now left|constructor]|]. split; vm_compute; reflexivity.
Qed.
