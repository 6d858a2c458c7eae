(** Property theorems for Env.attach and unattach: C22 - C27. *)
From Coq Require Import List String Bool Arith Lia.
From Verif Require Import Py Env_Model Env_Spec Env_Proofs.
Import ListNotations.
Open Scope string_scope.

(** A concrete env and model used in the examples below. *)
Definition env1 : env := mk_env ["alu"; "bus"; "attach"] [mk_agent "alu" [("add", []); ("sub", [])] [("watch", [])]; mk_agent "bus" [("read", [])] []] [].
Definition env2 : env := mk_env ["alu"; "attach"] [mk_agent "alu" [("sub", [])] []] [].
Definition model1 : model :=
  mk_model 7 [mk_decl 0 "bus" "" [] []; mk_decl 1 "" "" [] ["alu.sub"]] [] [mk_item 2 "alu.add"] [mk_item 3 "alu.sub"] [mk_item 4 "alu.watch"] [].
Definition blank : flags := mk_flags (fun _ => false) (fun i => if Nat.eqb i 1 then [false] else []).
Definition verdict (x : res unit * env * flags) : res unit := fst (fst x).

(** C22: whatever attach answers, the entries of every driver afterwards are the earlier ones with exactly this
    model's entry added at the end (or replaced), and this entry is what the declarations say. *)
Theorem C22_drivers : forall e fl md r e' fl', attach e fl md = (r, e', fl') ->
  (forall a m, driver_of e' a m <-> driver_of e a m) /\
  (forall a m is, driver_entries e a m is -> exists is', driver_entries e' a m is') /\
  (forall a m is', driver_entries e' a m is' -> exists is i, driver_entries e a m is /\
    entry_right md (m_dhooks md) (m_dports md) a m i /\ only_changes is is' (m_id md) i).
Proof.
  intros e fl md r e' fl' H. split; [|split].
  - intros a m. unfold driver_of. destruct (attach_eq _ _ _ _ _ _ H) as [-> _]. split.
    + intros [ag [Hin [<- Hm]]]. apply in_map_iff in Hin. destruct Hin as [ag0 [<- Hin]]. exists ag0. repeat split; auto.
      cbn in Hm. unfold inj_list in Hm. rewrite map_map in Hm. exact Hm.
    + intros [ag [Hin [<- Hm]]]. exists (inj_agent md ag). repeat split; [apply in_map; exact Hin|]. cbn. unfold inj_list. rewrite map_map. exact Hm.
  - intros a m is Hi. eexists. apply (proj1 (entries_after _ _ _ _ _ _ H a m _)). exists is. split; [exact Hi|reflexivity].
  - intros a m is' Hi. apply (proj1 (entries_after _ _ _ _ _ _ H a m is')) in Hi. destruct Hi as [is [Hi ->]].
    exists is, (the_info md (m_dhooks md) (m_dports md) a m). split; [exact Hi|]. split; [apply the_info_right|apply set_info_only].
Qed.
Print Assumptions C22_drivers.

(** C22: likewise for monitors. *)
Theorem C22_monitors : forall e fl md r e' fl', attach e fl md = (r, e', fl') ->
  (forall a m, monitor_of e' a m <-> monitor_of e a m) /\
  (forall a m is, monitor_entries e a m is -> exists is', monitor_entries e' a m is') /\
  (forall a m is', monitor_entries e' a m is' -> exists is i, monitor_entries e a m is /\
    entry_right md (m_mhooks md) (m_mports md) a m i /\ only_changes is is' (m_id md) i).
Proof.
  intros e fl md r e' fl' H. split; [|split].
  - intros a m. unfold monitor_of. destruct (attach_eq _ _ _ _ _ _ H) as [-> _]. split.
    + intros [ag [Hin [<- Hm]]]. apply in_map_iff in Hin. destruct Hin as [ag0 [<- Hin]]. exists ag0. repeat split; auto.
      cbn in Hm. unfold inj_list in Hm. rewrite map_map in Hm. exact Hm.
    + intros [ag [Hin [<- Hm]]]. exists (inj_agent md ag). repeat split; [apply in_map; exact Hin|]. cbn. unfold inj_list. rewrite map_map. exact Hm.
  - intros a m is Hi. eexists. apply (proj2 (entries_after _ _ _ _ _ _ H a m _)). exists is. split; [exact Hi|reflexivity].
  - intros a m is' Hi. apply (proj2 (entries_after _ _ _ _ _ _ H a m is')) in Hi. destruct Hi as [is [Hi ->]].
    exists is, (the_info md (m_mhooks md) (m_mports md) a m). split; [exact Hi|]. split; [apply the_info_right|apply set_info_only].
Qed.
Print Assumptions C22_monitors.

(** C22: if attach succeeds on a fresh model, a hook (port) is the dispatched one exactly when its path is the method's. *)
Theorem C22_exact : forall e fl md e' fl' hooks ports a m i, NoDup (ids md) -> fresh fl md -> attach e fl md = (Ok tt, e', fl') ->
  (hooks, ports) = (m_dhooks md, m_dports md) \/ (hooks, ports) = (m_mhooks md, m_mports md) -> entry_right md hooks ports a m i ->
  (forall h, In h hooks -> (i_hook i = Some (t_id h) <-> t_path h = a ++ "." ++ m)) /\
  (forall h, In h ports -> (i_port i = Some (t_id h) <-> t_path h = a ++ "." ++ m)).
Proof.
  intros e fl md e' fl' hooks ports a m i Hids Hfr H HP [_ _ Hh Hp].
  pose proof (proj1 (verdict_iff _ _ _ _ _ _ Hids Hfr H) eq_refl) as [[A1 _] [A2 _] [A3 _] [A4 _] _ _].
  pose proof (nodup_four md Hids) as [N1 [N2 [N3 N4]]].
  assert (forall L o, NoDup (map t_path L) -> NoDup (map t_id L) -> first_with L (a ++ "." ++ m) o ->
    forall h, In h L -> (o = Some (t_id h) <-> t_path h = a ++ "." ++ m)) as Key.
  { intros L o Hpaths Hidn Hf h Hin. split.
    - intros ->. destruct Hf as [l1 [h1 [l2 [-> [E1 [E2 _]]]]]]. assert (h1 = h) as ->; [|exact E2].
      apply (nodup_map_inj t_id _ h1 h Hidn); [apply in_app_iff; right; left; reflexivity|exact Hin|exact E1].
    - intros E. destruct o as [x|]; [|exfalso; exact (Hf h Hin E)]. destruct Hf as [l1 [h1 [l2 [-> [<- [E2 _]]]]]].
      f_equal. f_equal. apply (nodup_map_inj t_path _ h1 h Hpaths); [apply in_app_iff; right; left; reflexivity|exact Hin|congruence]. }
  destruct HP as [[= -> ->]|[= -> ->]]; split; apply Key; assumption.
Qed.
Print Assumptions C22_exact.

Example C22_example : let '(r, e', _) := attach env1 blank model1 in
  r = Ok tt /\ NoDup (ids model1) /\ fresh blank model1 /\
  driver_entries e' "alu" "add" [(7%nat, mk_info [] [] (Some 2%nat) None)] /\
  driver_entries e' "alu" "sub" [(7%nat, mk_info [1%nat] [] None (Some 3%nat))] /\
  driver_entries e' "bus" "read" [(7%nat, mk_info [0%nat] [] None None)] /\
  monitor_entries e' "alu" "watch" [(7%nat, mk_info [] [] (Some 4%nat) None)].
Proof.
  vm_compute attach. split; [reflexivity|]. split; [repeat constructor; cbn; intuition lia|]. split.
  { split; cbn; intros d; intuition (subst; auto). }
  split; [|split; [|split]].
  - eexists. split; [left; reflexivity|]. split; [reflexivity|left; reflexivity].
  - eexists. split; [left; reflexivity|]. split; [reflexivity|right; left; reflexivity].
  - eexists. split; [right; left; reflexivity|]. split; [reflexivity|left; reflexivity].
  - eexists. split; [left; reflexivity|]. split; [reflexivity|left; reflexivity].
Qed.

(** C23: on a fresh model, attach succeeds exactly for the acceptable models; a rejection is a ValueError,
    except that a missing `agents` entry of an agent port gives an AttributeError. *)
Theorem C23_verdict : forall e fl md r e' fl', NoDup (ids md) -> fresh fl md -> attach e fl md = (r, e', fl') ->
  (r = Ok tt <-> acceptable e md) /\
  (~ acceptable e md -> r = Exn ValueError \/
     (r = Exn AttributeError /\ exists d a, In d (m_aports md) /\ In a (d_agents d) /\ ~ In a (e_attrs e))).
Proof.
  intros e fl md r e' fl' Hids Hfr H. pose proof (verdict_iff _ _ _ _ _ _ Hids Hfr H) as Hv. split; [exact Hv|].
  intros Hn. destruct (attach_eq _ _ _ _ _ _ H) as [_ [Hat [_ [Hr _]]]].
  destruct r as [[]|x]; [exfalso; apply Hn, Hv; reflexivity|]. symmetry in Hr. apply error_kind in Hr. rewrite Hat in Hr.
  destruct Hr as [->|[-> Hr]]; auto.
Qed.
Print Assumptions C23_verdict.

(** C23: the rejections one by one. *)
Theorem C23_rejections : forall e fl md r e' fl', NoDup (ids md) -> fresh fl md -> attach e fl md = (r, e', fl') ->
  (forall h, In h (m_dhooks md ++ m_dports md) -> (forall a m, driver_of e a m -> t_path h <> a ++ "." ++ m) -> r <> Ok tt) /\
  (forall h, In h (m_mhooks md ++ m_mports md) -> (forall a m, monitor_of e a m -> t_path h <> a ++ "." ++ m) -> r <> Ok tt) /\
  (forall L, In L [m_dhooks md; m_dports md; m_mhooks md; m_mports md] -> ~ NoDup (map t_path L) -> r <> Ok tt) /\
  (forall d p, In d (m_ahooks md ++ m_aports md) -> In p (d_methods d) -> (forall a m, method_of e a m -> p <> a ++ "." ++ m) -> r <> Ok tt) /\
  (forall d a, In d (m_ahooks md ++ m_aports md) -> In a (d_agents d) -> ~ In a (e_attrs e) -> r <> Ok tt).
Proof.
  intros e fl md r e' fl' Hids Hfr H. pose proof (verdict_iff _ _ _ _ _ _ Hids Hfr H) as Hv.
  repeat split; intros; intros ->; pose proof (proj1 Hv eq_refl) as [[A1 B1] [A2 B2] [A3 B3] [A4 B4] C D].
  - apply in_app_iff in H0. destruct H0 as [H0|H0]; [destruct (B1 h H0) as [a [m [Q E]]]|destruct (B2 h H0) as [a [m [Q E]]]]; exact (H1 a m Q E).
  - apply in_app_iff in H0. destruct H0 as [H0|H0]; [destruct (B3 h H0) as [a [m [Q E]]]|destruct (B4 h H0) as [a [m [Q E]]]]; exact (H1 a m Q E).
  - cbn in H0. destruct H0 as [<-|[<-|[<-|[<-|[]]]]]; contradiction.
  - apply in_app_iff in H0. destruct H0 as [H0|H0]; [destruct (C d H0) as [[_ M] _]|destruct (D d H0) as [[_ M] _]]; destruct (M p H1) as [a [m [Q [E _]]]]; exact (H2 a m Q E).
  - apply in_app_iff in H0. destruct H0 as [H0|H0]; [destruct (C d H0) as [_ [M _]]|destruct (D d H0) as [_ [_ [M _]]]]; exact (H2 (M a H1)).
Qed.
Print Assumptions C23_rejections.

(** C23, "if every hook and port resolves to its own existing method, attach succeeds", for models whose only
    declarations are driver/monitor hooks and ports.  Missing: agent hooks and ports (see C27). *)
Theorem C23_accepts_partial : forall e fl md r e' fl', NoDup (ids md) -> fresh fl md -> attach e fl md = (r, e', fl') ->
  m_ahooks md = [] -> m_aports md = [] ->
  (forall L Q, In (L, Q) [(m_dhooks md, driver_of e); (m_dports md, driver_of e); (m_mhooks md, monitor_of e); (m_mports md, monitor_of e)] ->
     NoDup (map t_path L) /\ forall h, In h L -> exists a m, Q a m /\ t_path h = a ++ "." ++ m) -> r = Ok tt.
Proof.
  intros e fl md r e' fl' Hids Hfr H E1 E2 HL. apply (verdict_iff _ _ _ _ _ _ Hids Hfr H).
  constructor; [apply HL; cbn; auto|apply HL; cbn; auto|apply HL; cbn; auto|apply HL; cbn; auto| |]; rewrite ?E1, ?E2; intros d [].
Qed.
Print Assumptions C23_accepts_partial.

(** C23 is false for the kind of error of an agent port's missing agent, and for agents entries that name an
    attribute that is not an agent (here the method "attach"). *)
Theorem C23_agents_refuted :
  (exists fl md, NoDup (ids md) /\ fresh fl md /\ verdict (attach env1 fl md) = Exn AttributeError) /\
  (exists fl md d, NoDup (ids md) /\ fresh fl md /\ In d (m_ahooks md) /\ In "attach" (d_agents d) /\
     ~ In "attach" (map a_name (e_agents env1)) /\ verdict (attach env1 fl md) = Ok tt).
Proof.
  split.
  - exists (mk_flags (fun _ => false) (fun _ => [])), (mk_model 1 [] [mk_decl 0 "alu" "alu" ["nothing"] []] [] [] [] []).
    split; [repeat constructor; cbn; tauto|]. split; [split; cbn; intros d; intuition (subst; auto)|reflexivity].
  - exists (mk_flags (fun _ => false) (fun _ => [])), (mk_model 1 [mk_decl 0 "" "" ["attach"] []] [] [] [] [] []), (mk_decl 0 "" "" ["attach"] []).
    split; [repeat constructor; cbn; tauto|]. split; [split; cbn; intros d; intuition (subst; auto)|].
    split; [left; reflexivity|]. split; [left; reflexivity|]. split; [cbn; intuition discriminate|reflexivity].
Qed.
Print Assumptions C23_agents_refuted.

Example C23_example : acceptable env1 model1 /\ ~ acceptable env2 model1 /\ verdict (attach env2 blank model1) = Exn ValueError.
Proof.
  assert (NoDup (ids model1)) as H1 by (repeat constructor; cbn; intuition lia).
  assert (fresh blank model1) as H2 by (split; cbn; intros d; intuition (subst; auto)).
  split; [|split].
  - destruct (attach env1 blank model1) as [[r e'] fl'] eqn:E. apply (verdict_iff env1 blank model1 r e' fl' H1 H2 E). vm_compute in E. injection E as <- _ _. reflexivity.
  - intros H. destruct (attach env2 blank model1) as [[r e'] fl'] eqn:E. apply (verdict_iff env2 blank model1 r e' fl' H1 H2 E) in H. subst. vm_compute in E. discriminate E.
  - reflexivity.
Qed.

(** C24 is false: once attached successfully anywhere, a model is accepted by every env that merely has the right
    attribute names; hooks, ports and `methods` entries are no longer checked at all. *)
Theorem C24_sticky_refuted : forall e1 e2 fl md r1 e1' fl1 r2 e2' fl2,
  attach e1 fl md = (r1, e1', fl1) -> r1 = Ok tt -> attach e2 fl1 md = (r2, e2', fl2) ->
  r2 = Ok tt <->
  (forall d, In d (m_ahooks md) -> (forall a, In a (d_agents d) -> In a (e_attrs e2)) /\ (d_name d = "" \/ In (d_name d) (e_attrs e2))) /\
  (forall d, In d (m_aports md) -> (forall a, In a (d_agents d) -> In a (e_attrs e2)) /\ (d_own d = "" \/ In (d_own d) (e_attrs e2))).
Proof. exact second_attach. Qed.
Print Assumptions C24_sticky_refuted.

(** the witness: the same class of model, first attached to an env that has alu.add, then to one that has not *)
Example C24_witness :
  let md := mk_model 1 [] [] [mk_item 0 "alu.add"] [] [] [] in
  let fl := mk_flags (fun _ => false) (fun _ => []) in
  let '(r1, _, fl1) := attach env1 fl md in
  r1 = Ok tt /\ verdict (attach env2 fl1 (mk_model 2 [] [] [mk_item 0 "alu.add"] [] [] [])) = Ok tt /\
  verdict (attach env2 fl md) = Exn ValueError.
Proof. vm_compute. auto. Qed.

(** C24 where it holds: for fresh flags the verdict depends on the env and the declarations only.  Missing: models
    whose hooks or ports have been through an earlier attach. *)
Theorem C24_fresh_partial : forall e fl1 fl2 md r1 e1 f1 r2 e2 f2, NoDup (ids md) -> fresh fl1 md -> fresh fl2 md ->
  attach e fl1 md = (r1, e1, f1) -> attach e fl2 md = (r2, e2, f2) -> (r1 = Ok tt <-> acceptable e md) /\ (r2 = Ok tt <-> r1 = Ok tt).
Proof.
  intros e fl1 fl2 md r1 e1 f1 r2 e2 f2 Hids H1 H2 A1 A2.
  pose proof (verdict_iff _ _ _ _ _ _ Hids H1 A1) as V1. pose proof (verdict_iff _ _ _ _ _ _ Hids H2 A2) as V2. tauto.
Qed.
Print Assumptions C24_fresh_partial.

(** C25 is false: unattach always raises and changes nothing. *)
Theorem C25_unattach_refuted : forall e fl md r e1 fl1, attach e fl md = (r, e1, fl1) ->
  unattach e1 fl1 md = (Exn AttributeError, e1, fl1) /\
  forall a m is, driver_entries e1 a m is -> entry_of is (m_id md) <> None.
Proof.
  intros e fl md r e1 fl1 H. split; [reflexivity|]. intros a m is Hi.
  apply (proj1 (entries_after _ _ _ _ _ _ H a m is)) in Hi. destruct Hi as [is0 [_ ->]]. rewrite set_info_same. discriminate.
Qed.
Print Assumptions C25_unattach_refuted.

(** C25: the branch of attach that would detach the model from its first env is never taken. *)
Theorem C25_reattach_refuted : forall e1 e2 fl md r1 e1' fl1 r2 e2' fl2,
  attach e1 fl md = (r1, e1', fl1) -> attach e2 fl1 md = (r2, e2', fl2) -> is_attached md = false /\
  (forall a m is, driver_entries e1' a m is -> entry_of is (m_id md) <> None) /\
  (forall a m is, driver_entries e2' a m is -> entry_of is (m_id md) <> None).
Proof.
  intros e1 e2 fl md r1 e1' fl1 r2 e2' fl2 H1 H2. split; [reflexivity|].
  split; [apply (C25_unattach_refuted _ _ _ _ _ _ H1)|apply (C25_unattach_refuted _ _ _ _ _ _ H2)].
Qed.
Print Assumptions C25_reattach_refuted.

(** C26 is false: a rejected attach leaves the model's entry in every driver and monitor. *)
Theorem C26_rejected_refuted : forall e fl md x e' fl', attach e fl md = (Exn x, e', fl') ->
  (forall a m is, driver_entries e' a m is -> entry_of is (m_id md) <> None) /\
  (forall a m is, monitor_entries e' a m is -> entry_of is (m_id md) <> None).
Proof.
  intros e fl md x e' fl' H. split; intros a m is Hi.
  - apply (proj1 (entries_after _ _ _ _ _ _ H a m is)) in Hi. destruct Hi as [is0 [_ ->]]. rewrite set_info_same. discriminate.
  - apply (proj2 (entries_after _ _ _ _ _ _ H a m is)) in Hi. destruct Hi as [is0 [_ ->]]. rewrite set_info_same. discriminate.
Qed.
Print Assumptions C26_rejected_refuted.

(** C26, what does hold of a rejected attach: the list of attached models and the entries of all other models are
    unchanged.  Missing: the rejected model's own entries. *)
Theorem C26_rejected_partial : forall e fl md x e' fl', attach e fl md = (Exn x, e', fl') ->
  e_attached e' = e_attached e /\ e_attrs e' = e_attrs e /\
  (forall a m is', driver_entries e' a m is' -> exists is, driver_entries e a m is /\ forall k, k <> m_id md -> entry_of is' k = entry_of is k) /\
  (forall a m is', monitor_entries e' a m is' -> exists is, monitor_entries e a m is /\ forall k, k <> m_id md -> entry_of is' k = entry_of is k).
Proof.
  intros e fl md x e' fl' H. destruct (attach_eq _ _ _ _ _ _ H) as [_ [Hat [_ [_ Hl]]]]. split; [exact Hl|]. split; [exact Hat|].
  split; intros a m is' Hi.
  - apply (proj1 (entries_after _ _ _ _ _ _ H a m is')) in Hi. destruct Hi as [is0 [Hi ->]]. exists is0. split; [exact Hi|]. intros k Hk. apply set_info_other. exact Hk.
  - apply (proj2 (entries_after _ _ _ _ _ _ H a m is')) in Hi. destruct Hi as [is0 [Hi ->]]. exists is0. split; [exact Hi|]. intros k Hk. apply set_info_other. exact Hk.
Qed.
Print Assumptions C26_rejected_partial.

Example C26_example : exists x e' fl', attach env2 blank model1 = (Exn x, e', fl') /\ driver_entries e' "alu" "sub" [(7%nat, mk_info [1%nat] [] None (Some 3%nat))].
Proof.
  destruct (attach env2 blank model1) as [[r e'] fl'] eqn:E. vm_compute in E. injection E as <- <- <-. eexists _, _, _. split; [reflexivity|].
  eexists. split; [left; reflexivity|]. split; [reflexivity|left; reflexivity].
Qed.

(** C27 is false: an agent port is rejected unless the attribute holding it is also an attribute name of the env,
    and a `methods` entry is rejected when its agent is also selected by name. *)
Theorem C27_free_names_refuted : forall e fl md r e' fl', NoDup (ids md) -> fresh fl md -> attach e fl md = (r, e', fl') ->
  (forall d, In d (m_aports md) -> d_own d <> "" -> ~ In (d_own d) (e_attrs e) -> r <> Ok tt) /\
  (forall d a m, In d (m_ahooks md ++ m_aports md) -> In (a ++ "." ++ m) (d_methods d) -> names_agent d a ->
     (forall a' m', method_of e a' m' -> a' ++ "." ++ m' = a ++ "." ++ m -> a' = a) -> r <> Ok tt).
Proof.
  intros e fl md r e' fl' Hids Hfr H. pose proof (verdict_iff _ _ _ _ _ _ Hids Hfr H) as Hv. split.
  - intros d Hd Hne Hnot ->. pose proof (proj1 Hv eq_refl) as [_ _ _ _ _ D]. destruct (D d Hd) as [_ [_ [_ [X|X]]]]; contradiction.
  - intros d a m Hd Hm Hn Hu ->. pose proof (proj1 Hv eq_refl) as [_ _ _ _ C D]. apply in_app_iff in Hd.
    assert (methods_exist e d) as [_ M] by (destruct Hd as [Hd|Hd]; [apply (C d Hd)|apply (D d Hd)]).
    destruct (M _ Hm) as [a' [m' [Q [E N]]]]. apply N. rewrite (Hu a' m' Q (eq_sym E)). exact Hn.
Qed.
Print Assumptions C27_free_names_refuted.

(** the witnesses: all names exist in env1, yet attach raises *)
Example C27_witness :
  verdict (attach env1 (mk_flags (fun _ => false) (fun _ => [])) (mk_model 1 [] [mk_decl 0 "alu" "my_port" [] []] [] [] [] [])) = Exn ValueError /\
  verdict (attach env1 (mk_flags (fun _ => false) (fun _ => [false])) (mk_model 1 [mk_decl 0 "alu" "" [] ["alu.add"]] [] [] [] [] [])) = Exn ValueError /\
  verdict (attach env1 (mk_flags (fun _ => false) (fun _ => [])) (mk_model 1 [] [mk_decl 0 "alu" "alu" [] []] [] [] [] [])) = Ok tt.
Proof. vm_compute. auto. Qed.

(** C27 under the conditions the code needs.  Missing: free attribute names of agent ports, and `methods` entries
    below an agent that is selected as a whole. *)
Theorem C27_free_names_partial : forall e fl md r e' fl', NoDup (ids md) -> fresh fl md -> attach e fl md = (r, e', fl') ->
  m_dhooks md = [] -> m_dports md = [] -> m_mhooks md = [] -> m_mports md = [] ->
  (forall d, In d (m_ahooks md) -> methods_exist e d /\ (forall a, In a (d_agents d) -> In a (e_attrs e)) /\ (d_name d = "" \/ In (d_name d) (e_attrs e))) ->
  (forall d, In d (m_aports md) -> methods_exist e d /\ (exists a m, method_of e a m /\ selects d a m) /\
     (forall a, In a (d_agents d) -> In a (e_attrs e)) /\ In (d_own d) (e_attrs e)) ->
  r = Ok tt.
Proof.
  intros e fl md r e' fl' Hids Hfr H E1 E2 E3 E4 HA HP. apply (verdict_iff _ _ _ _ _ _ Hids Hfr H).
  constructor; rewrite ?E1, ?E2, ?E3, ?E4; try (split; [constructor|intros h []]); [exact HA|].
  intros d Hd. destruct (HP d Hd) as [P1 [P2 [P3 P4]]]. auto.
Qed.
Print Assumptions C27_free_names_partial.
