(** Property theorems for names of hooks and ports: C21, C67, C68. *)
From Coq Require Import List String Ascii Bool Lia.
From Verif Require Import Py Names_Model Names_Spec Names_Proofs.
Import ListNotations.
Open Scope string_scope.

(** C21: arguments are rejected exactly when they contradict one another, for hooks and ports. *)
Theorem C21_rejects : forall x own, (hook x own = Exn AssertionError <-> contradictory x) /\
  (new_portn x = Exn AssertionError <-> contradictory x).
Proof.
  intros x own. unfold hook, new_portn.
  split; (split; [intros H; apply check_iff; destruct (check_args x); [discriminate|injection H as ->; reflexivity]|intros H; apply check_iff in H; rewrite H; reflexivity]).
Qed.
Print Assumptions C21_rejects.

(** C21: the four documented forms. *)
Theorem C21_forms : forall own,
  (forall path, path <> "" -> hook (mk_args path "" "") own = Ok path) /\
  (forall a m, a <> "" -> m <> "" -> hook (mk_args "" a m) own = Ok (a ++ "." ++ m)) /\
  (forall a, a <> "" -> hook (mk_args "" a "") own = Ok (a ++ "." ++ own)) /\
  (forall a m, own = a ++ "__" ++ m -> ~ has_uu a -> ~ ends_with_u a -> ~ has_uu m ->
     hook (mk_args "" "" "") own = Ok (a ++ "." ++ m)).
Proof.
  intros own. split; [|split; [|split]].
  - intros path H. unfold hook, check_args, hook_path. cbn [x_path x_agent x_method]. rewrite (empty_false path H). reflexivity.
  - intros a m Ha Hm. unfold hook, check_args, hook_path. cbn [x_path x_agent x_method]. rewrite (empty_false a Ha), (empty_false m Hm). reflexivity.
  - intros a Ha. unfold hook, check_args, hook_path. cbn [x_path x_agent x_method]. rewrite (empty_false a Ha). reflexivity.
  - intros a m -> H1 H2 H3. unfold hook, check_args, hook_path. cbn [x_path x_agent x_method fst rbind empty String.eqb negb andb orb].
    rewrite replace_split by assumption. reflexivity.
Qed.
Print Assumptions C21_forms.

(** C21: a hook and a port with the same arguments and own name have the same path. *)
Theorem C21_hook_port_agree : forall x own p path, own <> "" -> hook x own = Ok path -> new_portn x = Ok p ->
  fst (get_path (set_name own p)) = path.
Proof.
  intros x own p path Ho Hh Hp. rewrite (port_same x own Ho p Hp). unfold hook in Hh.
  destruct (check_args x); [|discriminate]. injection Hh as <-. reflexivity.
Qed.
Print Assumptions C21_hook_port_agree.

(** C21: without arguments no name denotes an agent or method containing "__": such paths need arguments. *)
Theorem C21_no_uu_without_arguments : forall own path, hook (mk_args "" "" "") own = Ok path -> ~ has_uu path.
Proof. intros own path [= <-]. apply replace_no_uu. Qed.
Print Assumptions C21_no_uu_without_arguments.

Example C21_example :
  hook (mk_args "" "" "") "add_agent__exec_add" = Ok "add_agent.exec_add" /\
  hook (mk_args "" "add_agent" "") "exec_add" = Ok "add_agent.exec_add" /\
  hook (mk_args "p" "a" "") "f" = Exn AssertionError /\ hook (mk_args "" "" "m") "f" = Exn AssertionError /\
  ~ has_uu "add_agent" /\ ~ ends_with_u "add_agent".
Proof.
  repeat split.
  - exact (replace_no_uu "add_agent").
  - intros [x E]. do 9 (destruct x as [|? x]; cbn [append] in E; [discriminate E|injection E as _ E]). destruct x; discriminate E.
Qed.

(** C67: asking a port for its path never changes what it matches. False: asked before the port has its
    name, a port with agent_name alone keeps the path "agent." for ever. *)
Theorem C67_get_path_refuted : exists x p attr, new_portn x = Ok p /\
  fst (get_path (set_name attr p)) = "alu.add" /\
  forall evs, fst (get_path (fold_left port_event_step evs (set_name attr (snd (get_path p))))) = "alu.".
Proof.
  exists (mk_args "" "alu" ""), (mk_portn (mk_args "" "alu" "") ""), "add". split; [reflexivity|]. split; [reflexivity|].
  intros evs. apply (explicit_stable evs (set_name "add" (snd (get_path (mk_portn (mk_args "" "alu" "") ""))))).
  discriminate.
Qed.
Print Assumptions C67_get_path_refuted.

(** C67 for a port that already has its name, and for a port with an explicit path: no sequence of get_path
    and collect_all calls changes the path.  Missing: calls before the port is named. *)
Theorem C67_get_path_partial : forall evs p, po_name p <> "" \/ x_path (po_args p) <> "" ->
  fst (get_path (fold_left port_event_step evs p)) = fst (get_path p).
Proof.
  intros evs p [H|H]; [apply named_stable; exact H|].
  destruct (explicit_stable evs p H) as [-> _]. destruct (explicit_stable [] p H) as [E _]. symmetry. exact E.
Qed.
Print Assumptions C67_get_path_partial.

Example C67_example : po_name (mk_portn (mk_args "" "alu" "") "add") <> "" /\
  fst (get_path (fold_left port_event_step [EGetPath; ECollect "other"; EGetPath] (mk_portn (mk_args "" "alu" "") "add"))) = "alu.add".
Proof. split; [discriminate|reflexivity]. Qed.

(** C68: a decorator object applied to several functions resolves each by its own name.  False: every later
    function gets the path of the first. *)
Theorem C68_reused_decorator_refuted : forall x own t, fst (hook_path x own) <> "" ->
  hook_many x (own :: t) = repeat (fst (hook_path x own)) (S (List.length t)).
Proof. exact hook_many_second. Qed.
Print Assumptions C68_reused_decorator_refuted.

Example C68_witness : hook_many (mk_args "" "alu" "") ["add"; "sub"] = ["alu.add"; "alu.add"] /\ hook (mk_args "" "alu" "") "sub" = Ok "alu.sub".
Proof. split; reflexivity. Qed.

(** C68 where it holds: the path is given explicitly or by agent and method name.  Missing: paths that depend on
    the function's name. *)
Theorem C68_reused_decorator_partial : forall x owns, x_path x <> "" \/ (x_agent x <> "" /\ x_method x <> "") ->
  hook_many x owns = map (fun own => fst (hook_path x own)) owns.
Proof.
  intros x owns H. destruct owns as [|own t]; [reflexivity|].
  assert (forall o, fst (hook_path x o) = fst (hook_path x own)) as Hc.
  { intros o. unfold hook_path. cbn [fst]. destruct H as [H|[Ha Hm]]; [rewrite empty_false by exact H; reflexivity|].
    rewrite (empty_false (x_agent x)), (empty_false (x_method x)) by assumption. reflexivity. }
  rewrite hook_many_second.
  - cbn [map List.length repeat]. f_equal. clear -Hc. induction t as [|o t IH]; [reflexivity|]. cbn [map List.length repeat]. rewrite (Hc o), <- IH. reflexivity.
  - unfold hook_path. cbn [fst]. destruct H as [H|[Ha Hm]]; [rewrite empty_false by exact H; exact H|].
    destruct (empty (x_path x)) eqn:E; [|intros X; rewrite X in E; discriminate].
    rewrite (empty_false (x_agent x)), (empty_false (x_method x)) by assumption. cbn [negb].
    destruct (x_agent x); [contradiction|discriminate].
Qed.
Print Assumptions C68_reused_decorator_partial.

Example C68_example : hook_many (mk_args "" "alu" "op") ["add"; "sub"] = ["alu.op"; "alu.op"].
Proof. reflexivity. Qed.
