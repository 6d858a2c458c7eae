(** Property theorems for scripts/bundle_code_gen.py: C59. *)
From Coq Require Import List String Ascii Arith Bool Lia Sorted Permutation Decimal DecimalString.
From Verif Require Import Py Codegen_Model Codegen_Spec Codegen_Proofs.
Import ListNotations.
Open Scope string_scope.

(** The class body of the selected names: one assignment of all of them, in sorted order, to Signals(n). *)
Theorem C59_declares : forall max_width selected, selected <> [] -> all_plain selected ->
  exists body names, gen_from max_width selected = Ok body /\
    Permutation selected names /\ Sorted (fun a b => String.leb a b = true) names /\
    join_lines body = tab ++ String.concat ", " names ++
      " = Signals(" ++ NilEmpty.string_of_uint (Nat.to_uint (List.length selected)) ++ ")" ++ nl.
Proof.
  intros mw sel Hne Hp. exists (gen_body mw (sort sel)), (sort sel).
  split; [apply gen_from_ok; exact Hne|]. split; [apply sort_perm|]. split; [apply sort_sorted|].
  assert (sort sel <> []) as Hs.
  { intros E. pose proof (sort_perm sel) as P. rewrite E in P. apply Permutation_sym, Permutation_nil in P. contradiction. }
  rewrite gen_body_join; [|exact Hs|apply sort_plain; exact Hp].
  rewrite <- (Permutation_length (sort_perm sel)). unfold end_code, dec.
  destruct sel as [|x t]; [contradiction|]. cbn [List.length Nat.eqb]. rewrite !sapp_assoc. reflexivity.
Qed.
Print Assumptions C59_declares.

(** No line passes max_width when each name alone and the right side alone fit. *)
Theorem C59_width : forall max_width selected body, gen_from max_width selected = Ok body ->
  all_plain selected -> Forall (fun x => 4 + length x + 3 <= max_width) selected ->
  4 + length ("= Signals(" ++ NilEmpty.string_of_uint (Nat.to_uint (List.length selected)) ++ ")") <= max_width ->
  fits max_width 0 body.
Proof.
  intros mw sel body Hg Hp Hf He. destruct sel as [|x t]; [discriminate|].
  rewrite gen_from_ok in Hg by discriminate. injection Hg as <-.
  apply gen_body_fits; [exact (sort_plain (x :: t) Hp)| |].
  - change (insert x (sort t)) with (sort (x :: t)). rewrite <- sort_perm. exact Hf.
  - change (insert x (sort t)) with (sort (x :: t)). rewrite <- (Permutation_length (sort_perm (x :: t))). unfold end_code, dec. cbn [List.length Nat.eqb] in *.
    cbn [append length] in *. lia.
Qed.
Print Assumptions C59_width.

(** By prefix: the names s with prefix++s a pin, as often as they occur. *)
Theorem C59_prefix_selection : forall dut prefix max_width,
  gen_bundle_code_from_prefix dut prefix max_width = gen_from max_width (select_prefix prefix dut) /\
  map (append prefix) (select_prefix prefix dut) = filter (String.prefix prefix) dut /\
  forall s, In s (select_prefix prefix dut) <-> In (prefix ++ s) dut.
Proof.
  intros dut p mw. split; [reflexivity|]. split; [apply select_prefix_map|]. intros s. apply select_prefix_in.
Qed.
Print Assumptions C59_prefix_selection.

(** By regular expression: for each pin that matches, in the order of the pins, the groups of the match joined. *)
Lemma joined_concat gs : joined gs (String.concat "" (map (fun g => match g with None => "" | Some x => x end) gs)).
Proof.
  assert (A : forall s : string, s ++ "" = s) by (induction s as [|c s IH]; [reflexivity|simpl; now rewrite IH]).
  induction gs as [|g gs IH]; [constructor|]. cbn [map String.concat]. destruct gs as [|h gs].
  - destruct g as [x|]; simpl; [|constructor; constructor]. rewrite <- (A x) at 2. constructor. constructor.
  - cbn [map] in *. destruct g as [x|]; cbn [append]; constructor; exact IH.
Qed.
Theorem C59_regex_selection : forall search dut max_width,
  gen_bundle_code_from_regex dut search max_width = gen_from max_width (select_regex search dut) /\
  Forall2 (fun pin name => exists gs, search pin = Some gs /\ joined gs name) (filter (fun pin => match search pin with Some _ => true | None => false end) dut) (select_regex search dut).
Proof.
  intros search dut mw. split; [reflexivity|]. induction dut as [|x dut IH]; [constructor|]. simpl. destruct (search x) as [gs|] eqn:E; auto. constructor; auto. exists gs. split; auto. apply joined_concat.
Qed.
Print Assumptions C59_regex_selection.
Example C59_regex_ex : select_regex (fun s => if String.eqb s "p_a" then Some [Some "x"; None; Some "y"] else None) ["q"; "p_a"] = ["xy"].
Proof. reflexivity. Qed.

(** By dictionary: exactly the keys whose pin exists, each once. *)
Theorem C59_dict_selection : forall dut d max_width, NoDup (map fst d) ->
  gen_bundle_code_from_dict dut d max_width = gen_from max_width (select_dict d dut) /\
  NoDup (select_dict d dut) /\
  forall k, In k (select_dict d dut) <-> exists v, In (k, v) d /\ In v dut.
Proof.
  intros dut d mw H. split; [reflexivity|]. split; [apply select_dict_nodup; exact H|]. intros k. apply select_dict_in.
Qed.
Print Assumptions C59_dict_selection.

(** Nothing selected: an error, no code. *)
Theorem C59_empty : forall max_width selected, gen_from max_width selected = Exn AssertionError <-> selected = [].
Proof.
  intros mw sel. split; [|intros ->; reflexivity]. destruct sel as [|x t]; [reflexivity|].
  rewrite gen_from_ok by discriminate. discriminate.
Qed.
Print Assumptions C59_empty.

Example C59_example :
  gen_bundle_code_from_prefix ["io_b"; "io_a"; "clock"; "io_c"] "io_" 30 =
    Ok (tab ++ "a, b, c = Signals(3)" ++ nl) /\
  gen_bundle_code_from_prefix ["io_b"; "io_a"; "clock"; "io_c"] "io_" 18 =
    Ok (tab ++ "a, b, c \" ++ nl ++ tab ++ "= Signals(3)" ++ nl) /\
  gen_bundle_code_from_prefix ["io_bbbbbbbb"; "io_a"; "clock"; "io_c"] "io_" 16 =
    Ok (tab ++ "a, \" ++ nl ++ tab ++ "bbbbbbbb, \" ++ nl ++ tab ++ "c \" ++ nl ++ tab ++ "= Signals(3)" ++ nl).
Proof. repeat split. Qed.
