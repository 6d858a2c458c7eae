(** Lemmas about names. *)
From Coq Require Import List String Ascii Bool Lia.
From Verif Require Import Py Names_Model Names_Spec.
Import ListNotations.
Open Scope string_scope.

Lemma replace_cons a s : Ascii.eqb a "_"%char = false -> replace_uu (String a s) = String a (replace_uu s).
Proof. intros H. cbn [replace_uu]. destruct s; rewrite ?H; reflexivity. Qed.
Lemma replace_u_other b s : Ascii.eqb b "_"%char = false -> replace_uu (String "_" (String b s)) = String "_" (replace_uu (String b s)).
Proof. intros H. cbn [replace_uu]. rewrite H, andb_false_r. destruct s; reflexivity. Qed.

Lemma not_uu_tail a s : ~ has_uu (String a s) -> ~ has_uu s.
Proof. intros H [x [y ->]]. apply H. exists (String a x), y. reflexivity. Qed.

Lemma replace_id s : ~ has_uu s -> replace_uu s = s.
Proof.
  induction s as [|a s IH]; intros H; [reflexivity|]. specialize (IH (not_uu_tail a s H)).
  destruct (Ascii.eqb_spec a "_"%char) as [->|Hne].
  - destruct s as [|b s]; [reflexivity|]. destruct (Ascii.eqb_spec b "_"%char) as [->|Hb].
    + exfalso. apply H. exists "", s. reflexivity.
    + rewrite replace_u_other by (apply Ascii.eqb_neq; exact Hb). rewrite IH. reflexivity.
  - rewrite replace_cons by (apply Ascii.eqb_neq; exact Hne). rewrite IH. reflexivity.
Qed.

Lemma replace_split a m : ~ has_uu a -> ~ ends_with_u a -> ~ has_uu m ->
  replace_uu (a ++ "__" ++ m) = a ++ "." ++ m.
Proof.
  intros Ha He Hm. induction a as [|c a IH].
  - cbn. f_equal. apply replace_id. exact Hm.
  - assert (~ has_uu a) as Ha' by (apply (not_uu_tail c); exact Ha).
    assert (~ ends_with_u a) as He' by (intros [x ->]; apply He; exists (String c x); reflexivity).
    specialize (IH Ha' He'). cbn [append] in IH |- *.
    destruct (Ascii.eqb_spec c "_"%char) as [->|Hne].
    + destruct a as [|b a]; [exfalso; apply He; exists ""; reflexivity|].
      destruct (Ascii.eqb_spec b "_"%char) as [->|Hb]; [exfalso; apply Ha; exists "", a; reflexivity|].
      cbn [append] in *. rewrite replace_u_other by (apply Ascii.eqb_neq; exact Hb). rewrite IH. reflexivity.
    + rewrite replace_cons by (apply Ascii.eqb_neq; exact Hne). rewrite IH. reflexivity.
Qed.

Lemma replace_no_uu s : ~ has_uu (replace_uu s).
Proof.
  assert (forall n s, length s <= n -> ~ has_uu (replace_uu s) /\ (forall t, replace_uu s = String "_" t -> exists t', s = String "_" t')) as H.
  { clear s. induction n as [|n IH]; intros s Hl.
    - destruct s; [|cbn in Hl; lia]. split; [intros [[|? a] [b E]]; discriminate E|]. discriminate.
    - destruct s as [|a s]; [split; [intros [[|? x] [y E]]; discriminate E|discriminate]|]. cbn [length] in Hl.
      destruct (Ascii.eqb_spec a "_"%char) as [->|Hne].
      + destruct s as [|b s]; [split; [intros [[|c x] [y E]]; [discriminate E|injection E as _ E; destruct x; discriminate E]|intros t E; exists ""; reflexivity]|].
        destruct (Ascii.eqb_spec b "_"%char) as [->|Hb].
        * cbn [replace_uu]. cbn [Ascii.eqb andb Bool.eqb]. cbn [length] in Hl.
          destruct (IH s ltac:(lia)) as [H1 _]. split; [|discriminate].
          intros [[|c x] [y E]]; [discriminate E|]. injection E as _ E. apply H1. exists x, y. exact E.
        * rewrite replace_u_other by (apply Ascii.eqb_neq; exact Hb). destruct (IH (String b s) ltac:(lia)) as [H1 H2].
          split; [|eauto]. intros [[|c x] [y E]].
          -- cbn [append] in E. injection E as E. destruct (H2 _ E) as [t' Et]. injection Et as Et _. contradiction.
          -- injection E as _ E. apply H1. exists x, y. exact E.
      + rewrite replace_cons by (apply Ascii.eqb_neq; exact Hne). destruct (IH s ltac:(lia)) as [H1 H2]. split.
        * intros [[|c x] [y E]]; [injection E as E; contradiction|]. injection E as _ E. apply H1. exists x, y. exact E.
        * intros t [= E]. contradiction. }
  apply (H (length s) s). lia.
Qed.

Lemma empty_spec s : empty s = true <-> s = "".
Proof. apply String.eqb_eq. Qed.
Lemma empty_false s : s <> "" -> empty s = false.
Proof. intros H. apply String.eqb_neq. exact H. Qed.

Lemma check_iff x : check_args x = Exn AssertionError <-> contradictory x.
Proof.
  unfold check_args, contradictory, empty.
  destruct (String.eqb_spec (x_path x) ""), (String.eqb_spec (x_agent x) ""), (String.eqb_spec (x_method x) ""); cbn; split;
    try discriminate; intros H; try reflexivity; intuition congruence.
Qed.
Lemma check_ok x : ~ contradictory x -> check_args x = Ok tt.
Proof.
  intros H. destruct (check_args x) as [[]|e] eqn:E; [reflexivity|]. exfalso. apply H. apply check_iff.
  unfold check_args in *. destruct (negb _); [injection E as <-; reflexivity|]. destruct (negb _); [injection E as <-; reflexivity|discriminate].
Qed.

(** the port's path once it has been named *)
Lemma port_same x own : own <> "" -> forall p, new_portn x = Ok p ->
  fst (get_path (set_name own p)) = fst (hook_path x own).
Proof. intros Ho p H. unfold new_portn in H. destruct (check_args x); [|discriminate]. injection H as <-. reflexivity. Qed.

Lemma get_path_stable p : po_name p <> "" -> fst (get_path (snd (get_path p))) = fst (get_path p).
Proof.
  intros Hn. unfold get_path. cbn [snd fst po_args x_path x_agent x_method po_name].
  destruct (empty (x_path (po_args p))) eqn:E; [|rewrite E; reflexivity].
  destruct (negb (empty (x_agent (po_args p)))) eqn:Ea.
  - destruct (negb (empty (x_method (po_args p)))).
    + destruct (empty (x_agent (po_args p) ++ "." ++ x_method (po_args p))); reflexivity.
    + destruct (empty (x_agent (po_args p) ++ "." ++ po_name p)); reflexivity.
  - destruct (empty (replace_uu (po_name p))); reflexivity.
Qed.

(** once named, no sequence of get_path and collect_all calls changes the path *)
Lemma path_of_get p : po_name p <> "" -> fst (get_path (snd (get_path p))) = fst (get_path p).
Proof. exact (get_path_stable p). Qed.
Lemma named_stable : forall evs p, po_name p <> "" ->
  fst (get_path (fold_left port_event_step evs p)) = fst (get_path p).
Proof.
  induction evs as [|e evs IH]; intros p Hn; [reflexivity|]. cbn [fold_left]. rewrite IH.
  - destruct e as [|attr]; cbn [port_event_step]; [apply get_path_stable; exact Hn|].
    unfold set_name. rewrite empty_false by exact Hn. reflexivity.
  - destruct e as [|attr]; cbn [port_event_step]; [exact Hn|]. unfold set_name. rewrite empty_false by exact Hn. exact Hn.
Qed.
Lemma explicit_stable : forall evs p, x_path (po_args p) <> "" ->
  fst (get_path (fold_left port_event_step evs p)) = x_path (po_args p) /\
  x_path (po_args (fold_left port_event_step evs p)) <> "".
Proof.
  induction evs as [|e evs IH]; intros p Hn; cbn [fold_left].
  - split; [|exact Hn]. unfold get_path. rewrite empty_false by exact Hn. reflexivity.
  - assert (x_path (po_args (port_event_step p e)) = x_path (po_args p)) as E.
    { destruct e as [|attr]; cbn [port_event_step].
      - unfold get_path. cbn [snd po_args x_path]. rewrite empty_false by exact Hn. reflexivity.
      - unfold set_name. destruct (empty (po_name p)); reflexivity. }
    destruct (IH (port_event_step p e)) as [H1 H2]; [rewrite E; exact Hn|]. rewrite H1, E. auto.
Qed.

Lemma hook_many_second x own t : fst (hook_path x own) <> "" ->
  hook_many x (own :: t) = repeat (fst (hook_path x own)) (S (List.length t)).
Proof.
  intros Hne. cbn [hook_many]. destruct (hook_path x own) as [p x'] eqn:E. cbn [fst] in *. cbn [repeat]. f_equal.
  assert (x_path x' = p) as Hx by (unfold hook_path in E; injection E as <- <-; reflexivity).
  clear E. revert x' Hx. induction t as [|o t IH]; intros x' Hx; [reflexivity|].
  cbn [hook_many List.length repeat].
  unfold hook_path. rewrite Hx, empty_false by exact Hne. f_equal. apply IH. reflexivity.
Qed.
