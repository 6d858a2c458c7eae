(** Lemmas about the code generator. *)
From Coq Require Import List String Ascii Arith Bool Lia Sorted Permutation Decimal DecimalString.
From Verif Require Import Py Codegen_Model Codegen_Spec.
Import ListNotations.
Open Scope string_scope.

Lemma sapp_assoc a b c : (a ++ b) ++ c = a ++ (b ++ c).
Proof. induction a as [|x a IH]; cbn; [reflexivity|]. rewrite IH. reflexivity. Qed.
Lemma sapp_nil a : a ++ "" = a.
Proof. induction a as [|x a IH]; cbn; [reflexivity|]. rewrite IH. reflexivity. Qed.
Lemma slen_app a b : length (a ++ b) = length a + length b.
Proof. induction a as [|x a IH]; cbn; [reflexivity|]. rewrite IH. reflexivity. Qed.

Lemma substring_full a b : substring 0 (length a) (a ++ b) = a.
Proof. induction a as [|x a IH]; cbn; [destruct b; reflexivity|]. rewrite IH. reflexivity. Qed.
Lemma drop_last2_app l : drop_last2 (l ++ ", ") = l.
Proof.
  unfold drop_last2. rewrite slen_app. replace (length l + length ", " - 2) with (length l) by (cbn; lia).
  apply substring_full.
Qed.

Lemma fill_prefix mw ec p : forall names l w,
  fill mw ec names (p ++ (l ++ ", ")) w = p ++ fill mw ec names (l ++ ", ") w.
Proof.
  induction names as [|x t IH]; intros l w; cbn [fill].
  - rewrite <- (sapp_assoc p l ", "), !drop_last2_app. destruct (Nat.leb _ _); rewrite !sapp_assoc; reflexivity.
  - destruct (Nat.leb _ _).
    + replace ((p ++ l ++ ", ") ++ x ++ ", ") with (p ++ ((l ++ ", " ++ x) ++ ", ")) by (rewrite !sapp_assoc; reflexivity).
      replace ((l ++ ", ") ++ x ++ ", ") with ((l ++ ", " ++ x) ++ ", ") by (rewrite !sapp_assoc; reflexivity).
      apply IH.
    + rewrite sapp_assoc. reflexivity.
Qed.

Lemma plain_app a b : plain (a ++ b) = plain a && plain b.
Proof. induction a as [|c a IH]; cbn; [reflexivity|]. rewrite IH. apply andb_assoc. Qed.

Lemma join_cons a r : Ascii.eqb a "\"%char = false -> join_lines (String a r) = String a (join_lines r).
Proof. intros H. cbn [join_lines]. destruct r as [|b [|c t]]; rewrite ?H; reflexivity. Qed.
Lemma join_plain a b : plain a = true -> join_lines (a ++ b) = a ++ join_lines b.
Proof.
  induction a as [|c a IH]; intros H; [reflexivity|]. cbn in H. apply andb_prop in H. destruct H as [H1 H2].
  cbn [append]. rewrite join_cons.
  - rewrite IH by exact H2. reflexivity.
  - unfold special in H1. destruct (Ascii.eqb c "\"%char); [rewrite !orb_true_r in H1; discriminate|reflexivity].
Qed.
Lemma join_cont s : join_lines (bslash ++ nl ++ tab ++ s) = join_lines s.
Proof. reflexivity. Qed.
Lemma join_nl : join_lines nl = nl.
Proof. reflexivity. Qed.
Lemma join_tab s : join_lines (tab ++ s) = tab ++ join_lines s.
Proof. unfold tab. cbn [append]. apply join_cons. reflexivity. Qed.

(** "x1, x2, ..." after something: ", x1, x2" *)
Fixpoint more (names : list string) : string :=
  match names with [] => "" | x :: t => ", " ++ x ++ more t end.

Lemma concat_more x t : String.concat ", " (x :: t) = x ++ more t.
Proof.
  revert x. induction t as [|y t IH]; intros x; [cbn; rewrite sapp_nil; reflexivity|].
  cbn [more]. rewrite <- IH. reflexivity.
Qed.

Definition all_plain (names : list string) : Prop := Forall (fun x => plain x = true) names.

Lemma fill_join mw e : plain e = true -> forall names, all_plain names -> forall l w, plain l = true ->
  join_lines (fill mw (" " ++ e) names (l ++ ", ") w) = l ++ more names ++ " " ++ e ++ nl.
Proof.
  intros He. induction names as [|x t IH]; intros Hn l w Hl; cbn [fill more].
  - rewrite drop_last2_app. destruct (Nat.leb _ _).
    + rewrite join_plain by exact Hl. rewrite join_plain by exact He. reflexivity.
    + rewrite join_plain by exact Hl. change (" " ++ bslash ++ nl ++ tab ++ tail1 (" " ++ e) ++ nl) with (" " ++ (bslash ++ nl ++ tab ++ e ++ nl)).
      rewrite (join_plain " ") by reflexivity. rewrite join_cont, join_plain by exact He. reflexivity.
  - inversion Hn as [|? ? Hx Ht]; subst. destruct (Nat.leb _ _).
    + replace ((l ++ ", ") ++ x ++ ", ") with ((l ++ ", " ++ x) ++ ", ") by (rewrite !sapp_assoc; reflexivity).
      rewrite IH; [rewrite !sapp_assoc; reflexivity|exact Ht|]. rewrite !plain_app, Hl, Hx. reflexivity.
    + rewrite fill_prefix. rewrite join_plain by (rewrite plain_app, Hl; reflexivity).
      rewrite join_cont, IH by assumption. rewrite !sapp_assoc. reflexivity.
Qed.

Lemma end_code_form n : exists e, end_code n = " " ++ e /\ plain e = true.
Proof.
  unfold end_code. destruct (Nat.eqb n 0).
  - exists "= Signal()". split; reflexivity.
  - exists ("= Signals(" ++ dec n ++ ")"). split; [reflexivity|]. rewrite !plain_app.
    assert (plain (dec n) = true) as ->.
    { unfold dec. generalize (Nat.to_uint n). induction u; cbn; auto. }
    reflexivity.
Qed.

Lemma gen_body_join mw names : names <> [] -> all_plain names ->
  join_lines (gen_body mw names) = tab ++ String.concat ", " names ++ end_code (List.length names) ++ nl.
Proof.
  intros Hne Hn. destruct names as [|x t]; [contradiction|]. unfold gen_body.
  destruct (end_code_form (List.length (x :: t))) as [e [-> He]]. inversion Hn as [|? ? Hx Ht]; subst.
  rewrite fill_prefix, join_tab, fill_join by assumption. rewrite concat_more, !sapp_assoc. reflexivity.
Qed.

(** widths *)
Lemma fits_plain mw : forall a col b, plain a = true -> col + length a <= mw ->
  fits mw (col + length a) b -> fits mw col (a ++ b).
Proof.
  induction a as [|c a IH]; intros col b Hp Hw Hf; [cbn in *; rewrite Nat.add_0_r in Hf; exact Hf|].
  cbn in Hp, Hw. apply andb_prop in Hp. destruct Hp as [Hc Hp]. unfold special in Hc.
  apply negb_true_iff in Hc. apply orb_false_iff in Hc. destruct Hc as [Hc _]. apply orb_false_iff in Hc. destruct Hc as [Hc1 Hc2].
  cbn [append fits]. rewrite Hc1, Hc2. split; [lia|]. apply IH; [exact Hp|lia|].
  cbn [length] in Hf. replace (col + 1 + length a) with (col + S (length a)) by lia. exact Hf.
Qed.
Lemma fits_nl mw col s : fits mw 0 s -> fits mw col (nl ++ s).
Proof. intros H. exact H. Qed.
Lemma fits_tab mw s : 4 <= mw -> fits mw 4 s -> fits mw 0 (tab ++ s).
Proof. intros H1 H2. cbn. split; assumption. Qed.
Lemma fits_bslash mw col s : col + 1 <= mw -> fits mw (col + 1) s -> fits mw col (bslash ++ s).
Proof. intros H1 H2. cbn. split; assumption. Qed.

Lemma fill_fits mw e : plain e = true -> 4 + length e <= mw ->
  forall names, all_plain names -> Forall (fun x => 4 + length x + 3 <= mw) names ->
  forall l w, plain l = true -> w = 4 + length l + 3 -> w <= mw ->
  fits mw 4 (fill mw (" " ++ e) names (l ++ ", ") w).
Proof.
  intros He Hew. induction names as [|x t IH]; intros Hn Hf l w Hl Hw Hle; cbn [fill].
  - rewrite drop_last2_app. destruct (Nat.leb_spec (w - 3 + length (" " ++ e)) mw) as [Hfit|Hnot].
    + apply fits_plain; [exact Hl|lia|]. apply fits_plain; [exact He|lia|]. constructor.
    + apply fits_plain; [exact Hl|lia|]. change (" " ++ bslash ++ nl ++ tab ++ tail1 (" " ++ e) ++ nl) with (" " ++ (bslash ++ nl ++ tab ++ e ++ nl)).
      apply fits_plain; [reflexivity|cbn; lia|]. apply fits_bslash; [cbn; lia|]. apply fits_nl, fits_tab; [lia|].
      apply fits_plain; [exact He|lia|]. constructor.
  - inversion Hn as [|? ? Hx Ht]; subst. inversion Hf as [|? ? Hfx Hft]; subst.
    destruct (Nat.leb_spec (4 + length l + 3 + length x + 2) mw) as [Hfit|Hnot].
    + replace ((l ++ ", ") ++ x ++ ", ") with ((l ++ ", " ++ x) ++ ", ") by (rewrite !sapp_assoc; reflexivity).
      apply IH; [exact Ht|exact Hft| | |lia].
      * rewrite !plain_app, Hl, Hx. reflexivity.
      * rewrite !slen_app. cbn [length]. lia.
    + apply fits_plain; [rewrite plain_app, Hl; reflexivity|rewrite slen_app; cbn [length]; lia|].
      apply fits_bslash; [rewrite slen_app; cbn [length]; lia|]. apply fits_nl. rewrite fill_prefix.
      apply fits_tab; [lia|]. apply IH; [exact Ht|exact Hft|exact Hx|lia|lia].
Qed.

Lemma gen_body_fits mw names : all_plain names -> Forall (fun x => 4 + length x + 3 <= mw) names ->
  4 + (length (end_code (List.length names)) - 1) <= mw -> fits mw 0 (gen_body mw names).
Proof.
  intros Hn Hf He. destruct names as [|x t]; [exact I|]. unfold gen_body.
  destruct (end_code_form (List.length (x :: t))) as [e [E Hp]]. rewrite E in *. rewrite slen_app in He. cbn [length] in He.
  inversion Hn as [|? ? Hx Ht]; subst. inversion Hf as [|? ? Hfx Hft]; subst.
  rewrite fill_prefix. apply fits_tab; [lia|]. apply fill_fits; try assumption; lia.
Qed.

(** sorting *)
Definition sle (a b : string) : Prop := String.leb a b = true.
Lemma leb_total a b : String.leb a b = false -> String.leb b a = true.
Proof. destruct (String.leb_total a b) as [H|H]; congruence. Qed.
Lemma insert_perm x l : Permutation (x :: l) (insert x l).
Proof.
  induction l as [|y l IH]; cbn; [reflexivity|]. destruct (String.leb x y); [reflexivity|].
  rewrite perm_swap. apply perm_skip. exact IH.
Qed.
Lemma sort_perm l : Permutation l (sort l).
Proof. induction l as [|x l IH]; cbn; [reflexivity|]. rewrite <- insert_perm. apply perm_skip. exact IH. Qed.
Lemma insert_sorted x l : Sorted sle l -> Sorted sle (insert x l).
Proof.
  induction l as [|y l IH]; intros H; cbn; [repeat constructor|].
  destruct (String.leb x y) eqn:E; [constructor; [exact H|constructor; exact E]|].
  inversion H as [|? ? Hs Hh]; subst. constructor; [apply IH; exact Hs|].
  destruct l as [|z l]; cbn; [constructor; apply leb_total; exact E|].
  destruct (String.leb x z); constructor; [apply leb_total; exact E|inversion Hh; assumption].
Qed.
Lemma sort_sorted l : Sorted sle (sort l).
Proof. induction l as [|x l IH]; cbn; [constructor|]. apply insert_sorted. exact IH. Qed.
Lemma sort_plain l : all_plain l -> all_plain (sort l).
Proof. intros H. unfold all_plain in *. rewrite <- sort_perm. exact H. Qed.

(** the generators *)
Lemma gen_from_ok mw sel : sel <> [] -> gen_from mw sel = Ok (gen_body mw (sort sel)).
Proof.
  intros H. unfold gen_from. rewrite <- (Permutation_length (sort_perm sel)).
  destruct sel; [contradiction|reflexivity].
Qed.
Lemma gen_from_nil mw : gen_from mw [] = Exn AssertionError.
Proof. reflexivity. Qed.

(** selection *)
Lemma prefix_split p s : String.prefix p s = true -> s = p ++ drop (length p) s.
Proof.
  revert s. induction p as [|c p IH]; intros s H.
  - unfold drop. cbn [length]. rewrite Nat.sub_0_r. cbn. clear.
    induction s as [|c s IH]; cbn; [reflexivity|]. rewrite <- IH. reflexivity.
  - destruct s as [|d s]; [discriminate|]. cbn in H. destruct (ascii_dec c d) as [->|]; [|discriminate].
    cbn [append]. unfold drop. cbn. f_equal. rewrite (IH s H) at 1. reflexivity.
Qed.
Lemma prefix_app p s : String.prefix p (p ++ s) = true.
Proof. induction p as [|c p IH]; cbn; [destruct s; reflexivity|]. destruct (ascii_dec c c); [exact IH|contradiction]. Qed.
Lemma sapp_inj p a b : p ++ a = p ++ b -> a = b.
Proof. induction p as [|c p IH]; cbn; [auto|]. intros [= H]. exact (IH H). Qed.

Lemma select_prefix_in p dut s : In s (select_prefix p dut) <-> In (p ++ s) dut.
Proof.
  unfold select_prefix. rewrite in_flat_map. split.
  - intros [n [Hn Hs]]. destruct (String.prefix p n) eqn:E; [|contradiction]. destruct Hs as [<-|[]].
    rewrite <- (prefix_split p n E). exact Hn.
  - intros H. exists (p ++ s). split; [exact H|]. rewrite prefix_app. left.
    apply (sapp_inj p). symmetry. apply prefix_split. apply prefix_app.
Qed.
(** the selection keeps multiplicities: mapping the prefix back gives the matching pins *)
Lemma select_prefix_map p dut : map (append p) (select_prefix p dut) = filter (String.prefix p) dut.
Proof.
  induction dut as [|n dut IH]; [reflexivity|]. cbn. destruct (String.prefix p n) eqn:E; cbn; [|exact IH].
  rewrite <- (prefix_split p n E). f_equal. exact IH.
Qed.
Lemma select_dict_in d dut k : In k (select_dict d dut) <-> exists v, In (k, v) d /\ In v dut.
Proof.
  unfold select_dict. rewrite in_flat_map. split.
  - intros [[k' v] [H1 H2]]. cbn [fst snd] in H2. destruct (existsb (String.eqb v) dut) eqn:E; [|contradiction].
    destruct H2 as [<-|[]]. exists v. split; [exact H1|]. apply existsb_exists in E. destruct E as [x [Hx Ex]].
    apply String.eqb_eq in Ex. subst. exact Hx.
  - intros [v [H1 H2]]. exists (k, v). split; [exact H1|]. cbn [fst snd].
    assert (existsb (String.eqb v) dut = true) as ->; [|left; reflexivity].
    apply existsb_exists. exists v. split; [exact H2|apply String.eqb_refl].
Qed.
Lemma select_dict_nodup d dut : NoDup (map fst d) -> NoDup (select_dict d dut).
Proof.
  induction d as [|[k v] d IH]; intros H; [constructor|]. cbn [map fst] in H. inversion H as [|? ? Hk Hd]; subst.
  cbn. destruct (existsb (String.eqb v) dut); cbn; [|exact (IH Hd)]. constructor; [|exact (IH Hd)].
  intros Hin. apply select_dict_in in Hin. destruct Hin as [v' [Hv' _]]. apply Hk. apply (in_map fst) in Hv'. exact Hv'.
Qed.
