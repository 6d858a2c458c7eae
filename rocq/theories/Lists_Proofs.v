(** Element names of lists. *)
From Coq Require Import List String Ascii Bool Arith Lia Decimal DecimalNat DecimalString DecimalFacts.
From Verif Require Import Py Bundle_Model Bundle_Spec Bundle4_Proofs Lists_Model Lists_Spec.
Import ListNotations.
Open Scope string_scope.

Fixpoint alldig (s : string) : Prop := match s with EmptyString => True | String a t => digit a = true /\ alldig t end.
Lemma uint_dig u : alldig (NilEmpty.string_of_uint u). Proof. induction u; cbn; auto. Qed.
Lemma dec_dig i : alldig (dec i). Proof. apply uint_dig. Qed.
Lemma dec_inj i j : dec i = dec j -> i = j.
Proof.
  unfold dec. intros H. assert (E : Nat.to_uint i = Nat.to_uint j) by (assert (A := NilEmpty.usu (Nat.to_uint i)); rewrite H, NilEmpty.usu in A; congruence).
  rewrite <- (Unsigned.of_to i), <- (Unsigned.of_to j). now rewrite E.
Qed.
(** Leading digits. *)
Fixpoint drun (s : string) : nat := match s with String a t => if digit a then S (drun t) else 0 | EmptyString => 0 end.
Fixpoint frun (fmt : string) (L : nat) : nat :=
  match fmt with EmptyString => 0 | String a t => if Ascii.eqb a "#"%char then L + frun t L else if digit a then S (frun t L) else 0 end.
Lemma drun_app d s : alldig d -> drun (d ++ s) = String.length d + drun s.
Proof. induction d as [|a d IH]; cbn; [auto|]. intros [-> H]. now rewrite IH. Qed.
Lemma drun_none s : no_digit s -> drun s = 0. Proof. destruct s as [|a t]; cbn; [auto|]. now intros ->. Qed.
Lemma drun_rep fmt d s : alldig d -> no_digit s -> drun (replace_hash fmt d ++ s) = frun fmt (String.length d).
Proof.
  intros Hd Hs. induction fmt as [|a t IH]; cbn [replace_hash frun append]; [now apply drun_none|]. destruct (Ascii.eqb a "#"%char).
  - now rewrite sapp_assoc, drun_app, IH.
  - cbn [append drun]. destruct (digit a); [now rewrite IH|reflexivity].
Qed.
Lemma frun_mono fmt L L' : L <= L' -> frun fmt L <= frun fmt L'.
Proof. intros H. induction fmt as [|a t IH]; cbn; [auto|]. destruct (Ascii.eqb a "#"%char); [lia|]. destruct (digit a); lia. Qed.
Lemma app_len_inj a b s t : String.length a = String.length b -> a ++ s = b ++ t -> a = b /\ s = t.
Proof.
  revert b. induction a as [|x a IH]; intros [|y b] L H; try discriminate; [now split|]. cbn in H. injection H as -> H. cbn in L. injection L as L. destruct (IH b L H) as [-> ->]. now split.
Qed.
Lemma rep_inj fmt d1 d2 s t : has_hash fmt = true -> alldig d1 -> alldig d2 -> no_digit s -> no_digit t -> replace_hash fmt d1 ++ s = replace_hash fmt d2 ++ t -> d1 = d2 /\ s = t.
Proof.
  intros Hh D1 D2 Hs Ht H. assert (E : d1 = d2).
  { induction fmt as [|a f IH]; cbn [replace_hash has_hash] in *; [discriminate|]. destruct (Ascii.eqb a "#"%char).
    - rewrite !sapp_assoc in H. assert (L : String.length d1 = String.length d2).
      { assert (X := f_equal drun H). rewrite (drun_app d1), (drun_app d2), !drun_rep in X by auto. destruct (le_lt_dec (String.length d1) (String.length d2)) as [G|G].
        - pose proof (frun_mono f _ _ G). lia.
        - pose proof (frun_mono f _ _ (Nat.lt_le_incl _ _ G)). lia. }
      now apply (app_len_inj d1 d2) in H.
    - cbn [append] in H. injection H as H. now apply IH. }
  subst d2. split; [reflexivity|]. now apply (app_len_inj (replace_hash fmt d1) (replace_hash fmt d1)) in H.
Qed.
