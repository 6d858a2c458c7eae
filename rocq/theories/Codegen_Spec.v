(** Specification vocabulary for generated code: joining continuation lines and measuring widths. *)
From Coq Require Import List String Ascii Arith Bool.
Import ListNotations.
Open Scope string_scope.

(** Names made of ordinary characters. *)
Definition special (c : ascii) : bool :=
  Ascii.eqb c "009"%char || Ascii.eqb c "010"%char || Ascii.eqb c "\"%char.
Fixpoint plain (s : string) : bool :=
  match s with EmptyString => true | String c t => negb (special c) && plain t end.

(** The text with every continuation (backslash, newline, tab) removed. *)
Fixpoint join_lines (s : string) : string :=
  match s with
  | String a ((String b (String c t)) as r) =>
      if Ascii.eqb a "\"%char && Ascii.eqb b "010"%char && Ascii.eqb c "009"%char
      then join_lines t
      else String a (join_lines r)
  | String a r => String a (join_lines r)
  | EmptyString => EmptyString
  end.

(** No line, read from column [col] with tabs of width 4, passes column [max]. *)
Fixpoint fits (max col : nat) (s : string) : Prop :=
  match s with
  | EmptyString => True
  | String c t =>
      if Ascii.eqb c "010"%char then fits max 0 t
      else let col := col + (if Ascii.eqb c "009"%char then 4 else 1) in col <= max /\ fits max col t
  end.

(** The groups of a match one after the other; a group that took no part in the match contributes nothing. *)
Inductive joined : list (option string) -> string -> Prop :=
| jo_none : joined [] ""
| jo_skip gs x : joined gs x -> joined (None :: gs) x
| jo_text g gs x : joined gs x -> joined (Some g :: gs) (g ++ x).
