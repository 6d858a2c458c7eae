(** Specification vocabulary for names. *)
From Coq Require Import String Ascii Bool.
From Verif Require Import Names_Model.
Open Scope string_scope.

(** [s] contains "__" *)
Definition has_uu (s : string) : Prop := exists a b, s = a ++ "__" ++ b.
Definition ends_with_u (s : string) : Prop := exists a, s = a ++ "_".
(** the arguments exclude one another *)
Definition contradictory (x : args) : Prop :=
  (x_path x <> "" /\ (x_agent x <> "" \/ x_method x <> "")) \/ (x_agent x = "" /\ x_method x <> "").
