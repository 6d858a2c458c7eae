(** Lists of signals and of bundles, and the lengths of values. *)
From Coq Require Import List String Arith.
From Verif Require Import Py Bundle_Model Bundle_Spec BundleVal_Model.
Import ListNotations.

(** [v] has a length in Python, and it is [n]. *)
Inductive long : val -> nat -> Prop :=
| long_str s : long (VStr s) (String.length s)
| long_list l : long (VList l) (List.length l)
| long_dict d : long (VDict d) (List.length d).
(** [n] is a list of [N] signals; of [N] bundles. *)
Definition signals (b : bundle) (n : string) (N : nat) : Prop := In n (b_slists b) /\ forall i, slot_at b ([], LEl n i) <> None <-> i < N.
Definition bundles (b : bundle) (n : string) (N : nat) : Prop := In n (b_blists b) /\ forall i, (exists c, In (PElem n i, c) (b_kids b)) <-> i < N.
