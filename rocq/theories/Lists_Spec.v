(** Specification vocabulary for lists of signals and bundles. *)
From Coq Require Import List String Ascii Bool Arith.
From Verif Require Import Py Bundle_Model Bundle_Spec.
Import ListNotations.
Open Scope string_scope.

Definition digit (a : ascii) : bool := ((48 <=? nat_of_ascii a) && (nat_of_ascii a <=? 57))%nat%bool.
(** The text does not begin with a digit (so it is for every Python identifier). *)
Definition no_digit (s : string) : Prop := match s with String a _ => digit a = false | EmptyString => True end.
(** What comes after the rule of [c] itself: a name of a signal, or a name that a sub-bundle accepts. *)
Definition takes (c : bundle) (p : list seg) (l : leafid) (n : string) : Prop :=
  match p with
  | [] => exists x, leaf_in (b_leaves c) l = Some x /\ l_name x = n
  | sg :: t => match kid (b_kids c) sg with Some c' => accepts c' t l n | None => False end
  end.
(** The names that the signals and sub-bundles of [c] take do not begin with a digit. *)
Definition takes_names (c : bundle) : Prop := forall p l n, takes c p l n -> no_digit n.
(** A class of signals only. *)
Definition flat_class (nm : string) (sigs : list string) : bundle := B nm (MPrefix "") (map (fun n => mk_leaf (LSig n) n true SPlaceholder) sigs) [] [] [] None.
(** A bundle with the prefix [pre] that consists of one bundle list. *)
Definition only_list (nm pre lname : string) (els : list (seg * bundle)) : bundle := B nm (MPrefix pre) [] [] els [lname] None.
(** Likewise, a signal list. *)
Definition only_signals (nm pre lname : string) (els : list leaf) : bundle := B nm (MPrefix pre) els [lname] [] [] None.
