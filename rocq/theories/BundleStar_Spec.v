(** What a dictionary with "*" entries on any level says about a signal. *)
From Coq Require Import List String Bool Arith ZArith.
From Verif Require Import Py Bundle_Model Bundle_Spec BundleVal_Model BundleVal_Spec.
Import ListNotations.
Open Scope string_scope.

(** The "*" entry that counts for a signal reached by the names [p]: that of the innermost dictionary on the way that has one. *)
Fixpoint star (v : val) (p : list seg) {struct p} : option val :=
  match v with
  | VDict d =>
      match (match p with
             | [] => None
             | PSub n :: t => match dget d n with Some x => star x t | None => None end
             | PElem n i :: t => match dget d n with Some x => match item x i with Some y => star y t | None => None end | None => None end
             end) with
      | Some x => Some x
      | None => dget d "*"
      end
  | _ => None
  end.
(** The value for a signal: its own entry, otherwise the "*" that counts for it unless the pin is an output. *)
Definition told (v : val) (p : list seg) (l : leafid) (output : bool) : option val :=
  match look v p l with Some y => Some y | None => if output then None else star v p end.
(** Dictionaries have distinct keys, and no objects with their own assignment method, at any depth; what "*" stands for is arbitrary. *)
Inductive starred : val -> Prop :=
| starred_none : starred VNone
| starred_int z : starred (VInt z)
| starred_str s : starred (VStr s)
| starred_list l : (forall x, In x l -> starred x) -> starred (VList l)
| starred_dict d : NoDup (map fst d) -> (forall k x, In (k, x) d -> k <> "*" -> starred x) -> starred (VDict d).
