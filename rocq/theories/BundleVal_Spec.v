(** Specification vocabulary for reading and writing bundles: what a dictionary says about a place. *)
From Coq Require Import List String Ascii Bool Arith ZArith.
From Verif Require Import Py Bundle_Model Bundle_Spec BundleVal_Model.
Import ListNotations.
Open Scope string_scope.

(** The i-th element of a value, if it has one. *)
Definition item (x : val) (i : nat) : option val := match vidx x i with Ok y => Some y | Exn _ => None end.

(** What a multilevel dictionary says about a place: follow the names; lists are followed by index. *)
Fixpoint look (v : val) (p : list seg) (l : leafid) : option val :=
  match v with
  | VDict d =>
      match p with
      | [] => match l with
              | LSig n => dget d n
              | LEl n i => match dget d n with Some x => item x i | None => None end
              end
      | PSub n :: t => match dget d n with Some x => look x t l | None => None end
      | PElem n i :: t => match dget d n with
                          | Some x => match item x i with Some y => look y t l | None => None end
                          | None => None
                          end
      end
  | _ => None
  end.

(** Dictionaries have distinct keys, none of them "*", and no objects with their own assignment method, at any depth. *)
Inductive plain : val -> Prop :=
| plain_none : plain VNone
| plain_int z : plain (VInt z)
| plain_str s : plain (VStr s)
| plain_list l : (forall x, In x l -> plain x) -> plain (VList l)
| plain_dict d : NoDup (map fst d) -> (forall k x, In (k, x) d -> k <> "*" /\ plain x) -> plain (VDict d).

(** The attribute names of one level, and the indices of the elements of a list. *)
Definition own_names (ls : list leaf) : list string := flat_map (fun l => match l_id l with LSig n => [n] | LEl _ _ => [] end) ls.
Definition sub_names (ks : list (seg * bundle)) : list string := flat_map (fun x => match fst x with PSub n => [n] | PElem _ _ => [] end) ks.
Definition leaf_idx (ls : list leaf) (k : string) : list nat :=
  flat_map (fun l => match l_id l with LEl n i => if String.eqb k n then [i] else [] | LSig _ => [] end) ls.
Definition kid_idx (ks : list (seg * bundle)) (k : string) : list nat :=
  flat_map (fun x => match fst x with PElem n i => if String.eqb k n then [i] else [] | PSub _ => [] end) ks.
Definition attrs (b : bundle) : list string := (own_names (b_leaves b) ++ b_slists b ++ sub_names (b_kids b) ++ b_blists b)%list.

(** The attributes of every level are distinct and not called "*", list elements belong to their lists and are numbered from 0. *)
Inductive shaped : bundle -> Prop :=
| shaped_B nm m ls sls ks bls ck :
    NoDup (own_names ls ++ sls ++ sub_names ks ++ bls) -> ~ In "*" (own_names ls ++ sls ++ sub_names ks ++ bls) ->
    (forall l n i, In l ls -> l_id l = LEl n i -> In n sls) ->
    (forall n i c, In (PElem n i, c) ks -> In n bls) ->
    (forall n, leaf_idx ls n = seq 0 (List.length (leaf_idx ls n))) ->
    (forall n, kid_idx ks n = seq 0 (List.length (kid_idx ks n))) ->
    (forall s c, In (s, c) ks -> shaped c) -> shaped (B nm m ls sls ks bls ck).

(** No pin is held by two signals of the bundle (see C42_once: so it is after bind). *)
Definition single (b : bundle) (i : nat) : Prop :=
  forall p q, slot_at b p = Some (SPin i) -> slot_at b q = Some (SPin i) -> p = q.

Definition holds (b : bundle) (pl : place) (i : nat) : Prop := slot_at b pl = Some (SPin i).
(** The bundle has a signal for the pin. *)
Definition held (b : bundle) (i : nat) : Prop := exists pl, holds b pl i.

(** A value with the structure of another one: same keys, lists of the same length, numbers for numbers. *)
Inductive alike : val -> val -> Prop :=
| alike_none : alike VNone VNone
| alike_int z z' : alike (VInt z) (VInt z')
| alike_list l l' : Forall2 alike l l' -> alike (VList l) (VList l')
| alike_dict d d' : NoDup (map fst d') -> (forall k, dget d k = None <-> dget d' k = None) ->
    (forall k x x', dget d k = Some x -> dget d' k = Some x' -> alike x x') -> alike (VDict d) (VDict d').

(** Equality of Python values: the order of keys does not matter. *)
Inductive same : val -> val -> Prop :=
| same_none : same VNone VNone
| same_int z : same (VInt z) (VInt z)
| same_str s : same (VStr s) (VStr s)
| same_list l l' : Forall2 same l l' -> same (VList l) (VList l')
| same_dict d d' : (forall k, dget d k = None <-> dget d' k = None) ->
    (forall k x x', dget d k = Some x -> dget d' k = Some x' -> same x x') -> same (VDict d) (VDict d').

(** The key of a flat dictionary for a place, and what a flat dictionary says about the place. *)
Definition leaf_name (l : leafid) : string := match l with LSig n | LEl n _ => n end.
Definition fkey (p : list seg) (l : leafid) : string := dotted p (LSig (leaf_name l)).
Definition pick (x : val) (l : leafid) : option val := match l with LSig _ => Some x | LEl _ j => item x j end.
Definition flook (d : list (string * val)) (p : list seg) (l : leafid) : option val :=
  match dget d (fkey p l) with Some x => pick x l | None => None end.
(** No bundle lists anywhere; the names of signal lists are identifiers; no name contains "*". *)
Inductive flat_tree : bundle -> Prop :=
| flat_tree_B nm m ls sls ks ck :
    (forall l, In l ls -> no_char "*"%char (leaf_name (l_id l))) -> (forall n, In n sls -> ident n /\ no_char "*"%char n) ->
    (forall s c, In (s, c) ks -> exists n, s = PSub n /\ no_char "*"%char n) -> (forall s c, In (s, c) ks -> flat_tree c) ->
    flat_tree (B nm m ls sls ks [] ck).
