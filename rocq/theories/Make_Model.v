(** Model of the ways to make a bundle (toffee/bundle.py: from_prefix, set_dict, from_dict, __check_dict_value, from_xport) on the trees of
    Bundle_Model.  The class a factory is called on is given by the bundle that cls() creates. *)
From Coq Require Import List String Ascii Bool Arith.
From Verif Require Import Py Bundle_Model.
Import ListNotations.
Open Scope string_scope.
Open Scope list_scope.

(** An attribute of a DUT object in dir() order: its name, the pin it holds (1512-1546: not callable, has xdata and event), whether "XData" is part of
    the name of its class (980). *)
Record attr := mk_attr { at_name : string; at_pin : option nat; at_xdata : bool }.
(** bundle.py:1532-1546: the DUT as bind sees it. *)
Definition dut_of (k : nat) (l : list attr) : dut := mk_dut k (flat_map (fun a => match at_pin a with Some i => [(at_name a, i)] | None => [] end) l).

Definition is_own (l : leaf) : bool := match l_id l with LSig _ => true | LEl _ _ => false end.
(** current_level_signals.append (982); the attribute does not exist yet. *)
Definition add_own (ls : list leaf) (ns : list string) : list leaf :=
  filter is_own ls ++ map (fun n => mk_leaf (LSig n) n false SAbsent) ns ++ filter (fun l => negb (is_own l)) ls.
(** 976-982 *)
Definition new_names (p : string) (l : list attr) : list string :=
  flat_map (fun a => match strip p (at_name a) with Some n => if at_xdata a then [n] else [] | None => [] end) l.
(** bundle.py:963-985 [from_prefix]; [None]: no dut was given. *)
Definition from_prefix (p : string) (o : option (list attr)) (b : bundle) : bundle :=
  match b with
  | B nm m ls sls ks bls ck => B nm (MPrefix p) (match o with None => ls | Some l => add_own ls (new_names p l) end) sls ks bls ck
  end.

(** bundle.py:585-598 [set_dict], 1005-1022 [from_dict] with 1404-1428 [__check_dict_value]: the bundle, and the names in the warning (none: no warning). *)
Definition with_dict (d : dict string) (b : bundle) : bundle * list string :=
  match b with
  | B nm _ ls sls ks bls ck =>
      let (b1, rest) := detect_b (B nm (MDict d) ls sls ks bls ck) (map (fun x => mk_entry (snd x) (fst x) 0) d) in (b1, map e_org rest)
  end.

(** bundle.py:1057-1072 [from_xport], 1024-1041 [new_class_from_list]: [x] are the keys and pins of the XPort. *)
Definition from_xport (x : list (string * nat)) : top :=
  mk_top (B "" (MPrefix "") (map (fun y => mk_leaf (LSig (fst y)) (fst y) false (SPin (snd y))) x) [] [] [] None) false None [].
