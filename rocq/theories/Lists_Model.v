(** SignalList and BundleList (toffee/bundle.py:66-136): the names of their elements. *)
From Coq Require Import List String Ascii Bool Arith.
From Verif Require Import Py Bundle_Model.
Import ListNotations.
Open Scope string_scope.

(** Python's format.replace("#", r). *)
Fixpoint replace_hash (fmt r : string) : string :=
  match fmt with
  | EmptyString => EmptyString
  | String a t => if Ascii.eqb a "#"%char then r ++ replace_hash t r else String a (replace_hash t r)
  end.
Fixpoint has_hash (fmt : string) : bool := match fmt with EmptyString => false | String a t => Ascii.eqb a "#"%char || has_hash t end.

(** bundle.py:67-78, 119-132: the names, with the assertions; [rule] is the argument rule, default: str (75, 126). *)
Definition list_names (fmt : string) (limit : nat) (rule : option (nat -> string)) : res (list string) :=
  if Nat.eqb limit 0 then Exn AssertionError
  else if negb (has_hash fmt) then Exn AssertionError
  else Ok (map (fun i => replace_hash fmt (match rule with Some f => f i | None => dec i end)) (seq 0 limit)).

(** 72: the signals of the list called [n], not yet connected. *)
Definition signal_list (n : string) (names : list string) : list leaf := map (fun x => mk_leaf (LEl n (fst x)) (snd x) true SPlaceholder) (combine (seq 0 (List.length names)) names).
(** 963-985 [from_prefix] without a DUT: a new instance with a prefix rule. *)
Definition with_prefix (c : bundle) (p : string) : bundle := match c with B nm _ ls sls ks bls ck => B nm (MPrefix p) ls sls ks bls ck end.
(** 133: bundle.from_prefix(name) for each name; [c]: an instance of the class. *)
Definition bundle_list (n : string) (c : bundle) (names : list string) : list (seg * bundle) :=
  map (fun x => (PElem n (fst x), with_prefix c (snd x))) (combine (seq 0 (List.length names)) names).
