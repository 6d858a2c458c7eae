(** Python vocabulary shared by the models: exceptions as values, insertion-ordered dictionaries.
    Nothing here models a file of /repo; it fixes how Python constructs are written in Gallina. *)
From Coq Require Import List String Bool ZArith.
Import ListNotations.

(** The exception classes that the modelled code can raise. [UserExn] stands for any exception
    raised by code supplied by the user (hooks, bins, conditions). *)
Inductive exn : Type :=
| AttributeError | ValueError | TypeError | KeyError | IndexError | AssertionError
| RuntimeError | CancelledError | UserExn (n : nat).

(** Outcome of a Python call. *)
Inductive res (A : Type) : Type :=
| Ok (a : A)
| Exn (e : exn).
Arguments Ok {A} a.
Arguments Exn {A} e.

Definition rbind {A B} (r : res A) (f : A -> res B) : res B :=
  match r with Ok a => f a | Exn e => Exn e end.

Definition is_ok {A} (r : res A) : bool := match r with Ok _ => true | Exn _ => false end.

(** A Python dict with string keys: insertion-ordered association list without duplicate keys. *)
Definition dict (V : Type) := list (string * V).

Fixpoint dget {V} (d : dict V) (k : string) : option V :=
  match d with
  | [] => None
  | (k', v) :: t => if String.eqb k k' then Some v else dget t k
  end.

Definition dmem {V} (d : dict V) (k : string) : bool :=
  match dget d k with Some _ => true | None => false end.

(** [d[k] = v]: an existing key keeps its place, a new key goes to the end. *)
Fixpoint dset {V} (d : dict V) (k : string) (v : V) : dict V :=
  match d with
  | [] => [(k, v)]
  | (k', v') :: t => if String.eqb k k' then (k', v) :: t else (k', v') :: dset t k v
  end.

(** [del d[k]] for a key that is present. *)
Fixpoint ddel {V} (d : dict V) (k : string) : dict V :=
  match d with
  | [] => []
  | (k', v') :: t => if String.eqb k k' then t else (k', v') :: ddel t k
  end.

Definition dkeys {V} (d : dict V) : list string := map fst d.

(** [repeat]-free membership test on lists of strings. *)
Fixpoint smem (x : string) (l : list string) : bool :=
  match l with [] => false | y :: t => String.eqb x y || smem x t end.
