(** Model of toffee/utils/plru.py (class PLRU, lines 1-24).

    [bits] is the nested Python list; every list access that Python checks is checked here
    ([None] = IndexError).  Simplification: [math.ceil(math.log2(n))] is the exact
    [Z.log2_up n]; Python's float logarithm agrees with it for every realistic n
    (it could differ only near 2^49 and above). *)
From Coq Require Import ZArith List Bool.
Import ListNotations.
Open Scope Z_scope.

(** Python list read [l[i]] for i >= 0: [None] models IndexError (plru.py:17,18,23). *)
Definition pl_get_bit (bits : list (list Z)) (i pos : nat) : option Z :=
  match nth_error bits i with
  | Some row => nth_error row pos
  | None => None
  end.

(** Python list write [l[i] = v] (plru.py:17). *)
Fixpoint pl_set {A} (l : list A) (i : nat) (v : A) : option (list A) :=
  match l, i with
  | [], _ => None
  | _ :: t, O => Some (v :: t)
  | x :: t, S j => match pl_set t j v with Some t' => Some (x :: t') | None => None end
  end.

(** [self.bits[i][pos] = v] (plru.py:17). *)
Definition pl_set_bit (bits : list (list Z)) (i pos : nat) (v : Z) : option (list (list Z)) :=
  match nth_error bits i with
  | Some row => match pl_set row pos v with Some row' => pl_set bits i row' | None => None end
  | None => None
  end.

(** plru.py:7-12: state of a PLRU object. *)
Record plru := mk_plru { ways_num : Z; layers : nat; bits : list (list Z) }.

(** plru.py:7-12 [__init__].  [math.log2] raises ValueError for n <= 0: [None]. *)
Definition plru_init (n : Z) : option plru :=
  if n <=? 0 then None
  else
    let ln := Z.to_nat (Z.log2_up n) in
    Some (mk_plru n ln (map (fun layer => repeat 0 (Nat.pow 2 layer)) (seq 0 ln))).

(** plru.py:16-18, one pass over the remaining layers i .. L-1; [n] = number of layers left. *)
Fixpoint plru_update_loop (L : nat) (way : Z) (n i pos : nat) (b : list (list Z))
  : option (list (list Z)) :=
  match n with
  | O => Some b
  | S n' =>
      let v := if Z.land way (Z.shiftl 1 (Z.of_nat (L - i - 1))) =? 0 then 1 else 0 in
      match pl_set_bit b i pos v with
      | None => None
      | Some b' =>
          match pl_get_bit b' i pos with
          | None => None
          | Some r => plru_update_loop L way n' (S i) (pos * 2 + (if r =? 0 then 1 else 0)) b'
          end
      end
  end.

(** plru.py:14-18 [update]. *)
Definition plru_update (p : plru) (way : Z) : option plru :=
  match plru_update_loop (layers p) way (layers p) 0 0 (bits p) with
  | None => None
  | Some b => Some (mk_plru (ways_num p) (layers p) b)
  end.

(** plru.py:21-23, remaining layers. [pos] may be any integer, since the stored bit is added. *)
Fixpoint plru_get_loop (n i : nat) (pos : Z) (b : list (list Z)) : option Z :=
  match n with
  | O => Some pos
  | S n' =>
      match pl_get_bit b i (Z.to_nat pos) with
      | None => None
      | Some r => plru_get_loop n' (S i) (pos * 2 + r) b
      end
  end.

(** plru.py:20-24 [get]; it writes nothing, so the state is not returned. *)
Definition plru_get (p : plru) : option Z := plru_get_loop (layers p) 0 0 (bits p).
