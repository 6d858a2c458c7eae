(** Model of toffee/utils/lfsr_64.py (class LFSR_64, lines 1-14).  Python ints are [Z]. *)
From Coq Require Import ZArith List Bool.
Open Scope Z_scope.

(** lfsr_64.py:2-3 [__init__] *)
Definition lfsr_init (seed : Z) : Z := Z.land seed (Z.shiftl 1 64 - 1).

(** lfsr_64.py:6-7 [get_bit] *)
Definition lfsr_get_bit (state x : Z) : Z := Z.land (Z.shiftr state x) 1.

(** lfsr_64.py:5-10 [step] *)
Definition lfsr_step (state : Z) : Z :=
  let new_bit :=
    Z.lxor (Z.lxor (Z.lxor (lfsr_get_bit state 0) (lfsr_get_bit state 1))
                   (lfsr_get_bit state 3)) (lfsr_get_bit state 4) in
  Z.lor (Z.shiftr state 1) (Z.shiftl new_bit 63).

(** lfsr_64.py:12-14 [rand] after [n] calls of [step] on LFSR_64(seed). *)
Definition lfsr_rand (seed : Z) (n : nat) : Z := Nat.iter n lfsr_step (lfsr_init seed).
