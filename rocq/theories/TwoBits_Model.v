(** Model of toffee/utils/two_bits_counter.py (class TwoBitsCounter, lines 1-21). *)
From Coq Require Import ZArith List Bool.
Import ListNotations.
Open Scope Z_scope.

(** two_bits_counter.py:11-12: [self.counter = init_value]; the state is the counter. *)
Definition tb_init (init_value : Z) : Z := init_value.

(** two_bits_counter.py:14-18.  [taken] is the Python truth value of the argument. *)
Definition tb_update (counter : Z) (taken : bool) : Z :=
  if taken then Z.min (counter + 1) 3 else Z.max (counter - 1) 0.

(** two_bits_counter.py:20-21 *)
Definition tb_get_prediction (counter : Z) : Z := if counter >? 1 then 1 else 0.

(** The counter after a sequence of [update] calls (two_bits_counter.py:14-18 called in order). *)
Definition tb_run (init_value : Z) (h : list bool) : Z := fold_left tb_update h (tb_init init_value).
