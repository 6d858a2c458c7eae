(** Property theorems for toffee/utils/two_bits_counter.py: C01. *)
From Coq Require Import ZArith List Bool.
From Verif Require Import TwoBits_Model TwoBits_Proofs.
Import ListNotations.
Open Scope Z_scope.

(** C01: the counter is the clipped walk; prediction and hysteresis. *)
Theorem C01_counter_is_clipped_walk : forall c h c',
  0 <= c <= 3 -> (tb_run c h = c' <-> walk c h c').
Proof. exact tb_correct. Qed.
Print Assumptions C01_counter_is_clipped_walk.

Theorem C01_prediction : forall c h, 0 <= c <= 3 ->
  0 <= tb_run c h <= 3 /\
  (tb_get_prediction (tb_run c h) = 1 <-> tb_run c h = 2 \/ tb_run c h = 3) /\
  (tb_get_prediction (tb_run c h) = 0 <-> tb_run c h = 0 \/ tb_run c h = 1).
Proof. exact tb_predict. Qed.
Print Assumptions C01_prediction.

Theorem C01_two_same_outcomes_decide : forall c h t, 0 <= c <= 3 ->
  tb_get_prediction (tb_run c (h ++ [t; t])) = if t then 1 else 0.
Proof. exact tb_two_same. Qed.
Print Assumptions C01_two_same_outcomes_decide.

Theorem C01_hysteresis : forall c h t, 0 <= c <= 3 ->
  tb_get_prediction (tb_run c (h ++ [t; t; t; negb t])) = if t then 1 else 0.
Proof. exact tb_hysteresis. Qed.
Print Assumptions C01_hysteresis.

Example C01_example : 0 <= 2 <= 3 /\ tb_run 2 [true; true; true; false; false; false] = 0.
Proof. split; [split; discriminate|reflexivity]. Qed.
