(** Property theorems for the example adder reference models: C60. *)
From Coq Require Import ZArith Bool Lia.
From Verif Require Import Py Adder_Model Adder_Proofs.
Open Scope Z_scope.

(** C60 *)
Theorem C60_adder : forall a b cin, 0 <= a < 2 ^ 64 -> 0 <= b < 2 ^ 64 -> 0 <= cin <= 1 ->
  let (sum, cout) := exec_add a b cin in
  sum + 2 ^ 64 * cout = a + b + cin /\ 0 <= sum < 2 ^ 64 /\ 0 <= cout <= 1.
Proof. exact exec_add_spec. Qed.
Print Assumptions C60_adder.

(** It is the only such pair, so the model accepts no other adder. *)
Theorem C60_adder_unique : forall a b cin sum cout,
  0 <= sum < 2 ^ 64 -> sum + 2 ^ 64 * cout = a + b + cin -> exec_add a b cin = (sum, cout).
Proof. exact exec_add_unique. Qed.
Print Assumptions C60_adder_unique.

(** The monitor variant passes exactly the correct results. *)
Theorem C60_adder_monitor : forall a b cin sum cout,
  monitor_once a b cin sum cout = Ok tt <-> exec_add a b cin = (sum, cout).
Proof. exact monitor_iff. Qed.
Print Assumptions C60_adder_monitor.

(** The port variant passes exactly when operands agree and the result is correct. *)
Theorem C60_adder_port : forall a b cin ra rb rcin rs rc,
  port_turn (a, b, cin) (ra, rb, rcin, rs, rc) = Ok tt <-> (ra, rb, rcin) = (a, b, cin) /\ exec_add a b cin = (rs, rc).
Proof. exact port_turn_iff. Qed.
Print Assumptions C60_adder_port.

Example C60_example : exec_add (2 ^ 64 - 1) 5 1 = (5, 1) /\ monitor_once 3 4 1 8 0 = Ok tt /\ monitor_once 3 4 1 7 0 = Exn AssertionError.
Proof. repeat split. Qed.
