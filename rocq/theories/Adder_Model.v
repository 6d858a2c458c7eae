(** Model of example/adder/env/refmodel.py. *)
From Coq Require Import ZArith Bool.
From Verif Require Import Py.
Open Scope Z_scope.

(** example/adder/env/refmodel.py:5-10 [AdderModelWithDriverHook.exec_add]: (sum, cout). *)
Definition exec_add (a b cin : Z) : Z * Z :=
  let result := a + b + cin in
  (Z.land result (Z.shiftl 1 64 - 1), Z.shiftr result 64).

(** example/adder/env/refmodel.py:14-18 [AdderModelWithMonitorHook.monitor_once]: two assertions. *)
Definition monitor_once (a b cin sum cout : Z) : res unit :=
  let s := a + b + cin in
  if negb (Z.eqb (Z.land s (Z.shiftl 1 64 - 1)) sum) then Exn AssertionError
  else if negb (Z.eqb (Z.shiftr s 64) cout) then Exn AssertionError
  else Ok tt.

(** example/adder/env/refmodel.py:28-40 [AdderModelWithPort.main]: one turn of the loop, given the
    operands taken from the driver port and the item taken from the monitor port. *)
Definition port_turn (ops : Z * Z * Z) (item : Z * Z * Z * Z * Z) : res unit :=
  let '(a, b, cin) := ops in
  let '(ra, rb, rcin, rsum, rcout) := item in
  let s := a + b + cin in
  if Z.eqb a ra && Z.eqb b rb && Z.eqb cin rcin && Z.eqb (Z.land s (Z.shiftl 1 64 - 1)) rsum
     && Z.eqb (Z.shiftr s 64) rcout
  then Ok tt else Exn AssertionError.
