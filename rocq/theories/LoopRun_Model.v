(** Executing the machine: used by the examples and the refuted claims. *)
From Coq Require Import List Bool Arith ZArith.
From Verif Require Import Py Prio_Model Loop_Model.
Import ListNotations.
Open Scope nat_scope.

Section Run.
Context {mem : Type} (shuffle : list id -> list id) (dut delayers : mem -> mem).
(** [n] steps without expiring timers. *)
Fixpoint run (n : nat) (s : @state mem) : @state mem := match n with 0 => s | S m => run m (step shuffle dut delayers [] s) end.
(** The number of steps after which [p] holds for the first time, at most [n]. *)
Fixpoint find (p : @state mem -> bool) (n : nat) (s : @state mem) : option nat :=
  if p s then Some 0 else match n with 0 => None | S m => option_map S (find p m (step shuffle dut delayers [] s)) end.
End Run.
Definition at_cycleb {mem} (s : @state mem) : bool := match cur s with Some (_, BClk (CStep false)) => true | _ => false end.
Definition ownedb (h : handle) : bool := match h with HStep _ | HThrow _ _ | HWake _ _ => true | _ => false end.
Definition noisyb {mem} (s : @state mem) : bool := at_cycleb s && existsb ownedb (ready s).
