(** What a task that waits for a condition is expected to do. *)
From Coq Require Import List Bool Arith ZArith.
From Verif Require Import Py Prio_Model Loop_Model Loop_Spec Loop2_Spec Bind_Spec Live_Spec.
Import ListNotations.
Open Scope nat_scope.

Section Spec.
Context {mem : Type}.
Notation prog := (@prog mem). Notation state := (@state mem).
Context (shuffle : list id -> list id) (dut delayers : mem -> mem).
Notation steps := (steps shuffle dut delayers).
(** It is the turn of task [t]. *)
Definition turn (s : state) (t : id) : Prop := exists p, runs s t p.
(** An execution from [s] to [s'] through the moments [l], in this order, at which it is the turn of [t]; the [i]-th of them lies in cycle [n + i]: one per cycle. *)
Inductive moments (t : id) (n : nat) (s : state) : list state -> state -> Prop :=
| mo_nil s' : steps s s' -> moments t n s [] s'
| mo_next l y s' : moments t n s l y -> turn y t -> nstep y = n + List.length l -> steps y s' -> moments t n s (l ++ [y]) s'.
(** The call that [t] made in [s] comes back with [r] in [z]: in the same cycle as [y], the moment that decided it, and with the memory [m]. *)
Definition back (t : id) (K : res lval -> prog) (r : res lval) (y : state) (m : mem) (z : state) : Prop := steps y z /\ nstep z = nstep y /\ mm z = m /\ runs z t (K r).
(** It is cancelled (if the test cancels nothing: at the end of the test). *)
Definition cancelled_at (test : prog) (t : id) (K : res lval -> prog) (z : state) : Prop := runs z t (K (Exn CancelledError)) /\ (nocancel test -> test_over z).
(** Of the moments from cycle [n] on there have been [k]; whenever the clock is about to advance (before the end of a test that cancels nothing) the one of the current cycle is among them. *)
Definition seen_all (test : prog) (n k : nat) (s' : state) : Prop := forall c, nocancel test -> at_step s' c -> ~ test_over s' -> nstep s' < n + k.
(** [t], called in [s], looks at the memory in cycle [n] and in every cycle from then on; [holds]: what it waits for.  It comes back at the first moment at which it holds. *)
Definition first_moment (test : prog) (t : id) (K : res lval -> prog) (n : nat) (holds : mem -> Prop) (s s' : state) : Prop :=
  exists l, Forall (fun y => ~ holds (mm y)) l /\
   ((exists y z, moments t n s (l ++ [y]) s' /\ holds (mm y) /\ back t K (Ok VNone) y (mm y) z /\ steps z s') \/
    (exists z, moments t n s l z /\ cancelled_at test t K z /\ steps z s') \/
    (moments t n s l s' /\ awaiting s' t K /\ seen_all test n (List.length l) s')).
(** The same for what [t] sees from one cycle to the next: [edge a b] with the memories of two successive cycles; the first look is in the cycle of the call. *)
Definition no_edge (edge : mem -> mem -> Prop) (l : list state) : Prop :=
  forall i y y', nth_error l i = Some y -> nth_error l (Datatypes.S i) = Some y' -> ~ edge (mm y) (mm y').
Definition first_edge (test : prog) (t : id) (K : res lval -> prog) (edge : mem -> mem -> Prop) (s s' : state) : Prop :=
  exists l, (forall y, nth_error l 0 = Some y -> mm y = mm s) /\ no_edge edge l /\
   ((exists l0 x y z, l = l0 ++ [x] /\ moments t (nstep s) s (l ++ [y]) s' /\ edge (mm x) (mm y) /\ back t K (Ok VNone) y (mm y) z /\ steps z s') \/
    (exists z, moments t (nstep s) s l z /\ cancelled_at test t K z /\ steps z s') \/
    (moments t (nstep s) s l s' /\ awaiting s' t K /\ seen_all test (nstep s) (List.length l) s')).
End Spec.
