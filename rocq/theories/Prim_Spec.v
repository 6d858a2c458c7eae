(** Vocabulary for the calls of asynchronous.py that may wait. *)
From Coq Require Import List Bool Arith ZArith.
From Verif Require Import Py Prio_Model Loop_Model Loop_Spec Loop2_Spec.
Import ListNotations.
Open Scope nat_scope.

Section Spec.
Context {mem : Type}.
Notation prog := (@prog mem). Notation state := (@state mem).

(** Task [t] is the one that runs. *)
Definition active (s : state) (t : id) : Prop := exists b, cur s = Some (t, b).
(** What task [t] takes out of the queue [q] in the next step. *)
Definition taken_by (s : state) (t q : id) : list lval := match cur s with Some (u, _) => if Nat.eqb u t then got_by s q else [] | None => [] end.
(** The event is set. *)
Definition event_on (s : state) (e : id) : Prop := exists ev, nth_error (evs s) e = Some ev /\ e_val ev = true.
(** In the next step somebody sets the event: a coroutine calls set(), the clock ends the cycle (event 0, the clock event), or a registered hook that
    carries this event ends. *)
Definition sets_event (s : state) (e : id) : Prop :=
  current_op s = Some (OEvSet e) \/ (e = 0 /\ exists c, at_step s c) \/ exists c v todo b, cur s = Some (c, BHook (Ret v) (Some e) todo b).

Context (shuffle : list id -> list id) (dut delayers : mem -> mem).
Notation steps := (steps shuffle dut delayers). Notation step := (step shuffle dut delayers).
(** An execution from [s] in which task [t] takes the given items out of [q], in order. *)
Inductive taken (t q : id) (s : state) : state -> list lval -> Prop :=
| tk_refl : taken t q s s []
| tk_step s1 l fire : taken t q s s1 l -> taken t q s (step fire s1) (l ++ taken_by s1 t q).
(** The event was set in [s] or has been set since. *)
Definition set_since (s s' : state) (e : id) : Prop := event_on s e \/ exists x fire, steps s x /\ sets_event x e /\ steps (step fire x) s'.
(** Task [u] has run on the way. *)
Definition ran_since (s s' : state) (u : id) : Prop := exists x, steps s x /\ steps x s' /\ active x u.
End Spec.
