(** Who is resumed first when the clock advances. *)
From Coq Require Import List Bool Arith ZArith.
From Verif Require Import Py Prio_Model Loop_Model Loop_Spec Loop2_Spec.
Import ListNotations.
Open Scope nat_scope.

Section Spec.
Context {mem : Type}.
Notation prog := (@prog mem). Notation state := (@state mem).

(** Task [t] is suspended in a wait for the clock event that the clock has not ended yet; [f]: the future it awaits. *)
Definition asleep_on (s : state) (t f : id) : Prop := waits_for s t f /\ exists fu, fget s f = Some fu /\ f_kind fu = KEv 0 /\ f_st fu = Pending.
Definition asleep (s : state) (t : id) : Prop := unfinished s t /\ exists f, asleep_on s t f.
(** Both wait for the clock event and [t] began to wait before [u] did. *)
Definition ahead (s : state) (t u : id) : Prop :=
  unfinished s t /\ unfinished s u /\ exists f g l1 l2 l3 b p, asleep_on s t f /\ asleep_on s u g /\ nth_error (evs s) 0 = Some (mk_event b (l1 ++ f :: l2 ++ g :: l3) p).
(** Task [t] is running, or suspended in a wait for the clock event that nobody has cancelled. *)
Definition clocked (s : state) (t : id) : Prop :=
  (exists b, cur s = Some (t, b)) \/ (unfinished s t /\ exists f fu, waits_for s t f /\ fget s f = Some fu /\ f_kind fu = KEv 0 /\ f_st fu <> Canc).

(** Neither has been run yet and the loop is going to run [t] first. *)
Definition scheduled_first (s : state) (t u : id) : Prop := unfinished s t /\ unfinished s u /\ exists l1 l2 l3, ready s = l1 ++ HStep t :: l2 ++ HStep u :: l3.
(** The task of the clock has not been run yet (or there is none). *)
Definition clock_fresh (s : state) : Prop :=
  forall c, clock s = Some c -> (forall b, cur s <> Some (c, b)) /\ exists tk, tget s c = Some tk /\ k_cont tk = start (BClk CInit).
(** Task [t] is running now. *)
Definition is_cur (s : state) (t : id) : bool := match cur s with Some (x, _) => Nat.eqb x t | None => false end.
(** What we ask of a task: to be scheduled for its first run until it has [begun], then to be running or in a wait for the clock event. *)
Definition on_time (begun : bool) (s : state) (t : id) : Prop := if begun then clocked s t else In (HStep t) (ready s).

Context (shuffle : list id -> list id) (dut delayers : mem -> mem).
(** An execution from [s] to [s'] in all states of which [P] holds. *)
Inductive along (P : state -> Prop) (s : state) : state -> Prop :=
| al_refl : P s -> along P s s
| al_step s1 fire : along P s s1 -> P (step shuffle dut delayers fire s1) -> along P s (step shuffle dut delayers fire s1).
(** An execution from [s] in which both tasks are always on time; the flags tell which of them has begun. *)
Inductive together (t u : id) (s : state) : bool -> bool -> state -> Prop :=
| to_refl : together t u s false false s
| to_step bt bu s1 fire : together t u s bt bu s1 ->
    on_time (bt || is_cur (step shuffle dut delayers fire s1) t) (step shuffle dut delayers fire s1) t ->
    on_time (bu || is_cur (step shuffle dut delayers fire s1) u) (step shuffle dut delayers fire s1) u ->
    together t u s (bt || is_cur (step shuffle dut delayers fire s1) t) (bu || is_cur (step shuffle dut delayers fire s1) u) (step shuffle dut delayers fire s1).
End Spec.
