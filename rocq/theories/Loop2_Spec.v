(** More vocabulary for statements about executions: what a task is doing. *)
From Coq Require Import List Bool Arith ZArith.
From Verif Require Import Py Prio_Model Loop_Model Loop_Spec.
Import ListNotations.
Open Scope nat_scope.

Section Spec.
Context {mem : Type}.
Notation prog := (@prog mem). Notation state := (@state mem). Notation body := (@body mem).

(** Task [t] is running and [p] is what remains of its coroutine (of the test, for the main task). *)
Definition runs (s : state) (t : id) (p : prog) : Prop := cur s = Some (t, BProg p) \/ cur s = Some (t, BTest p).
(** Task [t] is inside [Event.wait] of the event [e]: suspended on one of its futures, or just resumed and about to return. *)
Definition inside_wait (s : state) (t e : id) : Prop :=
  (exists f fu, waits_for s t f /\ fget s f = Some fu /\ f_kind fu = KEv e) \/ (exists f r k, cur s = Some (t, BEv e f r k)).
(** Task [t] is suspended in [get()] of the queue [q]: it awaits a future of the queue that is still pending. *)
Definition waits_to_get (s : state) (t q : id) : Prop := exists f fu, waits_for s t f /\ fget s f = Some fu /\ f_kind fu = KQueue q /\ f_st fu = Pending.
(** Task [t] was suspended in [get()] of [q], has been told to look again, and has not done so yet. *)
Definition woken_to_get (s : state) (t q : id) : Prop :=
  (exists f fu v, In (HWake t f) (ready s) /\ fget s f = Some fu /\ f_kind fu = KQueue q /\ f_st fu = Finished v) \/ (exists f r k, cur s = Some (t, BGet q f r k)).
(** The operation the running task performs now. *)
Definition current_op (s : state) : option (@op mem prog) :=
  match cur s with Some (_, BProg (Op o _)) | Some (_, BHook (Op o _) _ _ _) | Some (_, BTest (Op o _)) => Some o | _ => None end.
Definition items (s : state) (q : id) : list lval := match nth_error (qs s) q with Some qu => q_items qu | None => [] end.
(** What the next step puts into the queue [q]. *)
Definition put_by (s : state) (q : id) : list lval :=
  match current_op s with Some (OQPut q' v) => if Nat.eqb q' q && Nat.ltb q (List.length (qs s)) then [v] else [] | _ => [] end.
(** The running task [t] looks into the queue [q] in [get()]; [K] is what it does with the outcome. *)
Definition looks (s : state) (t q : id) (K : res lval -> body) : Prop :=
  (exists k, cur s = Some (t, BProg (Op (OQGet q) k)) /\ K = fun r => BProg (k r)) \/
  (exists k ev todo sb, cur s = Some (t, BHook (Op (OQGet q) k) ev todo sb) /\ K = fun r => BHook (k r) ev todo sb) \/
  (exists k, cur s = Some (t, BTest (Op (OQGet q) k)) /\ K = fun r => BTest (k r)) \/
  (exists f v, cur s = Some (t, BGet q f (Ok v) K)).
Definition looksb (s : state) (q : id) : bool :=
  match current_op s, cur s with Some (OQGet q'), _ => Nat.eqb q' q | _, Some (_, BGet q' _ (Ok _) _) => Nat.eqb q' q | _, _ => false end.
(** What the next step takes out of [q] (theorem [C62_get_delivers]: this is what the task gets). *)
Definition got_by (s : state) (q : id) : list lval := if looksb s q then firstn 1 (items s q) else [].

Context (shuffle : list id -> list id) (dut delayers : mem -> mem).
(** The values put into and taken out of [q] during an execution, in order. *)
Inductive history (q : id) : state -> list lval -> list lval -> Prop :=
| h_init test m : history q (init test m) [] []
| h_step s fire P G : history q s P G -> history q (step shuffle dut delayers fire s) (P ++ put_by s q) (G ++ got_by s q).
(** Between [s] and [s1] a task was created for the coroutine [p], with the id [i]. *)
Definition made_between (s s1 : state) (p : prog) (i : id) : Prop :=
  exists s0, steps shuffle dut delayers s s0 /\ steps shuffle dut delayers s0 s1 /\ current_op s0 = Some (OCreate p) /\ i = List.length (futs s0).
(** Task [i] has returned [v]; it has failed with [e]. *)
Definition returned (s : state) (i : id) (v : lval) : Prop := state_of s i = Some (Finished (Ok v)).
Definition failed (s : state) (i : id) (e : exn) : Prop := state_of s i = Some (Finished (Exn e)) \/ (state_of s i = Some Canc /\ e = CancelledError).
End Spec.
