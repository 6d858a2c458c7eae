(** Vocabulary for statements about executions of the event loop. *)
From Coq Require Import List Bool Arith ZArith.
From Verif Require Import Py Prio_Model Loop_Model.
Import ListNotations.
Open Scope nat_scope.

Section Spec.
Context {mem : Type}.
Notation prog := (@prog mem). Notation state := (@state mem).

(** The coroutines an operation hands to the loop. *)
Inductive part : @op mem prog -> prog -> Prop :=
| part_create p : part (OCreate p) p
| part_prio p z d : part (OPrio p z d) p.
(** Every operation a program can ever perform, in itself or in the coroutines it creates, satisfies [C]. *)
CoInductive allp (C : @op mem prog -> Prop) : prog -> Prop :=
| all_ret v : allp C (Ret v)
| all_raise e : allp C (Raise e)
| all_op o k : C o -> (forall p, part o p -> allp C p) -> (forall r, allp C (k r)) -> allp C (Op o k).

(** Operations that neither suspend the caller nor wake or create a task. *)
Definition calm_op (o : @op mem prog) : Prop :=
  match o with OMem _ | OMark _ | OFlag _ | OEvNew | OEvClear _ | OQNew | OQSize _ | OTimer | OPrio _ _ _ | OHasClock => True | _ => False end.
Definition calm (p : prog) : Prop := allp calm_op p.
(** Hooks registered without a completion event are calm (in toffee: the hooks of monitors). *)
Definition tame_op (o : @op mem prog) : Prop := match o with OPrio h _ false => calm h | _ => True end.
Definition tame (p : prog) : Prop := allp tame_op p.
(** No task is cancelled and no coroutine raises CancelledError of its own accord. *)
CoInductive nocancel : prog -> Prop :=
| nc_ret v : nocancel (Ret v)
| nc_raise e : e <> CancelledError -> nocancel (Raise e)
| nc_op o k : match o with OCancel _ => False | OMem f => forall m, snd (f m) <> Exn CancelledError | _ => True end ->
    (forall p, part o p -> nocancel p) -> (forall r, r <> Exn CancelledError -> nocancel (k r)) -> nocancel (Op o k).
(** Neither asyncio.gather nor asyncio.sleep(d) with d > 0 is used. *)
Definition direct_op (o : @op mem prog) : Prop := match o with OGather _ | OTimer => False | _ => True end.

(** Task [t] is not done. *)
Definition unfinished (s : state) (t : id) : Prop := In t (live s).
(** The future [t] is suspended on. *)
Definition waits_for (s : state) (t f : id) : Prop := exists k, tget s t = Some k /\ k_wait k = Some f.
Definition state_of (s : state) (f : id) : option fstate := option_map f_st (fget s f).
(** The loop is going to resume task [t]: its handle is in the ready queue. *)
Definition runnable (s : state) (t : id) : Prop := exists h, In h (ready s) /\ (h = HStep t \/ (exists e, h = HThrow t e) \/ (exists f, h = HWake t f)).
(** The clock task [c] is about to call dut.Step. *)
Definition at_step (s : state) (c : id) : Prop := exists l, cur s = Some (c, BClk (CStep l)).
Definition at_cycle (s : state) (c : id) : Prop := cur s = Some (c, BClk (CStep false)).
End Spec.
