(** Vocabulary for the punctuality of hooks. *)
From Coq Require Import List Bool Arith ZArith.
From Verif Require Import Py Prio_Model Loop_Model Loop_Spec Loop2_Spec Loop3_Spec.
Import ListNotations.
Open Scope nat_scope.

Section Spec.
Context {mem : Type}.
Notation prog := (@prog mem). Notation state := (@state mem).
(** Operations that neither suspend the caller nor register a hook. *)
Definition instant_op (o : @op mem prog) : Prop := match o with OSleep0 | OAwait _ | OEvWait _ | OQGet _ | OPrio _ _ _ => False | _ => True end.
(** What a hook of toffee is: a coroutine around the call of a Python function that is not a coroutine function (_base_agent.py:66-104, 218-219). *)
CoInductive instant : prog -> Prop :=
| in_ret v : instant (Ret v)
| in_raise e : instant (Raise e)
| in_op o k : instant_op o -> (forall r, instant (k r)) -> instant (Op o k).
Definition plain_op (o : @op mem prog) : Prop := match o with OPrio h _ _ => instant h | _ => True end.
(** Every coroutine passed to add_priority_task is such a hook. *)
Definition plain_hooks (test : prog) : Prop := allp plain_op test.
(** The coroutine [h] is registered as a hook in [s], with an event if [d]. *)
Definition registers (s : state) (h : prog) (d : bool) : Prop := exists t z k, cur s = Some (t, BProg (Op (OPrio h z d) k)) \/ cur s = Some (t, BTest (Op (OPrio h z d) k)).
(** The clock task is about to run the hook [h] with the event [ev]. *)
Definition turn (s : state) (h : prog) (ev : option id) : Prop := exists c todo sb, cur s = Some (c, BHook h ev todo sb).
(** A task waits for something that has been cancelled. *)
Definition cancelling (s : state) : Prop := exists t f, waits_for s t f /\ state_of s f = Some Canc.
(** The work of the cycle is done: the clock task is about to call dut.Step or, when the test has returned, to cancel the other tasks first (asynchronous.py:103-112). *)
Definition cycle_done (s : state) (c : id) : Prop := at_cycle s c \/ at_cancel s c.
End Spec.
