(** Components (agents' models, environments with an execution flow) as programs of the loop model. *)
From Coq Require Import List Bool Arith ZArith.
From Verif Require Import Py Prio_Model Loop_Model LoopProg_Model.
Import ListNotations.
Open Scope nat_scope.

Section Comp.
Context {mem : Type}.
Notation prog := (@prog mem).

(** asynchronous.py:325-335 [Component.__main_wrapper], the coroutine of the task a component creates; [main]: 337-338 the method
    [main] the user overrides.  330 [hasattr(loop, "global_clock_event")] is [OHasClock], event 0 the clock event. *)
CoFixpoint component (main : prog) : prog :=
  Op OHasClock (fun r =>
    match r with
    | Ok (VBool true) => Let (OEvWait 0) (fun _ => main)
    | Ok _ => Op OSleep0 (fun r => match r with Ok _ => component main | Exn e => Raise e end)
    | Exn e => Raise e
    end).
(** asynchronous.py:322-323 [Component.__init__]: the task is created ([Component.create_task] is asyncio's), then [k]. *)
Definition new_component (main : prog) (k : lval -> prog) : prog := Let (OCreate (component main)) k.
End Comp.
