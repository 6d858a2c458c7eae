(** What asyncio.run does after the main coroutine has finished (toffee/asynchronous.py:282 [return asyncio.run(coro)]; CPython 3.10 asyncio/runners.py [run],
    [_cancel_all_tasks]), on top of Loop_Model.

    Simplified: the coroutines of shutdown_asyncgens and shutdown_default_executor, for which run lets the loop run again, are not tasks of the model; [goes] lets the
    loop run again at any time instead.  A debug report about tasks that have failed during the cleanup (call_exception_handler) is left out. *)
From Coq Require Import List Bool Arith.
From Verif Require Import Py Prio_Model Loop_Model.
Import ListNotations.
Open Scope nat_scope.

Section Cleanup.
Context {mem : Type} (shuffle : list id -> list id) (dut delayers : mem -> mem).
Notation state := (@state mem).

(** runners.py [_cancel_all_tasks] (called at asynchronous.py:282): all unfinished tasks are cancelled, in the order in which the set of tasks is iterated, and the
    loop is started again with a future that gathers them; it stops when that future is done.  With nothing to cancel the loop is not started. *)
Definition cleanup (s : state) : state :=
  match shuffle (live s) with
  | [] => s
  | l => let s1 := fold_left cancel_top l (set_stopping s false) in
         let g := List.length (futs s1) in
         on_done (fold_left (fun s f => on_done s f (CbCount g)) l (falloc s1 (mk_fut Pending [] (KGather (List.length l))))) g CbStop
  end.
(** The loop runs; and it may be started again (the later run_until_complete calls of asyncio.run, asynchronous.py:282). *)
Inductive goes : state -> state -> Prop :=
| goes_refl s : goes s s
| goes_step s s1 fire : goes s s1 -> goes s (step shuffle dut delayers fire s1)
| goes_again s s1 : goes s s1 -> goes s (set_stopping s1 false).
End Cleanup.
