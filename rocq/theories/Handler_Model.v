(** The exception handler main_coro installs (toffee/asynchronous.py:208-215, 232-233), on top of the machine of Loop_Model.v.

    asyncio calls the handler of the loop when a task is deleted that ended with an exception nobody has looked at (Future.__del__ with
    __log_traceback); toffee's handler logs it and calls [loop.stop()], so the loop ends after the current iteration, and
    [run_until_complete] raises RuntimeError if the main coroutine is not done ("Event loop stopped before Future completed.").

    Which task objects are deleted is an input of each step ([gc]): it depends on the references the program keeps.  Deleting a
    task that is still pending, and other errors asyncio reports to the handler, are left out; so is what asyncio.run does after that. *)
From Coq Require Import List Bool Arith ZArith.
From Verif Require Import Py Loop_Model.
Import ListNotations.
Open Scope nat_scope.

Section Handler.
Context {mem : Type} (shuffle : list id -> list id) (dut delayers : mem -> mem).
Notation prog := (@prog mem). Notation state := (@state mem). Notation body := (@body mem).

(** The loop; the tasks whose outcome somebody has looked at, or is going to (it waits for the task); whether the handler has called
    [loop.stop()] (in asyncio this is the same flag as [stopping]). *)
Record xstate := mk_x { x_core : state; x_claimed : list id; x_stop : bool }.
(** Somebody waits for the task: it has callbacks, and every callback of a task in asyncio (Task.__wakeup, gather, run_until_complete)
    looks at its outcome. *)
Definition waited (s : state) (t : id) : bool := match fget s t with Some (mk_fut _ (_ :: _) _) => true | _ => false end.
Definition body_op (b : body) : option (@op mem prog) :=
  match b with BProg (Op o _) | BHook (Op o _) _ _ _ | BTest (Op o _) => Some o | _ => None end.
(** The tasks whose outcome is taken care of by the next step: the running task, if it is waited for; a task that is awaited or gathered now. *)
Definition claims (s : state) : list id :=
  match cur s with
  | Some (t, b) => (if waited s t then [t] else []) ++ match body_op b with Some (OAwait f) => [f] | Some (OGather l) => l | _ => [] end
  | None => []
  end.
(** Future.__del__: deleting [t] calls the handler. *)
Definition lost (s : state) (claimed : list id) (t : id) : bool :=
  match fget s t with Some (mk_fut (Finished (Exn _)) _ (KTask _)) => negb (existsb (Nat.eqb t) claimed) | _ => false end.
(** The iteration of the loop is over. *)
Definition between (s : state) : bool := match cur s, batch s with None, 0 => true | _, _ => false end.
(** One step, after which the task objects [gc] are deleted (asynchronous.py:209-215 if one of them is lost). *)
Definition xstep (fire gc : list id) (x : xstate) : xstate :=
  let s := x_core x in
  if x_stop x && between s then x
  else let s1 := step shuffle dut delayers fire s in
       let c := x_claimed x ++ claims s in
       mk_x s1 c (x_stop x || existsb (lost s1 c) gc).
Inductive xsteps : xstate -> xstate -> Prop :=
| xs_refl x : xsteps x x
| xs_step x x1 fire gc : xsteps x x1 -> xsteps x (xstep fire gc x1).
Definition xinit (test : prog) (m : mem) : xstate := mk_x (init test m) [] false.

(** asyncio.run: nothing while the loop runs; then the outcome of the main task, or RuntimeError (base_events.py, run_until_complete). *)
Definition run_result (x : xstate) : option (res lval) :=
  let s := x_core x in
  if between s && (stopping s || x_stop x) then Some (match fget s 0 with Some fu => if pending fu then Exn RuntimeError else outcome (f_st fu) | None => Exn RuntimeError end)
  else None.
End Handler.
