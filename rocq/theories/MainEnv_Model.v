(** run(test, env_handle): the part of main_coro that awaits the test, as a program of the loop model. *)
From Coq Require Import List Bool Arith ZArith.
From Verif Require Import Py Loop_Model.
Import ListNotations.
Open Scope nat_scope.

Section Env.
Context {mem : Type}.
Notation prog := (@prog mem).
(** asynchronous.py:244: [await create_task(test)]. *)
Definition await_test (i : id) : prog := Op (OAwait i) (fun r => match r with Ok v => Ret v | Exn e => Raise e end).
(** asynchronous.py:241-244: [env] is the call of env_handle (which may create tasks, queues and the clock task), [test] the test function applied to the tuple
    of what env_handle returned.  The result of OCreate is the identity of the new task, which is never 0, that of the main task: the TypeError is not
    reached (C76_progress). *)
Definition after_env (test : lval -> prog) (r : res lval) : prog :=
  match r with
  | Ok a => Op (OCreate (test a)) (fun r => match r with Ok (VId (Datatypes.S i)) => await_test (Datatypes.S i) | Ok _ => Raise TypeError | Exn e => Raise e end)
  | Exn e => Raise e
  end.
Definition main_env (env : prog) (test : lval -> prog) : prog := bindr env (after_env test).
End Env.
