(** An Executor object used for a second block (toffee/executor.py:45-86, 105-123, 173-261). *)
From Coq Require Import List String Bool Arith ZArith.
From Verif Require Import Py Prio_Model Loop_Model LoopProg_Model Drv_Model Exec_Model Block_Model.
Import ListNotations.
Open Scope nat_scope.

Section Reuse.
Context {mem : Type}.
Notation prog := (@prog mem).

(** A coroutine that has run to its end: its cr_frame is None, so [__get_driver] (256), which [__sequential_execution_all] calls before it awaits the coroutine (230), raises AttributeError.
    Simplified: it is said to be raised when the coroutine is awaited, and no driver is found for it (nothing lies between 230 and the await). *)
Definition used_coro (c : @coro mem) : @coro mem := mk_coro (c_name c) None (fun K => K (Exn AttributeError)).
(** Simplified: the recorded order and priority are dropped, since they are used only if there is a driver (232-240). *)
Definition used_added (a : @added mem) : @added mem := mk_added (used_coro (a_coro a)) None None.
(** 65, 85, 105-113: [__coros] is never emptied, so after a block with exit='all' that ended without exception it holds the groups of that block, whose coroutines have all run to their end. *)
Definition used (cs : @coros mem) : @coros mem := map (fun g => (fst g, map used_added (snd g))) cs.

Context (store : dict lval -> mem -> mem).
(** 68-72: leaving the second block of an executor with exit='all' that has the groups [cs] from its first block; [e]: the event made by [__init__] (53-66). *)
Definition second_block (e : id) (cs : @coros mem) (b : @block mem) (K : list id -> res lval -> prog) : prog :=
  body_run b (used cs) (fun cs r => execute store "all" e cs (fun ids out => K ids (leaving r out))).
(** Both blocks; the second is reached if the first ends without exception. *)
Definition two_blocks (b1 b2 : @block mem) (K1 K2 : list id -> res lval -> prog) (between : (res lval -> prog) -> prog) : prog :=
  Op OEvNew (fun r => match r with
    | Ok (VId e) => body_run b1 [] (fun cs r => execute store "all" e cs (fun ids out =>
        match leaving r out with
        | Ok _ => between (fun r => match r with Ok _ => second_block e cs b2 K2 | Exn x => K1 ids (Exn x) end)
        | Exn x => K1 ids (Exn x)
        end))
    | Ok _ => K1 [] (Exn TypeError)
    | Exn x => K1 [] (Exn x)
    end).
End Reuse.
