(** The block [async with Executor(exit) as exec: ...] (toffee/executor.py:45-86, 173-215). *)
From Coq Require Import List String Bool Arith ZArith.
From Verif Require Import Py Prio_Model Loop_Model LoopProg_Model Drv_Model Exec_Model.
Import ListNotations.
Open Scope nat_scope.

Section Block.
Context {mem : Type}.
Notation prog := (@prog mem).

(** The body of the block: it ends, it raises, it calls [exec(coro, priority, sche_order, sche_group)] and goes on with what that returns or raises, or it
    performs an operation and goes on.  Simplified: the body is a well-founded tree, so a body that never ends is left out. *)
Inductive block : Type :=
| Done
| Fails (x : exn)
| Calls (c : @coro mem) (p : option Z) (o g : option string) (k : res unit -> block)
| Does (o : @op mem prog) (k : res lval -> block).

(** The body, executed with the groups [cs] so far; [K] gets the groups and the outcome. *)
Fixpoint body_run (b : block) (cs : @coros mem) (K : coros -> res lval -> prog) : prog :=
  match b with
  | Done => K cs (Ok VNone)
  | Fails x => K cs (Exn x)
  | Calls c p o g k => let (cs1, r) := add cs c p o g in body_run (k r) cs1 K      (* 173-215 *)
  | Does o k => Op o (fun r => body_run (k r) cs K)
  end.
(** What leaves the block: 71-72 [__aexit__] returns None, so an exception of the body goes on unless [__execute] raises another one. *)
Definition leaving (body out : res lval) : res lval := match out with Exn x => Exn x | Ok _ => body end.

Context (store : dict lval -> mem -> mem).
(** The block; 53-66 [__init__] makes the event __exit_any_event; [K] gets the list __uncompleted and the outcome. *)
Definition with_executor (exit : string) (b : block) (K : list id -> res lval -> prog) : prog :=
  Op OEvNew (fun r => match r with
    | Ok (VId e) => body_run b [] (fun cs r => execute store exit e cs (fun ids out => K ids (leaving r out)))
    | Ok _ => K [] (Exn TypeError)
    | Exn x => K [] (Exn x)
    end).
End Block.
