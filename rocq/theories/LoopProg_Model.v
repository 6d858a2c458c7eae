(** Library coroutines of toffee as programs of the loop model. *)
From Coq Require Import List Bool Arith ZArith.
From Verif Require Import Py Prio_Model Loop_Model.
Import ListNotations.
Open Scope nat_scope.

Section Progs.
Context {mem : Type}.
Notation prog := (@prog mem).

(** [await o]; exceptions propagate. *)
Definition Let (o : @op mem prog) (k : lval -> prog) : prog := Op o (thenv k).
(** triggers.py:14-35 ClockCycles and bundle.py:666-679 Bundle.step, for an item whose clock event is event 0: [n] times [await event.wait()]. *)
Fixpoint clock_cycles (n : nat) : prog := match n with 0 => Ret VNone | S n' => Let (OEvWait 0) (fun _ => clock_cycles n') end.

(** asynchronous.py:123-125 Event.wait, 136-138 Queue.put (the queues are unbounded, so asyncio's put never waits), 140-143 Queue.get, 146-152 sleep(0). *)
Definition event_wait (e : id) : prog := Let (OEvWait e) (fun _ => Let (OFlag true) (fun _ => Ret VNone)).
Definition queue_put (q : id) (v : lval) : prog := Let (OQPut q v) (fun _ => Let (OFlag true) (fun _ => Ret VNone)).
Definition queue_get (q : id) : prog := Let (OQGet q) (fun v => Let (OFlag true) (fun _ => Ret v)).
Definition sleep0 : prog := Let OSleep0 (fun _ => Let (OFlag true) (fun _ => Ret VNone)).

(** asynchronous.py:295-308 gather, followed by [k] with its outcome: 300-302 the tasks are created, [ids] so far; *)
Fixpoint create_all (ps : list prog) (ids : list id) (after : list id -> prog) (k : res lval -> prog) : prog :=
  match ps with
  | [] => after ids
  | p :: rest => Op (OCreate p) (fun r => match r with Ok (VId i) => create_all rest (ids ++ [i]) after k | Ok _ => k (Exn TypeError) | Exn e => k (Exn e) end)
  end.
(** 304-308 they are awaited in order, results [vs] so far. *)
Fixpoint await_all (ids : list id) (vs : list lval) (k : res lval -> prog) : prog :=
  match ids with
  | [] => k (Ok (VList vs))
  | i :: rest => Op (OAwait i) (fun r => match r with Ok v => await_all rest (vs ++ [v]) k | Exn e => k (Exn e) end)
  end.
Definition gather (ps : list prog) (k : res lval -> prog) : prog := create_all ps [] (fun ids => await_all ids [] k) k.
End Progs.
