(** The monitor task of an agent as a program of the loop model (toffee/_base_agent.py:197-252). *)
From Coq Require Import List Bool Arith ZArith.
From Verif Require Import Py Prio_Model Loop_Model.
Import ListNotations.
Open Scope nat_scope.

Section Mon.
Context {mem : Type}.
Notation prog := (@prog mem).

(** What a model attached to the monitor offers (env.py:193-212 [model_info]): agent ports, monitor port (queues with their maxsize); agent
    hooks and monitor hook (as coroutines, with their __priority__).  The attached models do not change here. *)
Record mon_model := mk_mm { mo_aports : list (id * Z); mo_port : option (id * Z); mo_ahooks : list ((lval -> lval -> prog) * Z); mo_hook : option ((lval -> prog) * Z) }.
(** One delivery: [await queue.put(v)], [add_priority_task(hook, priority)], and [queue.put(v)] unless the queue has [maxsize] items, as
    for the queue behind the monitor method (246-252). *)
Inductive action := APut (q : id) (v : lval) | AHook (h : prog) (z : Z) | AQueue (q : id) (maxsize : Z) (v : lval).
Definition opt {A B} (f : A -> B) (o : option A) : list B := match o with Some a => [f a] | None => [] end.
(** model.py:195-200 [Port.put]: a port with maxsize -1 is unbounded. *)
Definition port_put (p : id * Z) (v : lval) : action := if (snd p =? -1)%Z then APut (fst p) v else AQueue (fst p) (snd p) v.
(** 217-236 [process_monitor_call], then 246-252; [path]: self.path, [gq]: the queue and its size if start_monitor was called. *)
Definition deliveries (path : lval) (ms : list mon_model) (gq : option (id * Z)) (v : lval) : list action :=
  flat_map (fun m => map (fun p => port_put p (VList [path; v])) (mo_aports m) ++ opt (fun p => port_put p v) (mo_port m) ++
                     map (fun h => AHook (fst h path v) (snd h)) (mo_ahooks m) ++ opt (fun h => AHook (fst h v) (snd h)) (mo_hook m)) ms ++
  opt (fun g => AQueue (fst g) (snd g) v) gq.

(** The method of the monitor: a computation that does not wait. *)
Context (method : mem -> mem * res lval) (acts : lval -> list action).
(** 238-252 [__monitor_forever], with [todo] still to deliver.  [monitor_step] is [bundle.step] (agent.py:23-29): one clock event. *)
CoFixpoint mon (todo : list action) : prog :=
  match todo with
  | [] => Op (OEvWait 0) (fun r => match r with
            | Ok _ => Op (OMem method) (fun r => match r with Ok VNone => mon [] | Ok v => mon (acts v) | Exn e => Raise e end)
            | Exn e => Raise e end)
  | APut q v :: rest => Op (OQPut q v) (fun r => match r with Ok _ => Op (OFlag true) (fun _ => mon rest) | Exn e => Raise e end)
  | AHook h z :: rest => Op (OPrio h z false) (fun _ => mon rest)
  | AQueue q z v :: rest => Op (OQSize q) (fun r => match r with
            | Ok (VInt n) => if (z <=? n)%Z then mon rest else Op (OQPut q v) (fun r => match r with Ok _ => Op (OFlag true) (fun _ => mon rest) | Exn e => Raise e end)
            | Ok _ => Raise TypeError
            | Exn e => Raise e end)
  end.
Definition monitor : prog := mon [].
End Mon.
