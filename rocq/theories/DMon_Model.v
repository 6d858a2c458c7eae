(** The monitor task of an agent whose models and message queue change during the run (toffee/_base_agent.py:197-252, agent.py:67-78, 152-158). *)
From Coq Require Import List Bool Arith ZArith.
From Verif Require Import Py Prio_Model Loop_Model LoopProg_Model Mon_Model WMon_Model.
Import ListNotations.
Open Scope nat_scope.

Section DMon.
Context {mem : Type}.
Notation prog := (@prog mem).
(** The fields of the Monitor object are part of the memory.  [attached]: the models (by number) that are keys of [self.model_infos], in order; [queue_of]: [self.get_queue]
    with [self.get_queue_max_size]; [set_queue]: assignment to these two.  [info]: the entry of a model (env.py:193-226; it does not change while the model is attached).  [path]: [self.path]. *)
Context (attached : mem -> list nat) (queue_of : mem -> option (id * Z)) (set_queue : id * Z -> mem -> mem) (info : nat -> @mon_model mem) (path : lval).
(** The references to models and queue as a value. *)
Definition refs (m : mem) : lval := VList [VList (map VId (attached m)); match queue_of m with Some g => VList [VId (fst g); VInt (snd g)] | None => VNone end].
Definition ids_of (l : list lval) : list nat := flat_map (fun x => match x with VId i => [i] | _ => [] end) l.
(** 217-236 and 246-252 with the references that were read. *)
Definition acts_of (x : lval) : list (@action mem) :=
  match x with VList [VList [VList l; g]; v] => deliveries path (map info (ids_of l)) (match g with VList [VId q; VInt z] => Some (q, z) | _ => None end) v | _ => [] end.
(** Reading them.  Simplified: the fields are read once, when the method has returned a value; the code reads them one after another while it delivers, but nothing
    in between lets another task run or changes them (Port.put and Queue.put of unbounded queues do not wait). *)
Definition read (v : lval) : @op mem prog := OMem (fun m => (m, Ok (VList [refs m; v]))).
Definition after_method (r : res lval) : prog :=
  match r with
  | Ok VNone => Ret VNone
  | Ok v => Op (read v) (fun r => match r with Ok x => Ret x | Exn e => Raise e end)
  | Exn e => Raise e
  end.
(** 238-252 [__monitor_forever] with any method. *)
Definition dmonitor (method : prog) : prog := wmonitor (bindr method after_method) acts_of.
(** agent.py:67-78 [start_monitor], 206-208 [enable_get_queue]; without the KeyError for an unknown name. *)
Definition start_monitor (maxsize : Z) (k : prog) : prog :=
  Op OQNew (fun r => match r with Ok (VId q) => Op (OMem (fun m => (set_queue (q, maxsize) m, Ok VNone))) (fun _ => k) | Ok _ => Raise TypeError | Exn e => Raise e end).
(** agent.py:155-158: a call of the monitor method. *)
Definition monitor_call : prog :=
  Op (OMem (fun m => (m, match queue_of m with Some g => Ok (VId (fst g)) | None => Exn AttributeError end)))
    (fun r => match r with Ok (VId q) => queue_get q | Ok _ => Raise TypeError | Exn e => Raise e end).
End DMon.
