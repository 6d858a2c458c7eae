(** The monitor task of an agent whose method waits (toffee/_base_agent.py:197-252, agent.py:23-29). *)
From Coq Require Import List Bool Arith ZArith.
From Verif Require Import Py Prio_Model Loop_Model Mon_Model.
Import ListNotations.
Open Scope nat_scope.

Section WMon.
Context {mem : Type}.
Notation prog := (@prog mem).
(** The method of the monitor: any coroutine.  [acts]: what is delivered for a result (Mon_Model.v, [deliveries]). *)
Context (method : prog) (acts : lval -> list (@action mem)).

(** Where [__monitor_forever] is: inside the method, with the given rest of it, or with deliveries left to make. *)
Inductive place := InMethod (p : prog) | ToDeliver (todo : list (@action mem)).
(** 243: nothing is delivered for None. *)
Definition results_in (v : lval) : list (@action mem) := match v with VNone => [] | _ => acts v end.
(** The method returns: the deliveries are next. *)
Definition arrived (x : place) : place := match x with InMethod (Ret v) => ToDeliver (results_in v) | _ => x end.
(** 238-252 [__monitor_forever].  [monitor_step] is [bundle.step]: one clock event. *)
CoFixpoint wmon (x : place) : prog :=
  match arrived x with
  | InMethod (Ret v) => Ret v                                     (* not possible: see [arrived] *)
  | InMethod (Raise e) => Raise e
  | InMethod (Op o k) => Op o (fun r => wmon (InMethod (k r)))
  | ToDeliver [] => Op (OEvWait 0) (fun r => match r with Ok _ => wmon (InMethod method) | Exn e => Raise e end)
  | ToDeliver (APut q v :: rest) => Op (OQPut q v) (fun r => match r with Ok _ => Op (OFlag true) (fun _ => wmon (ToDeliver rest)) | Exn e => Raise e end)
  | ToDeliver (AHook h z :: rest) => Op (OPrio h z false) (fun _ => wmon (ToDeliver rest))
  | ToDeliver (AQueue q z v :: rest) => Op (OQSize q) (fun r => match r with
            | Ok (VInt n) => if (z <=? n)%Z then wmon (ToDeliver rest)
                             else Op (OQPut q v) (fun r => match r with Ok _ => Op (OFlag true) (fun _ => wmon (ToDeliver rest)) | Exn e => Raise e end)
            | Ok _ => Raise TypeError
            | Exn e => Raise e end)
  end.
Definition wmonitor : prog := wmon (ToDeliver []).
End WMon.
