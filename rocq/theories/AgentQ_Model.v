(** Model of the methods of an agent that take the name of a driver or monitor method (toffee/agent.py:53-78, 104-120), and of an agent whose monitors have message
    queues.  The attributes of the agent are those of Agent_Model, a Monitor object is that of Port_Model; the objects are numbered in the order of their creation.
    Simplified like there: a call of a monitor method that finds no message waits and is not continued; reference models are left out. *)
From Coq Require Import List String Bool Arith ZArith.
From Verif Require Import Py Agent_Model Port_Model.
Import ListNotations.
Open Scope nat_scope.

(** agent.py:104-111 [get_driver_method] (the __original_func__ of what is returned; None for None) *)
Definition get_driver_method (a : agent_) (n : string) : option func := match getattr a n with Some (Drv f) => Some f | _ => None end.
(** agent.py:113-120 [get_monitor_method] *)
Definition get_monitor_method (a : agent_) (n : string) : option func := match getattr a n with Some (Mon f) => Some f | _ => None end.

Section Queues.
Context {V : Type} (a : agent_).
(** The Monitor objects, by number (agent.py:44-51). *)
Definition objs := nat -> monitor V.
Definition upd (st : objs) (i : nat) (m : monitor V) : objs := fun j => if Nat.eqb j i then m else st j.
(** What happens to an agent: start_monitor(n, maxsize), monitor_size(n), the function of task [i] returns [r] (_base_agent.py:242-252), [await agent.n()]. *)
Inductive aop := AStart (n : string) (maxsize : Z) | ASize (n : string) | AResult (i : nat) (r : option V) | ARead (n : string).
(** [AOther]: something that is not a monitor method is called. *)
Inductive aout := AOut (x : mout V) | ANum (k : nat) | ARaise (e : exn) | AOther.
(** [self.monitors[n]] (agent.py:64, 77, 157), then an operation on that object *)
Definition on_monitor (st : objs) (n : string) (o : mop V) : objs * aout :=
  match dget (monitors a) n with
  | None => (st, ARaise KeyError)
  | Some w => let (m, x) := mon_op (st (w_no w)) o in (upd st (w_no w) m, AOut x)
  end.
(** agent.py:67-78 [start_monitor]; 53-65 [monitor_size]; 152-161 [monitor_method] *)
Definition agent_op (st : objs) (o : aop) : objs * aout :=
  match o with
  | AStart n maxsize => on_monitor st n (Start maxsize)
  | ASize n => (st, match dget (monitors a) n with None => ARaise KeyError | Some w => ANum (monitor_size (st (w_no w))) end)
  | AResult i r => if i <? List.length (monitor_tasks a) then let (m, x) := mon_op (st i) (Result r) in (upd st i m, AOut x) else (st, AOther)
  | ARead n => match getattr a n with Some (Mon f) => on_monitor st (f_name f) Read | Some _ => (st, AOther) | None => (st, ARaise AttributeError) end
  end.
(** A history; at the beginning no queue is enabled (_base_agent.py:202-208). *)
Fixpoint agent_run (st : objs) (ops : list aop) : objs * list aout :=
  match ops with
  | [] => (st, [])
  | o :: t => let (st1, x) := agent_op st o in let (st2, xs) := agent_run st1 t in (st2, x :: xs)
  end.
Definition agent_new (in_env : bool) : objs := fun _ => new_monitor in_env.
End Queues.
Arguments aop V : clear implicits.
Arguments aout V : clear implicits.
Arguments objs V : clear implicits.
