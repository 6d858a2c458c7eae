(** Model of the bounded queues: Port (toffee/model.py) and the get queue of Monitor (toffee/_base_agent.py).

    asyncio.Queue is assumed to be a FIFO: qsize() is the number of values put and not yet taken, put on
    an unbounded queue appends without waiting, get takes the oldest value and waits while there is none.
    A get that would wait is represented by the outcome "nothing yet" and no state change. *)
From Coq Require Import List ZArith Bool.
From Verif Require Import Py.
Import ListNotations.
Open Scope Z_scope.

Section Queues.
Context {V : Type}.

(** model.py:178-193: the state of a Port. *)
Record port := mk_port { p_maxsize : Z; p_items : list V }.

(** model.py:179-193 [Port.__init__]. *)
Definition new_port (maxsize : Z) : res port :=
  if (0 <? maxsize) || (maxsize =? -1) then Ok (mk_port maxsize []) else Exn AssertionError.

(** What a queue operation reports. *)
Inductive outcome := Accepted | Dropped | Got (v : V) | Waits.

(** model.py:195-200 [Port.put]. *)
Definition port_put (p : port) (v : V) : port * outcome :=
  if (p_maxsize p <=? Z.of_nat (length (p_items p))) && negb (p_maxsize p =? -1) then (p, Dropped)
  else (mk_port (p_maxsize p) (p_items p ++ [v]), Accepted).

(** model.py:244-245, 268-269, 313-314 [__call__]: get. *)
Definition port_get (p : port) : port * outcome :=
  match p_items p with
  | [] => (p, Waits)
  | x :: t => (mk_port (p_maxsize p) t, Got x)
  end.

Inductive pop := Put (v : V) | Get.
Definition port_op (p : port) (o : pop) : port * outcome :=
  match o with Put v => port_put p v | Get => port_get p end.

(** A history of deliveries and reads, and what each reported. *)
Fixpoint port_run (p : port) (ops : list pop) : port * list outcome :=
  match ops with
  | [] => (p, [])
  | o :: t => let (p1, r) := port_op p o in let (p2, rs) := port_run p1 t in (p2, r :: rs)
  end.

(** _base_agent.py:202-208, 21: the parts of a Monitor that matter here: get_queue with its
    get_queue_max_size, whether the attribute `path` exists (only Env sets it, env.py:108), and whether the
    task of __monitor_forever still runs. *)
Record monitor := mk_mon { m_queue : option (list V * Z); m_path : bool; m_alive : bool }.
Definition new_monitor (in_env : bool) : monitor := mk_mon None in_env true.

Inductive mop := Start (maxsize : Z) | Result (r : option V) | Read.
Inductive mout := MNone | MKept | MDropped | MDied | MGot (v : V) | MWaits | MRaise (e : exn) | MStarted.

(** agent.py:67-78 [start_monitor] and _base_agent.py:210-212 [enable_get_queue]; _base_agent.py:242-252: what
    __monitor_forever does with one result of the monitor function (process_monitor_call is not part of
    this model; the message of the error call reads self.path); agent.py:155-158: the decorated monitor
    method reads the queue. *)
Definition mon_op (m : monitor) (o : mop) : monitor * mout :=
  match o with
  | Start maxsize => (mk_mon (Some ([], maxsize)) (m_path m) (m_alive m), MStarted)
  | Result r =>
      if m_alive m then
        match r, m_queue m with
        | None, _ => (m, MNone)
        | Some _, None => (m, MNone)
        | Some v, Some (q, mx) =>
            if mx <=? Z.of_nat (length q) then
              if m_path m then (m, MDropped)
              else (mk_mon (m_queue m) (m_path m) false, MDied)
            else (mk_mon (Some (q ++ [v], mx)) (m_path m) (m_alive m), MKept)
        end
      else (m, MNone)
  | Read =>
      match m_queue m with
      | None => (m, MRaise AttributeError)
      | Some ([], _) => (m, MWaits)
      | Some (x :: t, mx) => (mk_mon (Some (t, mx)) (m_path m) (m_alive m), MGot x)
      end
  end.

(** _base_agent.py:214-215 [get_queue_size], agent.py:53-65 [monitor_size]. *)
Definition monitor_size (m : monitor) : nat := match m_queue m with None => 0%nat | Some (q, _) => length q end.

Fixpoint mon_run (m : monitor) (ops : list mop) : monitor * list mout :=
  match ops with
  | [] => (m, [])
  | o :: t => let (m1, r) := mon_op m o in let (m2, rs) := mon_run m1 t in (m2, r :: rs)
  end.

End Queues.
Arguments port V : clear implicits.
Arguments pop V : clear implicits.
Arguments outcome V : clear implicits.
Arguments monitor V : clear implicits.
Arguments mop V : clear implicits.
Arguments mout V : clear implicits.
