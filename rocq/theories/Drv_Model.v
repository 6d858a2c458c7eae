(** A driver call as a program of the loop model (Driver, toffee/_base_agent.py:24-194, and agent.py:130-132).

    What is put into the ports and what the hooks are called with is the subject of Call_Model.v; here a message is given (or the
    exception raised when the arguments cannot be bound), and calling a hook is a computation on the memory. *)
From Coq Require Import List Bool Arith ZArith.
From Verif Require Import Py Prio_Model Loop_Model LoopProg_Model Mon_Model.
Import ListNotations.
Open Scope nat_scope.

Section Drv.
Context {mem : Type}.
Notation prog := (@prog mem).

(** The attributes sche_order and priority of a Driver (35-36), which live in the memory: Some true is "model_first", Some false
    "dut_first"; [d_set]: both are assigned. *)
Record drv := mk_drv { d_order : mem -> option bool; d_prio : mem -> option Z; d_set : option bool -> option Z -> mem -> mem }.
(** A hook: __sche_order__ (model_first?), __priority__, the call of the hook with the result appended to model_results (74, 90-95), and whether it is a
    coroutine function (70, 87). *)
Record hook := mk_hook { h_first : bool; h_prio : Z; h_call : mem -> mem * res lval; h_coro : bool }.
(** A port: its queue, maxsize, and the message of this call. *)
Record put := mk_put { u_q : id; u_max : Z; u_msg : res lval }.
(** model_infos[model] (env.py:179-188) for one call. *)
Record minfo := mk_minfo { mi_aports : list put; mi_dport : option put; mi_dhook : option hook; mi_ahooks : list hook }.

(** 73-74, 89-95: the coroutine given to add_priority_task. *)
Definition wrapper (h : hook) : prog := Op (OMem (h_call h)) (fun r => match r with Ok _ => Ret VNone | Exn e => Raise e end).

Section Call.
Context (d : drv).
(** 76-82, 97-104: the event, the priority, add_priority_task; [k] gets the event. *)
Definition enroll (h : hook) (z : Z) (k : id -> prog) (kx : exn -> prog) : prog :=
  Op (OPrio (wrapper h) z true) (fun r => match r with Ok (VId e) => k e | Ok _ => kx TypeError | Exn e => kx e end).
(** 67-82, 84-104; 70-71, 87-88: a coroutine function is rejected. *)
Definition reg (h : hook) (k : id -> prog) (kx : exn -> prog) : prog :=
  if h_coro h then kx AssertionError else
  Op (OMem (fun m => (m, Ok (VInt (match d_prio d m with Some z => z | None => h_prio h end)))))
     (fun r => match r with Ok (VInt z) => enroll h z k kx | Ok _ => kx TypeError | Exn e => kx e end).
(** model.py:195-200 [Port.put] and asynchronous.py:136-138 [Queue.put]. *)
Definition flagged (k : prog) : prog := Op (OFlag true) (fun _ => k).
Definition put_now (q : id) (v : lval) (k : prog) (kx : exn -> prog) : prog := Op (OQPut q v) (fun r => match r with Ok _ => flagged k | Exn e => kx e end).
Definition port_put (u : put) (k : prog) (kx : exn -> prog) : prog :=
  match u_msg u with
  | Exn e => kx e
  | Ok v => Op (OQSize (u_q u)) (fun r => match r with
              | Ok (VInt n) => if (u_max u <=? n)%Z && negb (u_max u =? -1)%Z then k else put_now (u_q u) v k kx
              | Ok _ => kx TypeError
              | Exn e => kx e
              end)
  end.
(** 131-134, 145-148: is the hook model-first? *)
Definition choose (h : hook) (k1 k2 : prog) (kx : exn -> prog) : prog :=
  Op (OMem (fun m => (m, Ok (VBool ((h_first h && match d_order d m with Some false => false | _ => true end) || match d_order d m with Some true => true | _ => false end)))))
     (fun r => match r with Ok (VBool true) => k1 | Ok (VBool false) => k2 | Ok _ => kx TypeError | Exn e => kx e end).

(** 126-154: what the loop over model_infos does, one action after the other. *)
Inductive item := IPut (u : put) | IDrv (h : hook) | IAgt (h : hook).
Definition items_of (i : minfo) : list item :=
  match mi_dport i, mi_aports i with
  | None, [] => opt IDrv (mi_dhook i) ++ map IAgt (mi_ahooks i)                       (* 129-154 *)
  | _, _ => map IPut (mi_aports i) ++ opt IPut (mi_dport i)                           (* 57-65, 127-128 *)
  end.
(** [es]: model_first_events; [ld], [la]: dut_first_driver_hooks and dut_first_agent_hooks. *)
Fixpoint setup (l : list item) (es : list id) (ld la : list hook) (k : list id -> list hook -> list hook -> prog) (kx : exn -> prog) : prog :=
  match l with
  | [] => k es ld la
  | IPut u :: rest => port_put u (setup rest es ld la k kx) kx
  | IDrv h :: rest => choose h (reg h (fun e => setup rest (es ++ [e]) ld la k kx) kx) (setup rest es (ld ++ [h]) la k kx) kx
  | IAgt h :: rest => choose h (reg h (fun e => setup rest (es ++ [e]) ld la k kx) kx) (setup rest es ld (la ++ [h]) k kx) kx
  end.

(** 180-187: the comparison of the results with the result [v] of the method. *)
Context (compare : lval -> mem -> mem * res lval).
(** 164-177: the dut-first hooks, and waiting for them. *)
Fixpoint reg_all (l : list hook) (es : list id) (k : list id -> prog) (kx : exn -> prog) : prog :=
  match l with [] => k es | h :: rest => reg h (fun e => reg_all rest (es ++ [e]) k kx) kx end.
(** 180-190 *)
Definition conclude_call (v : lval) : prog :=
  Op (OMem (compare v)) (fun r => match r with Ok _ => Op (OMem (fun m => (d_set d None None m, Ok VNone))) (fun _ => Ret VNone) | Exn e => Raise e end).
(** 163-190 [background_exec] *)
Definition background (l : list hook) (v : lval) : prog :=
  reg_all l [] (fun es => gather (map event_wait es) (fun r => match r with Ok _ => conclude_call v | Exn e => Raise e end)) Raise.
(** 192-194 *)
Definition after_body (l : list hook) (K : res lval -> prog) (r : res lval) : prog :=
  match r with
  | Ok v => Op (OCreate (background l v)) (fun r => match r with Ok _ => K (Ok v) | Exn e => K (Exn e) end)
  | Exn e => K (Exn e)
  end.
(** 156-160: waiting for the model-first hooks, then the method [func] of the agent. *)
Definition then_body (func : prog) (K : res lval -> prog) (es : list id) (ld la : list hook) : prog :=
  gather (map event_wait es) (fun r => match r with Ok _ => bindr func (after_body (ld ++ la) K) | Exn e => K (Exn e) end).
(** 106-194 [process_driver_call], awaited; [K]: what the caller does with the outcome. *)
Definition call (mi : list minfo) (func : prog) (K : res lval -> prog) : prog :=
  setup (flat_map items_of mi) [] [] [] (then_body func K) (fun e => K (Exn e)).
End Call.
End Drv.
