(** What a driver call is to do: which hooks, when they are called, and what a call in progress looks like. *)
From Coq Require Import List Bool Arith ZArith.
From Verif Require Import Py Prio_Model Loop_Model Loop_Spec Loop2_Spec LoopProg_Model Drv_Model.
Import ListNotations.
Open Scope nat_scope.

Section Spec.
Context {mem : Type}.
Notation prog := (@prog mem). Notation state := (@state mem). Notation hook := (@hook mem).

(** The hooks of a call: those of the models without a port for it, the driver hook of a model before its agent hooks. *)
Definition drv_hooks (i : @minfo mem) : list hook := match mi_dport i, mi_aports i with None, [] => match mi_dhook i with Some h => [h] | None => [] end | _, _ => [] end.
Definition agt_hooks (i : @minfo mem) : list hook := match mi_dport i, mi_aports i with None, [] => mi_ahooks i | _, _ => [] end.
(** The order asked for by the driver's attribute if set, otherwise that of the hook. *)
Definition model_first (o : option bool) (h : hook) : bool := match o with Some b => b | None => h_first h end.
Definition first_hooks (o : option bool) (mi : list (@minfo mem)) : list hook := filter (model_first o) (flat_map (fun i => drv_hooks i ++ agt_hooks i) mi).
Definition later_hooks (o : option bool) (mi : list (@minfo mem)) : list hook :=
  filter (fun h => negb (model_first o h)) (flat_map drv_hooks mi) ++ filter (fun h => negb (model_first o h)) (flat_map agt_hooks mi).
Definition priority (o : option Z) (h : hook) : Z := match o with Some z => z | None => h_prio h end.

Context (shuffle : list id -> list id) (dut delayers : mem -> mem).
Notation steps := (steps shuffle dut delayers). Notation step := (step shuffle dut delayers).
(** In [s] task [t] registers the hook [h] with priority [z]; the registration is known by the new event [e]. *)
Definition enrols (s : state) (t : id) (h : hook) (z : Z) (e : id) : Prop := (exists k, runs s t (Op (OPrio (wrapper h) z true) k)) /\ e = List.length (evs s).
(** In [s] the clock task is about to call the hook [h], for the registration [e]. *)
Definition calls (s : state) (h : hook) (e : id) : Prop := exists c todo sb, cur s = Some (c, BHook (wrapper h) (Some e) todo sb).
(** Between [s] and [s1] task [t] has registered [h] with priority [z] (as [e]), the clock task has called it after that, and the call has returned
    ([ran]: the registrations whose hook has returned, in this order). *)
Definition hook_ran (s s1 : state) (t : id) (z : hook -> Z) (h : hook) (e : id) : Prop :=
  exists x fire y fire', steps s x /\ enrols x t h (z h) e /\ steps (step fire x) y /\ calls y h e /\ steps (step fire' y) s1 /\ In e (ran s1).

(** Between [s] and [s1] task [t] has registered [h] with priority [z], as [e]. *)
Definition registered (s s1 : state) (t : id) (z : hook -> Z) (h : hook) (e : id) : Prop := exists x fire, steps s x /\ enrols x t h (z h) e /\ steps (step fire x) s1.
(** What a call has to do before its method, in this order: to deliver its arguments to the ports of a model that has ports for it, those of the agent first,
    and to ask the hooks of the other models. *)
Inductive duty := Deliver (u : put) | Ask (h : hook).
Definition duties (i : @minfo mem) : list duty :=
  match mi_aports i ++ match mi_dport i with Some u => [u] | None => [] end with
  | [] => map Ask (match mi_dhook i with Some h => [h] | None => [] end ++ mi_ahooks i)
  | us => map Deliver us
  end.
(** Between [s] and [s1] task [t] has put its message into the port, or has found the port full. *)
Definition delivered (s s1 : state) (t : id) (u : put) : Prop := exists x fire v, steps s x /\ steps (step fire x) s1 /\ u_msg u = Ok v /\
  ((exists k, runs x t (Op (OQPut (u_q u) v) k)) \/ (exists k, runs x t (Op (OQSize (u_q u)) k)) /\ u_max u <> (-1)%Z /\ (u_max u <= Z.of_nat (List.length (items x (u_q u))))%Z).
(** It can be done: the arguments fit the method, and a hook to be called before the method is not a coroutine function; otherwise it raises [e]. *)
Definition possible (o : option bool) (x : duty) : Prop := match x with Deliver u => exists v, u_msg u = Ok v | Ask h => model_first o h = true -> h_coro h = false end.
Definition raises (o : option bool) (x : duty) (e : exn) : Prop := match x with Deliver u => u_msg u = Exn e | Ask h => model_first o h = true /\ h_coro h = true /\ e = AssertionError end.
Definition asked (o : option bool) (l : list duty) : list hook := flat_map (fun x => match x with Ask h => if model_first o h then [h] else [] | Deliver _ => [] end) l.

(** The program of a call that is still looking at ports and hooks. *)
Inductive preparing (d : @drv mem) (k : list id -> list hook -> list hook -> prog) (kx : exn -> prog) : prog -> Prop :=
| pr_setup x l es ld la : preparing d k kx (setup d (x :: l) es ld la k kx)
| pr_reg h l es ld la : h_coro h = false -> preparing d k kx (reg d h (fun e => setup d l (es ++ [e]) ld la k kx) kx)
| pr_enroll h z l es ld la : preparing d k kx (enroll h z (fun e => setup d l (es ++ [e]) ld la k kx) kx)
| pr_put q v l es ld la : preparing d k kx (put_now q v (setup d l es ld la k kx) kx)
| pr_flag l es ld la : preparing d k kx (flagged (setup d l es ld la k kx)).
(** Likewise for the hooks registered in the background. *)
Inductive registering (d : @drv mem) (k : list id -> prog) (kx : exn -> prog) : prog -> Prop :=
| rg_reg h l es : h_coro h = false -> registering d k kx (reg_all d (h :: l) es k kx)
| rg_enroll h z l es : registering d k kx (enroll h z (fun e => reg_all d l (es ++ [e]) k kx) kx).
(** Task [t] waits in a [gather] of [n] coroutines started in [s]: it is creating the tasks, or waits for one of them. *)
Definition gathering (s s' : state) (t : id) (ps : list prog) (k : res lval -> prog) : Prop :=
  (exists i ids, i < List.length ps /\ runs s' t (create_all (skipn i ps) ids (fun ids => await_all ids [] k) k)) \/
  (exists i vs, i < List.length ps /\ (runs s' t (await_all (skipn i (seq (List.length (futs s)) (List.length ps))) vs k) \/ waits_for s' t (List.length (futs s) + i) /\ unfinished s' t)).
End Spec.
