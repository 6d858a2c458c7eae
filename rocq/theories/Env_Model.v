(** Model of Env.attach / unattach (toffee/env.py) and the matching part of Model (toffee/model.py).

    Objects that carry "matched" flags (hook functions, which are shared by all instances of a model class, and
    ports) have a number; the flags live in a store, so they survive from one attach to the next.  An env is the
    list of its agents in dir() order, each with its driver and monitor methods in dir() order, and the names of all
    its attributes.  Simplifications: the attributes of an env hold distinct agents and the attributes of an agent
    distinct methods named like their functions; a model is given as the result of collect_all
    (model.py:334-366), with all paths already resolved (Names_Model.v); the type assertion of attach (env.py:43) and the
    texts of warnings and errors are left out. *)
From Coq Require Import List String Bool Arith.
From Verif Require Import Py.
Import ListNotations.
Open Scope string_scope.

(** A driver/monitor hook or port: object number and path. *)
Record item := mk_item { t_id : nat; t_path : string }.

(** An agent hook or agent port: [d_name] is what is compared with the agent's name (__agent_name__, or
    get_path() of a port, model.py:265-266), [d_own] Port.name, i.e. the attribute holding a port. *)
Record decl := mk_decl { d_id : nat; d_name : string; d_own : string; d_agents : list string; d_methods : list string }.

(** model.py:322-332: a collected model. *)
Record model := mk_model {
  m_id : nat;
  m_ahooks : list decl; m_aports : list decl;
  m_dhooks : list item; m_dports : list item;
  m_mhooks : list item; m_mports : list item }.

(** The flags: __matched__[0] / matched, and __methods_matched__ / methods_matched. *)
Record flags := mk_flags { f_hit : nat -> bool; f_meth : nat -> list bool }.

Definition set_hit (fl : flags) (i : nat) : flags :=
  mk_flags (fun j => if Nat.eqb j i then true else f_hit fl j) (f_meth fl).
Fixpoint set_nth (k : nat) (l : list bool) : list bool :=
  match l, k with
  | [], _ => []
  | _ :: t, O => true :: t
  | b :: t, S k => b :: set_nth k t
  end.
Definition set_meth (fl : flags) (i k : nat) : flags :=
  mk_flags (f_hit fl) (fun j => if Nat.eqb j i then set_nth k (f_meth fl i) else f_meth fl j).

(** list.index for an element that occurs. *)
Fixpoint index (x : string) (l : list string) : nat :=
  match l with [] => O | y :: t => if String.eqb x y then O else S (index x t) end.

(** The entry of a driver or monitor for one model (env.py:179-188, 200-209). *)
Record info := mk_info { i_ahooks : list nat; i_aports : list nat; i_hook : option nat; i_port : option nat }.

(** agent.py:30-31, _base_agent.py:23: method name and model_infos (insertion-ordered, keyed by model). *)
Definition infos := list (nat * info).
Record agent := mk_agent { a_name : string; a_drivers : list (string * infos); a_monitors : list (string * infos) }.
Record env := mk_env { e_attrs : list string; e_agents : list agent; e_attached : list nat }.

Definition path_of (a m : string) : string := a ++ "." ++ m.

(** env.py:112-128 and 130-146: does the hook (port) contain the method; marks it. *)
Definition contains (fl : flags) (d : decl) (a m : string) : bool * flags :=
  if String.eqb a (d_name d) || smem a (d_agents d) then (true, set_hit fl (d_id d))
  else if smem (path_of a m) (d_methods d) then
    (true, set_meth (set_hit fl (d_id d)) (d_id d) (index (path_of a m) (d_methods d)))
  else (false, fl).

(** env.py:148-170: all that contain the method, in order. *)
Fixpoint all_containing (fl : flags) (ds : list decl) (a m : string) : list nat * flags :=
  match ds with
  | [] => ([], fl)
  | d :: t =>
      let (b, fl1) := contains fl d a m in
      let (l, fl2) := all_containing fl1 t a m in
      (if b then d_id d :: l else l, fl2)
  end.

(** model.py:447-489 [get_driver_port, get_monitor_port, get_driver_hook, get_monitor_hook] with
    mark_matched=True: the first with this path. *)
Fixpoint get_item (fl : flags) (l : list item) (path : string) : option nat * flags :=
  match l with
  | [] => (None, fl)
  | h :: t => if String.eqb (t_path h) path then (Some (t_id h), set_hit fl (t_id h)) else get_item fl t path
  end.

(** env.py:179-188, 200-209: the four lookups in the order of the dictionary display. *)
Definition make_info (fl : flags) (md : model) (hooks ports : list item) (a m : string) : info * flags :=
  let (ah, fl1) := all_containing fl (m_ahooks md) a m in
  let (ap, fl2) := all_containing fl1 (m_aports md) a m in
  let (h, fl3) := get_item fl2 hooks (path_of a m) in
  let (p, fl4) := get_item fl3 ports (path_of a m) in
  (mk_info ah ap h p, fl4).

(** model_infos[model] = model_info: an existing entry keeps its place. *)
Fixpoint set_info (l : infos) (k : nat) (v : info) : infos :=
  match l with
  | [] => [(k, v)]
  | (k', v') :: t => if Nat.eqb k k' then (k', v) :: t else (k', v') :: set_info t k v
  end.

(** env.py:172-191, 193-212 over all methods of one kind. *)
Fixpoint inject_methods (fl : flags) (md : model) (hooks ports : list item) (a : string) (l : list (string * infos))
  : list (string * infos) * flags :=
  match l with
  | [] => ([], fl)
  | (m, is) :: t =>
      let (i, fl1) := make_info fl md hooks ports a m in
      let (t', fl2) := inject_methods fl1 md hooks ports a t in
      ((m, set_info is (m_id md) i) :: t', fl2)
  end.

(** env.py:214-226 [__inject_all]. *)
Definition inject_agent (fl : flags) (md : model) (ag : agent) : agent * flags :=
  let (ds, fl1) := inject_methods fl md (m_dhooks md) (m_dports md) (a_name ag) (a_drivers ag) in
  let (ms, fl2) := inject_methods fl1 md (m_mhooks md) (m_mports md) (a_name ag) (a_monitors ag) in
  (mk_agent (a_name ag) ds ms, fl2).
Fixpoint inject_agents (fl : flags) (md : model) (l : list agent) : list agent * flags :=
  match l with
  | [] => ([], fl)
  | ag :: t =>
      let (ag', fl1) := inject_agent fl md ag in
      let (t', fl2) := inject_agents fl1 md t in (ag' :: t', fl2)
  end.

(** Run the checks of a loop until one raises. *)
Fixpoint each {A} (f : A -> res unit) (l : list A) : res unit :=
  match l with
  | [] => Ok tt
  | x :: t => match f x with Ok _ => each f t | Exn e => Exn e end
  end.
Definition require (b : bool) (e : exn) : res unit := if b then Ok tt else Exn e.
Definition then_ (r : res unit) (k : res unit) : res unit := match r with Ok _ => k | Exn e => Exn e end.

(** model.py:400-445 [ensure_all_matched]: (an agent hook that matched nothing only warns). *)
Definition ensure_all_matched (fl : flags) (md : model) : res unit :=
  then_ (each (fun d => each (fun b => require b ValueError) (f_meth fl (d_id d))) (m_ahooks md))
 (then_ (each (fun h => require (f_hit fl (t_id h)) ValueError) (m_dhooks md))
 (then_ (each (fun h => require (f_hit fl (t_id h)) ValueError) (m_mhooks md))
 (then_ (each (fun d => then_ (require (f_hit fl (d_id d)) ValueError)
                              (each (fun b => require b ValueError) (f_meth fl (d_id d)))) (m_aports md))
 (then_ (each (fun h => require (f_hit fl (t_id h)) ValueError) (m_dports md))
        (each (fun h => require (f_hit fl (t_id h)) ValueError) (m_mports md)))))).

(** env.py:244-279 [__ensure_model_match]; the message at 274 reads agent_port.__name__, which a Port does
    not have, so that check raises AttributeError. *)
Definition ensure_model_match (fl : flags) (e : env) (md : model) : res unit :=
  then_ (ensure_all_matched fl md)
 (then_ (each (fun d => then_ (each (fun a => require (smem a (e_attrs e)) ValueError) (d_agents d))
                              (require (String.eqb (d_name d) "" || smem (d_name d) (e_attrs e)) ValueError)) (m_ahooks md))
        (each (fun d => then_ (each (fun a => require (smem a (e_attrs e)) AttributeError) (d_agents d))
                              (require (String.eqb (d_own d) "" || smem (d_own d) (e_attrs e)) ValueError)) (m_aports md))).

(** model.py:393-398 [is_attached]: attached_agent is set to None at creation (324) and nowhere else. *)
Definition is_attached (md : model) : bool := false.

(** env.py:32-56 [attach]: the env and the flags left behind, also when it raises. *)
Definition attach (e : env) (fl : flags) (md : model) : res unit * env * flags :=
  let (ags, fl1) := inject_agents fl md (e_agents e) in
  let e1 := mk_env (e_attrs e) ags (e_attached e) in
  match ensure_model_match fl1 e1 md with
  | Exn x => (Exn x, e1, fl1)
  | Ok _ => (Ok tt, mk_env (e_attrs e) ags (e_attached e ++ [m_id md]), fl1)
  end.

(** env.py:58-77 [unattach]: the condition reads self.attached_model, which does not exist (the attribute is
    attached_models, 16), so the call raises at its first line. *)
Definition unattach (e : env) (fl : flags) (md : model) : res unit * env * flags := (Exn AttributeError, e, fl).

(** model.py:47-62, 103-121, 156-173, 187-193, 258-263: the flags as created. *)
Definition fresh (fl : flags) (md : model) : Prop :=
  (forall d, In d (m_ahooks md ++ m_aports md) -> f_hit fl (d_id d) = false /\ f_meth fl (d_id d) = repeat false (List.length (d_methods d))) /\
  (forall h, In h (m_dhooks md ++ m_mhooks md ++ m_dports md ++ m_mports md) -> f_hit fl (t_id h) = false).
