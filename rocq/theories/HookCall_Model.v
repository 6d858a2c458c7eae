(** The functions marked as monitor hooks and agent hooks of a model, as a monitor calls them (toffee/_base_agent.py:217-236). *)
From Coq Require Import List Bool Arith ZArith.
From Verif Require Import Py Prio_Model Loop_Model Mon_Model.
Import ListNotations.
Open Scope nat_scope.

Section HookCall.
Context {mem : Type}.
Notation prog := (@prog mem).
(** A method of a model decorated with [monitor_hook] or [agent_hook] (model.py): a function, or a coroutine function.  Unlike the hooks of drivers
    (70-71, 87-88) nothing looks at which of the two it is.  Simplified: a function reads and writes memory and does not call toffee. *)
Inductive hookfn := Plain (f : list lval -> mem -> mem * res lval) | Coro (body : list lval -> prog).
(** 218-219 [async_wrapper]: [return func( *args )] inside a coroutine.  A function is called; calling a coroutine function makes a coroutine object, which is
    returned and which nobody awaits, so that its body is not entered.  Simplified: the returned value, which nobody reads (executor.py:29-35), is None. *)
Definition call_fn (h : hookfn) (args : list lval) : prog :=
  match h with
  | Plain f => Op (OMem (f args)) (fun r => match r with Ok v => Ret v | Exn e => Raise e end)
  | Coro _ => Ret VNone
  end.
(** 233-236: the monitor hook gets the result; 228-231: the agent hook gets the path of the monitor and the result. *)
Definition mon_hook (h : hookfn) (v : lval) : prog := call_fn h [v].
Definition agent_hook (h : hookfn) (path v : lval) : prog := call_fn h [path; v].
(** A model that only has hooks (env.py:193-212), each with its __priority__. *)
Definition hook_model (ahs : list (hookfn * Z)) (h : option (hookfn * Z)) : @mon_model mem :=
  mk_mm [] None (map (fun a => (agent_hook (fst a), snd a)) ahs) (option_map (fun a => (mon_hook (fst a), snd a)) h).
End HookCall.
