(** Vocabulary for process_requests with errors. *)
From Coq Require Import List Bool Arith.
From Verif Require Import Py Req_Model ReqX_Model.
Import ListNotations.

Section Spec.
Context {mem data val : Type} (dut : mem -> mem) (xassign : data -> mem -> mem * res unit).
Notation xstate := (@xstate mem data val). Notation xdict := (@xdict mem data val). Notation xrequest := (@xrequest mem data val).
(** Nothing queued, nothing blocked, bound once. *)
Definition idle_x (s : xstate) : Prop := x_queue s = [] /\ x_blocked s = None /\ x_calls s = 1.
(** The dictionaries in the list are objects of the caller. *)
Definition known (s : xstate) (rs : list xrequest) : Prop := forall i, In (XDict i) rs -> i < List.length (x_heap s).
(** [d] is the dictionary of the request: itself, or returned by the callable. *)
Definition content_x (s : xstate) (r : xrequest) (d : xdict) : Prop :=
  match r with XNone => False | XDict i => nth_error (x_heap s) i = Some d | XCall f => exists c m m', f c m = (m', Ok (Some d)) end.
(** The condition, the assignment or a function of [d] raises [e] in cycle [c]. *)
Definition blames (d : xdict) (c : nat) (e : exn) : Prop :=
  (exists f m, x_cond d = Some f /\ f c m = Exn e) \/ (exists m m', xassign (x_data d) m = (m', Exn e)) \/ exists f m m', In (Some f) (x_funcs d) /\ f c m = (m', Exn e).
Definition raised_by (s : xstate) (r : xrequest) (c : nat) (e : exn) : Prop :=
  (exists d, content_x s r d /\ blames d c e) \/ exists f m m', r = XCall f /\ f c m = (m', Exn e).
(** A request that only assigns, without error. *)
Definition data_only_x (s : xstate) (r : xrequest) : Prop :=
  exists i d, r = XDict i /\ nth_error (x_heap s) i = Some d /\ x_cond d = None /\ x_funcs d = [None] /\ forall m, exists m', xassign (x_data d) m = (m', Ok tt).
(** What it assigns in cycle [c]. *)
Definition assigns_x (s : xstate) (c : nat) (r : xrequest) : list (nat * data) :=
  match r with XDict i => match nth_error (x_heap s) i with Some d => [(c, x_data d)] | None => [] end | _ => [] end.
(** [n] calls of dut.Step that do not raise. *)
Inductive steps_x : nat -> xstate -> xstate -> Prop :=
| sx_none s : steps_x 0 s s
| sx_step n s s1 u s' : step_x dut xassign s = (s1, Ok u) -> steps_x n s1 s' -> steps_x (S n) s s'.

(** A state of Req_Model, in which nothing can raise, as a state with errors. *)
Definition lift_dict (d : @dict mem data val) : xdict :=
  mk_xdict (option_map (fun (f : nat -> mem -> bool) (c : nat) (m : mem) => Ok (f c m)) (d_cond d)) (d_data d) (map (option_map (fun (f : nat -> mem -> mem * val) (c : nat) (m : mem) => let (m', v) := f c m in (m', Ok v))) (d_funcs d)) (d_bundles d) (d_ret d).
Definition lift_request (r : @request mem data val) : xrequest :=
  match r with RNone => XNone | RDict i => XDict i | RCall f => XCall (fun c m => let (m', o) := f c m in (m', Ok (option_map lift_dict o))) end.
Definition lift (s : @state mem data val) : xstate :=
  mk_xstate (map lift_dict (heap s)) (map lift_request (queue s)) (blocked s) (mm s) (cyc s) (calls s) (assigned s).
(** The blocked request, if any, has a condition. *)
Definition sound (s : @state mem data val) : Prop := forall i, blocked s = Some i -> exists d, nth_error (heap s) i = Some d /\ d_cond d <> None.
End Spec.
