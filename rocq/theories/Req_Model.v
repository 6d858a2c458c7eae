(** Model of toffee/bundle.py:425-541: the request queue of a bundle, its rising-edge callback and process_requests.

    Request dictionaries are mutable and shared between the caller's list, the queue and the blocked request, so they live in a heap.
    Left out: errors raised by [assign], by condition functions and by callbacks. *)
From Coq Require Import List Bool Arith.
From Verif Require Import Py.
Import ListNotations.

Section Req.
(** [mem]: the DUT, its pins and everything else callbacks can see; [data]: what a dictionary assigns to the signals; [val]: values
    of bundles (as_dict) and of functions. *)
Context {mem data val : Type}.
(** The special keys of a request dictionary: __condition_func__ with its arguments; __funcs__ (a function that is not callable
    gives None, here [None]); __return_bundles__ with the reading function of each Bundle in it; then the keys 489-491 written by
    the callback: __return_values__ and __funcs_return__ (with a list of length one replaced by its element when the value is
    used: [one] below) and __return_cycles__. *)
Record dict := mk_dict
  { d_cond : option (nat -> mem -> bool); d_data : data; d_funcs : list (option (nat -> mem -> mem * val)); d_bundles : option (list (mem -> val));
    d_ret : option (list val * list (option val) * nat) }.
(** An element of the list given to process_requests: None, a dictionary, a callable.  A dictionary a callable returns is new. *)
Inductive request := RNone | RDict (i : nat) | RCall (f : nat -> mem -> mem * option dict).
(** The blocked request: an object of the heap. *)
(** [calls]: how often the callback is registered (once per bind, 714); [cyc]: the clock of the DUT; [assigned] records the calls of
    [self.assign] with their cycle, for stating what happens. *)
Record state := mk_state { heap : list dict; queue : list request; blocked : option nat; mm : mem; cyc : nat; calls : nat; assigned : list (nat * data) }.

Context (dut : mem -> mem) (assign : data -> mem -> mem).

Fixpoint put_nth {A} (n : nat) (a : A) (l : list A) : list A :=
  match l, n with [], _ => [] | _ :: t, 0 => a :: t | x :: t, S n' => x :: put_nth n' a t end.
(** 471-475: the functions of a request, in order. *)
Fixpoint run_funcs (fs : list (option (nat -> mem -> mem * val))) (c : nat) (m : mem) : mem * list (option val) :=
  match fs with
  | [] => (m, [])
  | None :: r => let (m1, l) := run_funcs r c m in (m1, None :: l)
  | Some f :: r => let (m1, v) := f c m in let (m2, l) := run_funcs r c m1 in (m2, Some v :: l)
  end.
(** 462-491: object [i] is applied: conditions, functions and return bundles are popped, the rest is assigned, the functions are
    called, and if there were return bundles the results are stored in the object.  Simplified: [assign] also deletes the key
    "*" from the object, so a second application of the same object assigns less than the first; here [d_data] stays. *)
Definition apply_dict (s : state) (i : nat) (c : nat) : state :=
  match nth_error (heap s) i with
  | Some d =>
      let m1 := assign (d_data d) (mm s) in
      let (m2, fr) := run_funcs (d_funcs d) c m1 in
      let ret := match d_bundles d with Some bs => Some (map (fun b => b m2) bs, fr, c) | None => d_ret d end in
      mk_state (put_nth i (mk_dict None (d_data d) [None] None ret) (heap s)) (queue s) (blocked s) m2 (cyc s) (calls s) (assigned s ++ [(c, d_data d)])
  | None => s
  end.
(** 455-461: the condition of object [i], if any, is checked; 460 blocked. *)
Definition try_dict (s : state) (i : nat) (c : nat) : state :=
  match nth_error (heap s) i with
  | Some d => if match d_cond d with Some f => f c (mm s) | None => true end then apply_dict s i c
              else mk_state (heap s) (queue s) (Some i) (mm s) (cyc s) (calls s) (assigned s)
  | None => s
  end.
Definition unblock (s : state) : state := mk_state (heap s) (queue s) None (mm s) (cyc s) (calls s) (assigned s).
(** 444-454: the next request from the queue. *)
Definition next_request (s : state) (c : nat) : state :=
  match queue s with
  | [] => s
  | r :: q =>
      let s1 := mk_state (heap s) q (blocked s) (mm s) (cyc s) (calls s) (assigned s) in
      match r with
      | RNone => s1
      | RDict i => try_dict s1 i c
      | RCall f =>
          let (m1, o) := f c (mm s) in
          match o with
          | None => mk_state (heap s) q (blocked s) m1 (cyc s) (calls s) (assigned s)
          | Some d => try_dict (mk_state (heap s ++ [d]) q (blocked s) m1 (cyc s) (calls s) (assigned s)) (List.length (heap s)) c
          end
      end
  end.
(** 425-491 [___dut_call_on_rise__] *)
Definition on_rise (s : state) (c : nat) : state :=
  match blocked s with
  | Some i =>
      match nth_error (heap s) i with
      | Some d => if match d_cond d with Some f => f c (mm s) | None => true end then apply_dict (unblock s) i c else s
      | None => s
      end
  | None => next_request s c
  end.
Fixpoint repeat_call (n : nat) (s : state) (c : nat) : state := match n with 0 => s | S n' => repeat_call n' (on_rise s c) c end.
(** dut.Step(1): the DUT advances, then the registered callbacks are called with the number of the cycle. *)
Definition dstep (s : state) : state :=
  let c := S (cyc s) in
  repeat_call (calls s) (mk_state (heap s) (queue s) (blocked s) (dut (mm s)) c (calls s) (assigned s)) c.
(** 529-530: while not empty: Step(1). *)
Inductive loop : state -> state -> Prop :=
| loop_end s : queue s = [] -> loop s s
| loop_step s s' : queue s <> [] -> loop (dstep s) s' -> loop s s'.
(** A list of length one is replaced by its element (476-477, 486-487). *)
Inductive one (A : Type) := Single (a : A) | Several (l : list A).
Definition squeeze {A} (l : list A) : one A := match l with [a] => Single A a | _ => Several A l end.
(** 531-541: data, cycle and __funcs_return__ of the dictionaries in the list. *)
Definition collect (s : state) (rs : list request) : list (one val * nat * one (option val)) :=
  flat_map (fun r => match r with
                     | RDict i => match nth_error (heap s) i with
                                  | Some d => match d_ret d with Some (v, fr, c) => [(squeeze v, c, squeeze fr)] | None => [] end
                                  | None => []
                                  end
                     | _ => []
                     end) rs.
Definition put_all (s : state) (rs : list request) : state := mk_state (heap s) (queue s ++ rs) (blocked s) (mm s) (cyc s) (calls s) (assigned s).
(** 505-541 [process_requests]: the assertion on the queue; with no DUT (never bound) Step raises AttributeError. *)
Inductive process_requests : state -> list request -> state * res (list (one val * nat * one (option val))) -> Prop :=
| pr_busy s rs : queue s <> [] -> process_requests s rs (s, Exn AssertionError)
| pr_nodut s rs : queue s = [] -> calls s = 0 -> rs <> [] -> process_requests s rs (put_all s rs, Exn AttributeError)
| pr_done s rs s' : queue s = [] -> (calls s <> 0 \/ rs = []) -> loop (put_all s rs) s' -> process_requests s rs (s', Ok (collect s' rs)).
End Req.
Arguments Single {A}. Arguments Several {A}.
