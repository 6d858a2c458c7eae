(** Model of several bundles bound to one DUT, with their request queues (toffee/bundle.py:425-541, 700-716): every bind registers the callback of the bundle for the
    rising edge of the DUT, and process_requests of any of them steps the DUT for all.  What one callback does is that of Req_Model; request dictionaries can be
    shared between bundles.  Left out as there: errors raised by [assign], conditions and callbacks. *)
From Coq Require Import List Bool Arith.
From Verif Require Import Py Req_Model.
Import ListNotations.

Section ReqM.
Context {mem data val : Type}.
Notation state := (@state mem data val). Notation dict := (@dict mem data val). Notation request := (@request mem data val).
(** A bundle: __dut_requests__, __blocked_request__; [b_assigned] records the calls of [self.assign] with their cycle. *)
Record bundle := mk_bundle { b_queue : list request; b_blocked : option nat; b_assigned : list (nat * data) }.
Record world := mk_world { w_heap : list dict; w_bundles : list bundle; w_mm : mem; w_cyc : nat }.
(** [assign k]: the assignment of bundle [k]; [order]: the bundles in the order in which they were bound (714: one registration per bind). *)
Context (dut : mem -> mem) (assign : nat -> data -> mem -> mem) (order : list nat).

(** What bundle [k] sees, as a state of Req_Model; and back. *)
Definition view (w : world) (b : bundle) : state := mk_state (w_heap w) (b_queue b) (b_blocked b) (w_mm w) (w_cyc w) 1 (b_assigned b).
Definition back (w : world) (k : nat) (s : state) : world := mk_world (heap s) (put_nth k (mk_bundle (queue s) (blocked s) (assigned s)) (w_bundles w)) (mm s) (w_cyc w).
(** 425-491 [___dut_call_on_rise__] of bundle [k] in cycle [c] *)
Definition callback (c : nat) (w : world) (k : nat) : world :=
  match nth_error (w_bundles w) k with Some b => back w k (on_rise (assign k) (view w b) c) | None => w end.
(** dut.Step(1): the DUT advances, then the registered callbacks are called, in the order of their registration. *)
Definition wstep (w : world) : world := fold_left (callback (S (w_cyc w))) order (mk_world (w_heap w) (w_bundles w) (dut (w_mm w)) (S (w_cyc w))).
Definition queue_of (w : world) (k : nat) : list request := match nth_error (w_bundles w) k with Some b => b_queue b | None => [] end.
(** 529-530: while not self.__dut_requests__.empty(): Step(1). *)
Inductive wloop (k : nat) : world -> world -> Prop :=
| wl_end w : queue_of w k = [] -> wloop k w w
| wl_step w w' : queue_of w k <> [] -> wloop k (wstep w) w' -> wloop k w w'.
(** 527-528 *)
Definition enqueue (w : world) (k : nat) (rs : list request) : world :=
  match nth_error (w_bundles w) k with Some b => back w k (put_all (view w b) rs) | None => w end.
(** 531-541 for the dictionaries of the heap *)
Definition wcollect (w : world) (rs : list request) := collect (mk_state (w_heap w) [] None (w_mm w) (w_cyc w) 1 []) rs.
(** 505-541 [process_requests] of the bound bundle [k] *)
Inductive wprocess (k : nat) : world -> list request -> world * res (list (one val * nat * one (option val))) -> Prop :=
| wp_busy w rs : queue_of w k <> [] -> wprocess k w rs (w, Exn AssertionError)
| wp_done w rs w' : queue_of w k = [] -> wloop k (enqueue w k rs) w' -> wprocess k w rs (w', Ok (wcollect w' rs)).
End ReqM.
