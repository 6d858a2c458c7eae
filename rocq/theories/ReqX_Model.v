(** Model of toffee/bundle.py:425-541 with errors: what user code called for a request raises, and what is left in the queue, in the blocked request and in the
    dictionaries.  The states of Req_Model, except that conditions, callables, functions and the assignment can raise.

    Assumed of the DUT (not part of the repository): an exception raised in a callback leaves dut.Step, and callbacks after it are not called. *)
From Coq Require Import List Bool Arith.
From Verif Require Import Py Req_Model.
Import ListNotations.

Section ReqX.
Context {mem data val : Type}.
(** The special keys of a request dictionary, as in Req_Model. *)
Record xdict := mk_xdict
  { x_cond : option (nat -> mem -> res bool); x_data : data; x_funcs : list (option (nat -> mem -> mem * res val)); x_bundles : option (list (mem -> val));
    x_ret : option (list val * list (option val) * nat) }.
Inductive xrequest := XNone | XDict (i : nat) | XCall (f : nat -> mem -> mem * res (option xdict)).
Record xstate := mk_xstate { x_heap : list xdict; x_queue : list xrequest; x_blocked : option nat; x_mm : mem; x_cyc : nat; x_calls : nat; x_assigned : list (nat * data) }.

Context (dut : mem -> mem) (xassign : data -> mem -> mem * res unit).

(** 470-475: the functions of a request, in order, up to the first that raises. *)
Fixpoint run_funcs_x (fs : list (option (nat -> mem -> mem * res val))) (c : nat) (m : mem) : mem * res (list (option val)) :=
  match fs with
  | [] => (m, Ok [])
  | None :: r => match run_funcs_x r c m with (m1, Ok l) => (m1, Ok (None :: l)) | (m1, Exn e) => (m1, Exn e) end
  | Some f :: r => match f c m with
                   | (m1, Exn e) => (m1, Exn e)
                   | (m1, Ok v) => match run_funcs_x r c m1 with (m2, Ok l) => (m2, Ok (Some v :: l)) | (m2, Exn e) => (m2, Exn e) end
                   end
  end.
(** Object [i] is written back as [d], and the memory is [m]. *)
Definition wrote (s : xstate) (i : nat) (d : xdict) (m : mem) (c : nat) : xstate :=
  mk_xstate (put_nth i d (x_heap s)) (x_queue s) (x_blocked s) m (x_cyc s) (x_calls s) (x_assigned s ++ [(c, x_data d)]).
(** 461-491: the special keys are popped (461-465), then the rest is assigned (469), the functions are called (470-475) and the results stored (488-491).  The keys stay
    popped if the assignment or a function raises; nothing is stored then. *)
Definition apply_x (s : xstate) (i : nat) (c : nat) : xstate * res unit :=
  match nth_error (x_heap s) i with
  | Some d =>
      match xassign (x_data d) (x_mm s) with
      | (m1, Exn e) => (wrote s i (mk_xdict None (x_data d) [None] None (x_ret d)) m1 c, Exn e)
      | (m1, Ok _) =>
          match run_funcs_x (x_funcs d) c m1 with
          | (m2, Exn e) => (wrote s i (mk_xdict None (x_data d) [None] None (x_ret d)) m2 c, Exn e)
          | (m2, Ok fr) =>
              (wrote s i (mk_xdict None (x_data d) [None] None (match x_bundles d with Some bs => Some (map (fun b => b m2) bs, fr, c) | None => x_ret d end)) m2 c, Ok tt)
          end
      end
  | None => (s, Ok tt)
  end.
Definition with_blocked (s : xstate) (b : option nat) : xstate := mk_xstate (x_heap s) (x_queue s) b (x_mm s) (x_cyc s) (x_calls s) (x_assigned s).
(** 455-460: the condition, which has not been popped when it raises; 459 blocked. *)
Definition try_x (s : xstate) (i : nat) (c : nat) : xstate * res unit :=
  match nth_error (x_heap s) i with
  | Some d => match match x_cond d with Some f => f c (x_mm s) | None => Ok true end with
              | Exn e => (s, Exn e)
              | Ok true => apply_x s i c
              | Ok false => (with_blocked s (Some i), Ok tt)
              end
  | None => (s, Ok tt)
  end.
(** 443-454: the next request leaves the queue (446) before anything is called for it. *)
Definition next_x (s : xstate) (c : nat) : xstate * res unit :=
  match x_queue s with
  | [] => (s, Ok tt)
  | r :: q =>
      let s1 m h := mk_xstate h q (x_blocked s) m (x_cyc s) (x_calls s) (x_assigned s) in
      match r with
      | XNone => (s1 (x_mm s) (x_heap s), Ok tt)
      | XDict i => try_x (s1 (x_mm s) (x_heap s)) i c
      | XCall f =>
          match f c (x_mm s) with
          | (m1, Exn e) => (s1 m1 (x_heap s), Exn e)
          | (m1, Ok None) => (s1 m1 (x_heap s), Ok tt)
          | (m1, Ok (Some d)) => try_x (s1 m1 (x_heap s ++ [d])) (List.length (x_heap s)) c
          end
      end
  end.
(** 425-491 [___dut_call_on_rise__]: the condition of the blocked request is looked up with [] (434: KeyError without one); it stays blocked if the condition raises. *)
Definition rise_x (s : xstate) (c : nat) : xstate * res unit :=
  match x_blocked s with
  | Some i =>
      match nth_error (x_heap s) i with
      | Some d => match match x_cond d with Some f => f c (x_mm s) | None => Exn KeyError end with
                  | Exn e => (s, Exn e)
                  | Ok true => apply_x (with_blocked s None) i c
                  | Ok false => (s, Ok tt)
                  end
      | None => (s, Ok tt)
      end
  | None => next_x s c
  end.
Fixpoint repeat_x (n : nat) (s : xstate) (c : nat) : xstate * res unit :=
  match n with 0 => (s, Ok tt) | S n' => match rise_x s c with (s1, Ok _) => repeat_x n' s1 c | (s1, Exn e) => (s1, Exn e) end end.
(** dut.Step(1) *)
Definition step_x (s : xstate) : xstate * res unit :=
  let c := S (x_cyc s) in
  repeat_x (x_calls s) (mk_xstate (x_heap s) (x_queue s) (x_blocked s) (dut (x_mm s)) c (x_calls s) (x_assigned s)) c.
(** 529-530: the first exception leaves the loop. *)
Inductive loop_x : xstate -> xstate * res unit -> Prop :=
| lx_end s : x_queue s = [] -> loop_x s (s, Ok tt)
| lx_step s s1 u r : x_queue s <> [] -> step_x s = (s1, Ok u) -> loop_x s1 r -> loop_x s r
| lx_raise s s1 e : x_queue s <> [] -> step_x s = (s1, Exn e) -> loop_x s (s1, Exn e).
Definition put_all_x (s : xstate) (rs : list xrequest) : xstate := mk_xstate (x_heap s) (x_queue s ++ rs) (x_blocked s) (x_mm s) (x_cyc s) (x_calls s) (x_assigned s).
(** 531-541 *)
Definition collect_x (s : xstate) (rs : list xrequest) : list (one val * nat * one (option val)) :=
  flat_map (fun r => match r with
                     | XDict i => match nth_error (x_heap s) i with
                                  | Some d => match x_ret d with Some (v, fr, c) => [(squeeze v, c, squeeze fr)] | None => [] end
                                  | None => []
                                  end
                     | _ => []
                     end) rs.
(** 505-541 [process_requests] *)
Inductive process_x : xstate -> list xrequest -> xstate * res (list (one val * nat * one (option val))) -> Prop :=
| px_busy s rs : x_queue s <> [] -> process_x s rs (s, Exn AssertionError)
| px_nodut s rs : x_queue s = [] -> x_calls s = 0 -> rs <> [] -> process_x s rs (put_all_x s rs, Exn AttributeError)
| px_done s rs s' u : x_queue s = [] -> (x_calls s <> 0 \/ rs = []) -> loop_x (put_all_x s rs) (s', Ok u) -> process_x s rs (s', Ok (collect_x s' rs))
| px_raise s rs s' e : x_queue s = [] -> x_calls s <> 0 -> loop_x (put_all_x s rs) (s', Exn e) -> process_x s rs (s', Exn e).
(** 493-503 [make_requset_response_for], called by bind (714). *)
Definition respond_x (s : xstate) : xstate := mk_xstate (x_heap s) (x_queue s) (x_blocked s) (x_mm s) (x_cyc s) (S (x_calls s)) (x_assigned s).
End ReqX.
