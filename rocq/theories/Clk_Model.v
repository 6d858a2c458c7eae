(** Model of several clocks in one test: start_clock called for several DUTs (toffee/asynchronous.py:56-92, 161-189), or several times.

    The ready queue of asyncio (FIFO) holds the clock loops that have yielded in __run_once (77) and the tasks that can run.  Simplified, compared with
    Loop_Model (which has one clock): tasks await clock events only and create no tasks, there are no hooks and callbacks, the test has not ended, and the flag
    new_task_run stays False (asyncio.Event.wait, which the clock event of a DUT has, does not set it). *)
From Coq Require Import List Bool Arith.
Import ListNotations.

Section Clk.
Context {mem : Type}.
(** What a task does when it has run: it is done, or it awaits the clock event of DUT [d]; [k]: what it does between this await and its next. *)
CoInductive act := Ends | Await (d : nat) (k : mem -> mem * act).
(** A task: it can run (new, or its future is finished), it waits, or it has ended. *)
Inductive tstate := Can (k : mem -> mem * act) | Waits (d : nat) (k : mem -> mem * act) | Ended.
(** An entry of the ready queue: the clock loop of a DUT, a task. *)
Inductive handle := HClk (d : nat) | HTask (t : nat).
(** [waits]: the waiting tasks in the order in which they began to wait (Event._waiters, over all events); [steps_of d]: how often DUT [d] was stepped. *)
Record st := mk_st { ready : list handle; tasks : list tstate; waits : list nat; steps_of : nat -> nat; mm : mem }.

Fixpoint put (l : list tstate) (t : nat) (x : tstate) : list tstate :=
  match l, t with [], _ => [] | _ :: r, O => x :: r | y :: r, S t => y :: put r t x end.
(** 66: the task has no future it waits for, or a finished one. *)
Definition can (x : tstate) : bool := match x with Can _ => true | _ => false end.
(** 56-68 [__has_unwait_task]; the clock loops are skipped (63-64), finished tasks are not among asyncio.all_tasks(). *)
Definition has_unwait (s : st) : bool := existsb can (tasks s).
Definition on (d : nat) (x : tstate) : bool := match x with Waits d' _ => Nat.eqb d d' | _ => false end.
Definition waits_on (s : st) (d t : nat) : bool := match nth_error (tasks s) t with Some x => on d x | None => false end.
(** asyncio.Event.set: the waiters can run, in their order. *)
Definition woken (s : st) (d : nat) : list nat := filter (waits_on s d) (waits s).
Definition wake (d : nat) (x : tstate) : tstate := match x with Waits d' k => if Nat.eqb d d' then Can k else x | _ => x end.

Context (dut : nat -> mem -> mem).
(** 171-174: dut.Step(1), event.set(), event.clear(), and the next __run_once. *)
Definition clock_step (s : st) (d : nat) (r : list handle) : st :=
  mk_st (r ++ map HTask (woken s d) ++ [HClk d]) (map (wake d) (tasks s)) (filter (fun t => negb (waits_on s d t)) (waits s))
        (fun d' => if Nat.eqb d d' then S (steps_of s d') else steps_of s d') (dut d (mm s)).
(** A task runs until its next await or its end. *)
Definition resume (s : st) (t : nat) (r : list handle) : st :=
  match nth_error (tasks s) t with
  | Some (Can k) =>
      match k (mm s) with
      | (m, Await d k') => mk_st r (put (tasks s) t (Waits d k')) (waits s ++ [t]) (steps_of s) m
      | (m, Ends) => mk_st r (put (tasks s) t Ended) (waits s) (steps_of s) m
      end
  | _ => mk_st r (tasks s) (waits s) (steps_of s) (mm s)
  end.
(** One entry of the ready queue; a clock loop looks whether a task can run (87) and yields again (88), or steps its DUT. *)
Definition move (s : st) : st :=
  match ready s with
  | [] => s
  | HTask t :: r => resume s t r
  | HClk d :: r => if has_unwait s then mk_st (r ++ [HClk d]) (tasks s) (waits s) (steps_of s) (mm s) else clock_step s d r
  end.
Fixpoint moves (n : nat) (s : st) : st := match n with O => s | S n => moves n (move s) end.
(** The test begins: the tasks [ks] and clock loops have been created in the order [l]. *)
Definition start (ks : list (mem -> mem * act)) (l : list handle) (m : mem) : st := mk_st l (map Can ks) [] (fun _ => 0) m.
End Clk.
