(** The end of a test that clocks several DUTs (toffee/asynchronous.py:92-112, 161-189, 234-261), on top of Clk_Model.

    Task 0 is main_coro, in which the test runs; [last]: the DUT for which start_clock was called last, whose event is global_clock_event (186).  Simplified: as in
    Clk_Model; moreover a task that is cancelled ends at once (it awaits clock events only and does not catch CancelledError). *)
From Coq Require Import List Bool Arith.
From Verif Require Import Clk_Model.
Import ListNotations.

Section End.
Context {mem : Type}.
(** The memory with [loop.test_done] (235, 252). *)
Definition mem1 : Type := bool * mem.
Notation act0 := (@act mem). Notation act := (@act mem1). Notation st := (@st mem1).

(** A task of the test: it leaves test_done alone. *)
CoFixpoint lift (a : act0) : act := match a with Ends => Ends | Await d k => Await d (fun x => let (m, a) := k (snd x) in ((fst x, m), lift a)) end.
Definition task (k : mem -> mem * act0) (x : mem1) : mem1 * act := let (m, a) := k (snd x) in ((fst x, m), lift a).
(** 257: main_coro has been woken for the last time; it returns (259-261). *)
Definition leave (x : mem1) : mem1 * act := (x, Ends).
(** 245-257: the test, in main_coro; when it has returned test_done is set and the event of the DUT [last] is awaited. *)
CoFixpoint main_act (last d : nat) (k : mem -> mem * act0) : act :=
  Await d (fun x => match k (snd x) with
                    | (m, Ends) => ((true, m), Await last leave)
                    | (m, Await d' k') => ((fst x, m), main_act last d' k')
                    end).
Definition main (last : nat) (k : mem -> mem * act0) (x : mem1) : mem1 * act :=
  match k (snd x) with
  | (m, Ends) => ((true, m), Await last leave)
  | (m, Await d' k') => ((fst x, m), main_act last d' k')
  end.

(** Where the clock loop that ends the test is: nowhere yet; it awaits the [n] tasks it has cancelled (100); it has been woken; it sleeps once (111). *)
Inductive ending := NotYet | Gathers (x n : nat) | Woken (x : nat) | Naps (x : nat).
Record est := mk_est { e_st : st; e_end : ending }.
Definition over (s : st) : bool := fst (mm s).

Context (dut : nat -> mem -> mem).
Definition dut1 (d : nat) (x : mem1) : mem1 := (fst x, dut d (snd x)).
(** 93-97: the unfinished tasks other than main_coro.  (The other clock loops are in the ready queue.) *)
Definition victims (s : st) : list nat :=
  filter (fun t => match nth_error (tasks s) t with Some Ended | None => false | _ => negb (Nat.eqb t 0) end) (seq 0 (length (tasks s))).
(** 92-100 [cancel_all_tasks], called by the clock loop of [d]; [r]: the rest of the ready queue, which holds the other clock loops.  Simplified: the order in which the
    cancelled tasks get their turns is fixed (they only end); with nothing to cancel, gather() returns at once. *)
Definition cancel_all (s : st) (d : nat) (r : list handle) : est :=
  match r ++ map HTask (victims s) with
  | [] => mk_est (mk_st [HClk d] (tasks s) (waits s) (steps_of s) (mm s)) (Naps d)
  | q => mk_est (mk_st q (tasks s) (filter (Nat.eqb 0) (waits s)) (steps_of s) (mm s)) (Gathers d (length q))
  end.
(** A cancelled task or clock loop has ended; the last one wakes the clock loop [x].  Simplified: in asyncio two more turns of the loop lie in between. *)
Definition gone (s : st) (x n : nat) (r : list handle) (ts : list (@tstate mem1)) : est :=
  match n with
  | 0 => mk_est (mk_st (r ++ [HClk x]) ts (waits s) (steps_of s) (mm s)) (Woken x)
  | S _ => mk_est (mk_st r ts (waits s) (steps_of s) (mm s)) (Gathers x n)
  end.
(** One entry of the ready queue. *)
Definition emove (e : est) : est :=
  let s := e_st e in
  match e_end e, ready s with
  | NotYet, HClk d :: r => if has_unwait s then mk_est (move dut1 s) NotYet else if over s then cancel_all s d r else mk_est (move dut1 s) NotYet   (* 103-112 *)
  | NotYet, _ => mk_est (move dut1 s) NotYet
  | Gathers x (S n), HTask t :: r => gone s x n r (put (tasks s) t Ended)
  | Gathers x (S n), HClk d :: r => gone s x n r (tasks s)
  | Woken x, h :: r => mk_est (mk_st (r ++ [h]) (tasks s) (waits s) (steps_of s) (mm s)) (Naps x)                                            (* 111 *)
  | Naps x, h :: r => mk_est (clock_step dut1 s x r) NotYet                                                                                  (* 172-174 *)
  | _, _ => e
  end.
Fixpoint emoves (n : nat) (e : est) : est := match n with O => e | S n => emoves n (emove e) end.
(** The run begins: [test] in main_coro, the other tasks [ks], and the clock loops, created in the order [l]. *)
Definition estart (last : nat) (test : mem -> mem * act0) (ks : list (mem -> mem * act0)) (l : list handle) (m : mem) : est :=
  mk_est (start (main last test :: map task ks) l (false, m)) NotYet.
End End.
