(** What can be said about tests with several clocks without looking into the ready queue. *)
From Coq Require Import List Bool Arith.
From Verif Require Import Clk_Model.
Import ListNotations.

Section Spec.
Context {mem : Type}.
Notation st := (@st mem).
(** [t] waits for the clock of [d], and goes on with [k]. *)
Definition waiting (s : st) (t d : nat) (k : mem -> mem * @act mem) : Prop := nth_error (tasks s) t = Some (Waits d k).
(** [t] can run and does [k] next. *)
Definition runnable (s : st) (t : nat) (k : mem -> mem * @act mem) : Prop := nth_error (tasks s) t = Some (Can k).
(** Nothing but clock loops can run; they get their turns in the order [cs]. *)
Definition rest (s : st) (cs : list nat) : Prop := ready s = map HClk cs /\ forall t k, ~ runnable s t k.
(** The entry that gets the next turn. *)
Definition turn_of (s : st) (h : handle) : Prop := exists r, ready s = h :: r.
(** The clocks and tasks of a test at its beginning: every task is in the queue, once. *)
Definition task_of (h : handle) : list nat := match h with HTask t => [t] | HClk _ => [] end.
Definition clock_of (h : handle) : list nat := match h with HClk d => [d] | HTask _ => [] end.
Definition task_handles (l : list handle) : list nat := flat_map task_of l.
Definition clocks (l : list handle) : list nat := flat_map clock_of l.
Definition begins (s : st) (ks : list (mem -> mem * @act mem)) (l : list handle) (m : mem) : Prop :=
  s = start ks l m /\ NoDup (task_handles l) /\ forall t, In t (task_handles l) <-> t < length ks.

(** The tasks [ts] run one after the other: memory, and what each does then. *)
Fixpoint run_tasks (ks : nat -> option (mem -> mem * @act mem)) (ts : list nat) (m : mem) : mem * list (@act mem) :=
  match ts with
  | [] => (m, [])
  | t :: ts => match ks t with
               | Some k => let (m1, a) := k m in let (m2, l) := run_tasks ks ts m1 in (m2, a :: l)
               | None => run_tasks ks ts m
               end
  end.
(** The tasks that wait for the clock of [d], in the order in which they began to wait. *)
Definition waiters (s : st) (d : nat) : list nat :=
  filter (fun t => match nth_error (tasks s) t with Some (Waits d' _) => Nat.eqb d d' | _ => false end) (waits s).
(** What a task that has run does now. *)
Definition now_ (a : @act mem) : tstate := match a with Ends => Ended | Await d k => Waits d k end.
Definition begins_to_wait (p : nat * @act mem) : list nat := match snd p with Await _ _ => [fst p] | Ends => [] end.
(** Between [s] and [s'] exactly the tasks [ts] have run, one after the other, each once, beginning with memory [m] and each doing what [k] says. *)
Definition ran_once (s s' : st) (k : nat -> option (mem -> mem * @act mem)) (ts : list nat) (m : mem) : Prop :=
  exists acts, run_tasks k ts m = (mm s', acts) /\ Forall2 (fun t a => nth_error (tasks s') t = Some (now_ a)) ts acts /\
    (forall t, ~ In t ts -> nth_error (tasks s') t = nth_error (tasks s) t) /\ waits s' = filter (fun t => negb (existsb (Nat.eqb t) ts)) (waits s) ++ flat_map begins_to_wait (combine ts acts).
(** What the tasks that can run, and those that wait for [d], do next. *)
Definition can_do (s : st) (t : nat) : option (mem -> mem * @act mem) := match nth_error (tasks s) t with Some (Can k) => Some k | _ => None end.
Definition will_do (s : st) (d t : nat) : option (mem -> mem * @act mem) := match nth_error (tasks s) t with Some (Waits d' k) => if Nat.eqb d d' then Some k else None | _ => None end.
(** Awaiting the clock of [d] as often as [S n] times, and [k] then; the first await has been made. *)
Fixpoint cycles (d n : nat) (k : mem -> mem * @act mem) : mem -> mem * @act mem := match n with O => k | S n => fun m => (m, Await d (cycles d n k)) end.
End Spec.
