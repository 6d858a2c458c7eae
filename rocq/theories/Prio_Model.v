(** Model of the priority-task list of toffee/executor.py:14-41 and of the callback loop of
    toffee/asynchronous.py:25-44,103-107.

    A registered coroutine is an action [A]; awaiting it runs [run a w] on the world [w] to
    completion (the wrappers registered by _base_agent.py:73-74, 90-96, 218-219 contain no await, so
    they never suspend) and either returns or raises.
    [sorted(..., key=...)] is Python's stable sort; it is modelled by stable insertion sort. *)
From Coq Require Import List ZArith Bool.
From Verif Require Import Py.
Import ListNotations.
Open Scope Z_scope.

(** executor.py:22: the tuple (coro, priority, done_event); events are numbered. *)
Record ptask (A : Type) := mk_pt { pt_coro : A; pt_prio : Z; pt_done : option nat }.
Arguments mk_pt {A}. Arguments pt_coro {A}. Arguments pt_prio {A}. Arguments pt_done {A}.

(** executor.py:17-22 [add_priority_task]. *)
Definition add_priority_task {A} (l : list (ptask A)) (a : A) (priority : Z) (done : option nat)
  : list (ptask A) := l ++ [mk_pt a priority done].

(** executor.py:31 [sorted(__priority_tasks, key=lambda x: x[1])]. *)
Fixpoint pt_insert {A} (x : ptask A) (l : list (ptask A)) : list (ptask A) :=
  match l with
  | [] => [x]
  | y :: t => if pt_prio x <=? pt_prio y then x :: y :: t else y :: pt_insert x t
  end.
Fixpoint pt_sorted {A} (l : list (ptask A)) : list (ptask A) :=
  match l with [] => [] | x :: t => pt_insert x (pt_sorted t) end.

(** What one call of [__execute_priority_tasks] did. [x_world]: world after; [x_ran]: tasks whose
    coroutine was awaited, in order; [x_set]: done events set, in order; [x_left]: the module list
    afterwards; [x_ret]: return value or exception. *)
Record exec_out (A W : Type) := mk_out
  { x_world : W; x_ran : list (ptask A); x_set : list nat; x_left : list (ptask A); x_ret : res bool }.
Arguments mk_out {A W}. Arguments x_world {A W}. Arguments x_ran {A W}. Arguments x_set {A W}.
Arguments x_left {A W}. Arguments x_ret {A W}.

Section Exec.
  Context {A W : Type} (run : A -> W -> W * option exn).

  (** executor.py:31-35, the for loop over the sorted list. *)
  Fixpoint exec_loop (ts : list (ptask A)) (w : W) (set_event : bool)
    : W * list (ptask A) * list nat * res bool :=
    match ts with
    | [] => (w, [], [], Ok set_event)
    | t :: ts' =>
        let (w1, r) := run (pt_coro t) w in
        match r with
        | Some e => (w1, [t], [], Exn e)
        | None =>
            let se := match pt_done t with Some _ => true | None => set_event end in
            let '(w2, ran, evs, ret) := exec_loop ts' w1 se in
            (w2, t :: ran, match pt_done t with Some ev => ev :: evs | None => evs end, ret)
        end
    end.

  (** executor.py:25-38 [__execute_priority_tasks]: the list is cleared only if nothing raised. *)
  Definition execute_priority_tasks (l : list (ptask A)) (w : W) : exec_out A W :=
    let '(w', ran, evs, ret) := exec_loop (pt_sorted l) w false in
    mk_out w' ran evs (match ret with Ok _ => [] | Exn _ => l end) ret.
End Exec.
