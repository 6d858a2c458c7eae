(** Property theorems for the priority list of toffee/executor.py: C28, C65. *)
From Coq Require Import List ZArith Bool Permutation Sorted.
From Verif Require Import Py Prio_Model Prio_Proofs.
Import ListNotations.
Open Scope Z_scope.

(** C28: one pass runs every registered task once, by priority, stable; it asks for another pass iff
    some task has a done event; exactly the done events of the run tasks are set, in order. *)
Theorem C28_priority_pass : forall (A W : Type) (run : A -> W -> W * option exn) (l : list (ptask A)) (w : W),
  let o := execute_priority_tasks run l w in
  forall b, x_ret o = Ok b ->
    Permutation (x_ran o) l /\
    StronglySorted (fun x y => pt_prio x <= pt_prio y) (x_ran o) /\
    (forall p, filter (fun t => pt_prio t =? p) (x_ran o) = filter (fun t => pt_prio t =? p) l) /\
    (b = true <-> exists t, In t l /\ pt_done t <> None) /\
    x_left o = [] /\
    x_set o = flat_map (fun t => match pt_done t with Some e => [e] | None => [] end) (x_ran o) /\
    x_world o = run_seq run (x_ran o) w.
Proof. exact @pass_correct. Qed.
Print Assumptions C28_priority_pass.

(** C28: if no hook raises the pass succeeds. *)
Theorem C28_priority_pass_total : forall (A W : Type) (run : A -> W -> W * option exn) (l : list (ptask A)) (w : W),
  (forall t w', In t l -> snd (run (pt_coro t) w') = None) ->
  exists b, x_ret (execute_priority_tasks run l w) = Ok b.
Proof. exact @pass_total. Qed.
Print Assumptions C28_priority_pass_total.

Example C28_example :
  let o := execute_priority_tasks (fun (a : nat) (w : list nat) => (w ++ [a], None))
             [mk_pt 0%nat 99 (Some 7%nat); mk_pt 1%nat 3 None; mk_pt 2%nat 99 None; mk_pt 3%nat 3 (Some 8%nat)] [] in
  x_ret o = Ok true /\ x_world o = [1; 3; 0; 2]%nat /\ x_set o = [8; 7]%nat.
Proof. vm_compute. auto. Qed.

(** C65 (a failing hook leaves nothing behind for the next run) is false: whenever a hook raises, the
    whole registration list, including the failed and already executed entries, stays in the module. *)
Theorem C65_failed_pass_leaves_nothing_refuted : forall (A W : Type) (run : A -> W -> W * option exn) l w e,
  x_ret (execute_priority_tasks run l w) = Exn e ->
  x_left (execute_priority_tasks run l w) = l /\ l <> [].
Proof. exact @pass_raise_leaks. Qed.
Print Assumptions C65_failed_pass_leaves_nothing_refuted.

Example C65_example :
  x_ret (execute_priority_tasks (fun (a : nat) (w : unit) => (w, if Nat.eqb a 1 then Some (UserExn 0) else None))
     [mk_pt 0%nat 1 None; mk_pt 1%nat 2 None] tt) = Exn (UserExn 0).
Proof. reflexivity. Qed.
