(** Model of toffee/delay.py (class Delayer) and of how it is driven by the callback loop of
    toffee/asynchronous.py:36-44,103-107. *)
From Coq Require Import List ZArith Bool.
From Verif Require Import Py Prio_Model.
Import ListNotations.
Open Scope Z_scope.

Section D.
  Context {V : Type}.

  (** delay.py:27-29: the fields of a Delayer that change. *)
  Record delayer := mk_delayer { d_delay : Z; d_list : list V }.

  (** delay.py:22-34 [__init__]; the assert at line 25. *)
  Definition delayer_init (delay : Z) : res delayer :=
    if delay >=? 0 then Ok (mk_delayer delay []) else Exn AssertionError.

  (** delay.py:36-44 [sample]; [v] is self.signal.value at the time of the call. *)
  Definition delayer_sample (d : delayer) (v : V) : delayer :=
    let l := if Z.of_nat (length (d_list d)) >=? d_delay d + 1 then tl (d_list d) else d_list d in
    mk_delayer (d_delay d) (l ++ [v]).

  (** delay.py:46-55 [value]; None when the buffer is not full. *)
  Definition delayer_value (d : delayer) : option V :=
    if negb (Z.of_nat (length (d_list d)) =? d_delay d + 1) then None
    else match d_list d with x :: _ => Some x | [] => None end.

  (** Samples [vs] taken one after the other. *)
  Definition delayer_run (d : delayer) (vs : list V) : delayer := fold_left delayer_sample vs d.

  (** One clock cycle of asynchronous.py:103-107 as far as a Delayer sees it.  [regs] lists, for the
      successive passes of the cycle, the priority tasks registered when the callbacks of that pass
      run; [pin p] is the signal value in pass [p].  Callback order is executor first
      (executor.py:41), delayer second (delay.py:14), see toffee/__init__.py:1-4.  The pass is
      repeated iff some executed task had a done event (executor.py:33-38; delay.py:11 returns
      False).  Simplification: hooks do not raise.  When [regs] is exhausted nothing is registered. *)
  Fixpoint cycle_samples (regs : list (list (ptask unit))) (pin : nat -> V) (p : nat) : list V :=
    match regs with
    | [] => [pin p]
    | l :: regs' =>
        let o := execute_priority_tasks (fun (_ : unit) (w : unit) => (w, None)) l tt in
        pin p :: match x_ret o with
                 | Ok true => cycle_samples regs' pin (S p)
                 | _ => []
                 end
    end.

  (** Cycles 0 .. n-1 of a run: [regs c] and [pin c p] describe cycle c. *)
  Fixpoint run_cycles (n : nat) (regs : nat -> list (list (ptask unit))) (pin : nat -> nat -> V)
    (d : delayer) : delayer :=
    match n with
    | O => d
    | S c => delayer_run (run_cycles c regs pin d) (cycle_samples (regs c) (pin c) 0)
    end.
End D.
Arguments delayer : clear implicits.
