(** Vocabulary for run(test, env_handle). *)
From Coq Require Import List Bool Arith ZArith.
From Verif Require Import Py Prio_Model Loop_Model Loop_Spec Bind_Spec Loop2_Spec MainEnv_Model.
Import ListNotations.
Open Scope nat_scope.

Section Spec.
Context {mem : Type}.
Notation prog := (@prog mem). Notation state := (@state mem).
Context (shuffle : list id -> list id) (dut delayers : mem -> mem).
Notation steps := (steps shuffle dut delayers).
(** env_handle has not returned: the main task has not started, or is inside env_handle. *)
Definition in_env (env : prog) (test : lval -> prog) (s : state) : Prop :=
  unfinished s 0 /\ ((exists k, tget s 0 = Some k /\ k_cont k = start (BMain (main_env env test))) \/ cur s = Some (0, BMain (main_env env test)) \/ awaiting s 0 (after_env test)).
(** env_handle has returned [a], and after that the main task has made the task [i] for the coroutine [p]. *)
Definition env_returned (env : prog) (test : lval -> prog) m (s : state) (a : lval) (p : prog) (i : id) : Prop :=
  exists s0, steps (init (main_env env test) m) s0 /\ steps s0 s /\ runs s0 0 (after_env test (Ok a)) /\ current_op s0 = Some (OCreate p) /\ i = List.length (futs s0).
(** env_handle has raised [e]. *)
Definition env_raised (env : prog) (test : lval -> prog) m (s : state) (e : exn) : Prop :=
  exists s0, steps (init (main_env env test) m) s0 /\ steps s0 s /\ runs s0 0 (after_env test (Exn e)).
End Spec.
