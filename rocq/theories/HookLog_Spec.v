(** Vocabulary: the hooks registered and run in the course of an execution. *)
From Coq Require Import List Bool Arith ZArith Permutation Sorted.
From Verif Require Import Py Prio_Model Loop_Model Loop_Spec Loop2_Spec.
Import ListNotations.
Open Scope nat_scope.

Section Spec.
Context {mem : Type}.
Notation prog := (@prog mem). Notation state := (@state mem).
(** One call of add_priority_task: when, with which coroutine, priority and event. *)
Record reg := mk_reg { g_cycle : nat; g_hook : prog; g_prio : Z; g_event : option id }.
(** The clock task starts a hook: when, which coroutine, with which event. *)
Definition start_ := (nat * prog * option id)%type.
Definition reg_by (s : state) : list reg :=
  match current_op s with Some (OPrio h z d) => [mk_reg (nstep s) h z (if d then Some (List.length (evs s)) else None)] | _ => [] end.
Definition start_by (s : state) : list start_ := match cur s with Some (_, BClk (CPass ((h, ev) :: _) _)) => [(nstep s, h, ev)] | _ => [] end.
(** Which hook it is. *)
Definition hook_of (x : start_) : prog * option id := let '(_, h, ev) := x in (h, ev).
Definition as_start (n : nat) (g : reg) : start_ := (n, g_hook g, g_event g).
Context (shuffle : list id -> list id) (dut delayers : mem -> mem).
(** The hooks registered and started up to a state, in order. *)
Inductive hook_log (test : prog) m : state -> list reg -> list start_ -> Prop :=
| hl_init : hook_log test m (init test m) [] []
| hl_step s fire G U : hook_log test m s G U -> hook_log test m (step shuffle dut delayers fire s) (G ++ reg_by s) (U ++ start_by s).
(** [o] is [l] by increasing priority value, and in the order of [l] among equal values. *)
Definition in_order (l o : list reg) : Prop :=
  Permutation o l /\ StronglySorted (fun a b => (g_prio a <= g_prio b)%Z) o /\ forall z, filter (fun g => (g_prio g =? z)%Z) o = filter (fun g => (g_prio g =? z)%Z) l.
End Spec.
Arguments reg : clear implicits. Arguments start_ : clear implicits.
