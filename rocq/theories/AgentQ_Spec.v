(** The part of a history of an agent that concerns one of its monitor methods. *)
From Coq Require Import List String Bool Arith ZArith.
From Verif Require Import Py Agent_Model Agent_Spec Port_Model AgentQ_Model.
Import ListNotations.
Open Scope nat_scope.

Section Spec.
Context {V : Type} (a : agent_).
(** Task [i] of the agent calls the function of its monitor method [n]. *)
Definition task_of (i : nat) (n : string) : Prop := exists w, nth_error (monitor_tasks a) i = Some w /\ watches a n (w_func w).
(** Operation [o] of the agent is operation [p] on monitor method [n]. *)
Inductive concerns (n : string) : aop V -> mop V -> Prop :=
| co_start z : concerns n (AStart n z) (Start z)
| co_result i r : task_of i n -> concerns n (AResult i r) (Result r)
| co_read : concerns n (ARead n) Read.
(** [share n ops outs l r]: of the history [ops] with the outcomes [outs], [l] with the outcomes [r] are the operations on monitor method [n]. *)
Inductive share (n : string) : list (aop V) -> list (aout V) -> list (mop V) -> list (mout V) -> Prop :=
| sh_nil : share n [] [] [] []
| sh_mine o p x ops outs l r : concerns n o p -> share n ops outs l r -> share n (o :: ops) (AOut x :: outs) (p :: l) (x :: r)
| sh_other o x ops outs l r : (forall p, ~ concerns n o p) -> share n ops outs l r -> share n (o :: ops) (x :: outs) l r.
End Spec.
