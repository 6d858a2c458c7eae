(** Somebody takes care of the outcome of a task. *)
From Coq Require Import List Bool Arith ZArith.
From Verif Require Import Py Loop_Model.
Import ListNotations.

Section Spec.
Context {mem : Type}.
Notation state := (@state mem).
(** The next operation of the running task, be it a task of the test, the test itself or a hook of the clock task. *)
Definition about_to (s : state) (o : @op mem (@prog mem)) : Prop := exists c k, cur s = Some (c, BProg (Op o k)) \/ cur s = Some (c, BTest (Op o k)) \/ exists ev todo b, cur s = Some (c, BHook (Op o k) ev todo b).
(** Task [t] is awaited or gathered now, or it is running and somebody waits for it. *)
Definition cared_for (s : state) (t : id) : Prop := about_to s (OAwait t) \/ (exists l, about_to s (OGather l) /\ In t l) \/ exists b fu, cur s = Some (t, b) /\ fget s t = Some fu /\ f_cbs fu <> [].
End Spec.
