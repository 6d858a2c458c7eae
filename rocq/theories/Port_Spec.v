(** Observations on histories of queue operations and their outcomes. *)
From Coq Require Import List ZArith Bool.
From Verif Require Import Py Port_Model.
Import ListNotations.

Section Obs.
Context {V : Type}.

(** The delivered values that were accepted, in order. *)
Fixpoint accepted (ops : list (pop V)) (outs : list (outcome V)) : list V :=
  match ops, outs with
  | Put v :: t, Accepted :: u => v :: accepted t u
  | _ :: t, _ :: u => accepted t u
  | _, _ => []
  end.
(** The values read, in order. *)
Fixpoint reads (outs : list (outcome V)) : list V :=
  match outs with [] => [] | Got v :: t => v :: reads t | _ :: t => reads t end.

(** The same for a monitor. *)
Fixpoint kept (ops : list (mop V)) (outs : list (mout V)) : list V :=
  match ops, outs with
  | Result (Some v) :: t, MKept :: u => v :: kept t u
  | _ :: t, _ :: u => kept t u
  | _, _ => []
  end.
Fixpoint messages (outs : list (mout V)) : list V :=
  match outs with [] => [] | MGot v :: t => v :: messages t | _ :: t => messages t end.
Definition no_start (ops : list (mop V)) : Prop := Forall (fun o => match o with Start _ => False | _ => True end) ops.
End Obs.
