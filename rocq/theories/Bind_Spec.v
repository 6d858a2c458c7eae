(** Vocabulary: a task is inside an awaited coroutine. *)
From Coq Require Import List Bool Arith ZArith.
From Verif Require Import Py Prio_Model Loop_Model Loop_Spec.
Import ListNotations.
Open Scope nat_scope.

Section Spec.
Context {mem : Type}.
Notation prog := (@prog mem). Notation state := (@state mem). Notation body := (@body mem).

(** A program that, whatever its operations give, comes to [K] unless it runs forever; all operations on the way satisfy [C]. *)
CoInductive upto (C : @op mem prog -> Prop) (K : res lval -> prog) : prog -> Prop :=
| upto_end r : upto C K (K r)
| upto_op o k : C o -> (forall r, upto C K (k r)) -> upto C K (Op o k).
(** The rest of a task is such a program: it has not gone beyond [K] yet. *)
Definition leads C (K : res lval -> prog) (b : body) : Prop := exists p, upto C K p /\ (b = BProg p \/ b = BTest p).
(** The same, possibly on the way out of Event.wait or Queue.get. *)
Definition before C (K : res lval -> prog) (b : body) : Prop :=
  match b with BEv _ _ _ k | BGet _ _ _ k => forall r, leads C K (k r) | _ => leads C K b end.
(** Task [t] is not done and has not come to [K] yet: it is running, or suspended with such a continuation. *)
Definition awaiting_by C (s : state) (t : id) (K : res lval -> prog) : Prop :=
  unfinished s t /\ ((exists b, cur s = Some (t, b) /\ before C K b) \/
                     ((forall b, cur s <> Some (t, b)) /\ exists k, tget s t = Some k /\ forall r, before C K (k_cont k r))).
Definition any (o : @op mem prog) : Prop := True.
Definition awaiting (s : state) (t : id) (K : res lval -> prog) : Prop := awaiting_by any s t K.

Context (shuffle : list id -> list id) (dut delayers : mem -> mem).
(** An execution from [s] to the given state in which every state but the last satisfies [P]. *)
Inductive along (P : state -> Prop) (s : state) : state -> Prop :=
| al_refl : along P s s
| al_step s1 fire : along P s s1 -> P s1 -> along P s (step shuffle dut delayers fire s1).
End Spec.
