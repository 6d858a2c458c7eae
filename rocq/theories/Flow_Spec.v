(** From the DUT to the reference model: what a monitor returns and what the model makes of it. *)
From Coq Require Import List Bool Arith ZArith.
From Verif Require Import Py Prio_Model Loop_Model Loop_Spec Loop2_Spec Mon_Model Mon_Spec WMon_Spec Ref_Spec.
Import ListNotations.
Open Scope nat_scope.

Section Spec.
Context {mem : Type}.
Notation prog := (@prog mem). Notation state := (@state mem).
(** How many values were put into port [q] in cycle [n]. *)
Definition put_in (n : nat) (q : id) (P : list (id * stamped)) : nat := List.length (filter (fun x => Nat.eqb (fst x) n) (at_port q P)).
(** Every value was processed in the cycle in which it was put, one after another. *)
Inductive kept_up (q : id) (handle : list lval -> prog) : list stamped -> list (@did mem) -> Prop :=
| ku_none : kept_up q handle [] []
| ku_next xs l n c v g g' lm w : kept_up q handle xs l -> n <= c -> performs c (handle [v]) lm (Ok w) c ->
    kept_up q handle (xs ++ [(c, v)]) (l ++ mk_did n (OQGet q) g :: mk_did c (OFlag true) g' :: lm).
(** The results [rs] of the cycles after cycle [n] that are values: when they were returned, and what is made of them ([pay]). *)
Fixpoint results (pay : lval -> lval) (n : nat) (rs : list (res lval)) : list stamped :=
  match rs with
  | [] => []
  | r :: rs' => match r with Ok VNone | Exn _ => [] | Ok v => [(S n, pay v)] end ++ results pay (S n) rs'
  end.
Context (shuffle : list id -> list id) (dut delayers : mem -> mem).
(** During an execution one saw [Lm] of the monitor task [tm], task [tr] did [Lr] and [P] was put into the queues; only [tm] put something into
    [q] and only [tr] looked into it. *)
Inductive flow (tm tr q : id) : state -> state -> list (@seen mem) -> list (@did mem) -> list (id * stamped) -> Prop :=
| fl_here s : flow tm tr q s s [] [] []
| fl_step s s1 fire Lm Lr P : flow tm tr q s s1 Lm Lr P -> (looksb s1 q = true -> exists b, cur s1 = Some (tr, b)) -> (at_port q (Ref_Spec.puts s1) <> [] -> exists p, cur s1 = Some (tm, BProg p)) ->
    flow tm tr q s (step shuffle dut delayers fire s1) (Lm ++ see tm s1) (Lr ++ does tr s1) (P ++ Ref_Spec.puts s1).
End Spec.
