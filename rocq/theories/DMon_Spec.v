(** What a monitor whose models and queue change during the run is expected to do. *)
From Coq Require Import List Bool Arith ZArith.
From Verif Require Import Py Prio_Model Loop_Model Loop_Spec Loop2_Spec Mon_Model WMon_Spec Prim_Spec.
Import ListNotations.
Open Scope nat_scope.

Section Spec.
Context {mem : Type}.
Notation prog := (@prog mem). Notation state := (@state mem).
Context (shuffle : list id -> list id) (dut delayers : mem -> mem).
(** Everything that task [t] began to do during an execution, each with the memory at that moment. *)
Inductive mrecord (t : id) : state -> state -> list (mem * @did mem) -> Prop :=
| mr_refl s : mrecord t s s []
| mr_step s s1 fire l : mrecord t s s1 l -> mrecord t s (step shuffle dut delayers fire s1) (l ++ map (fun d => (mm s1, d)) (does t s1)).
(** The queues used exist (a reference in Python always refers to an object). *)
Definition queues_exist (L : list (mem * @did mem)) : Prop :=
  forall m d, In (m, d) L -> match d_op d with OQPut _ _ | OQSize _ => d_gives d <> Some (Exn TypeError) | _ => True end.
(** A look at the memory. *)
Definition looks (o : @op mem prog) : Prop := exists f, o = OMem f /\ forall m, fst (f m) = m.
(** What other tasks than [t] take out of [q] in the next step. *)
Definition others_take (s : state) (t q : id) : list lval := match cur s with Some (u, _) => if Nat.eqb u t then [] else got_by s q | None => [] end.
(** An execution from [s] in which [P] is put into the queue [q], [t] takes [G] out of it, and the other tasks take [O]. *)
Inductive flow (t q : id) (s : state) : state -> list lval -> list lval -> list lval -> Prop :=
| fl_refl : flow t q s s [] [] []
| fl_step s1 P G O fire : flow t q s s1 P G O -> flow t q s (step shuffle dut delayers fire s1) (P ++ put_by s1 q) (G ++ taken_by s1 t q) (O ++ others_take s1 t q).
Context (attached : mem -> list nat) (queue_of : mem -> option (id * Z)) (info : nat -> @mon_model mem) (path : lval) (method : prog).
(** Complete rounds from cycle [n0] to cycle [n] with the results [vs] other than None: in the cycle after the clock event the method is begun; if it returns a value, then in
    that cycle the value is delivered to the models that are attached at that moment, and to the queue that is in use at that moment. *)
Inductive drounds (n0 : nat) : list lval -> nat -> list (mem * @did mem) -> Prop :=
| dr_nil : drounds n0 [] n0 []
| dr_none vs n l m1 g lm n1 : drounds n0 vs n l -> performs (S n) method (map snd lm) (Ok VNone) n1 -> drounds n0 vs n1 (l ++ (m1, mk_did n (OEvWait 0) g) :: lm)
| dr_some vs n l m1 g lm v n1 m2 o g2 ld : drounds n0 vs n l -> performs (S n) method (map snd lm) (Ok v) n1 -> v <> VNone -> looks o ->
    delivers n1 (deliveries path (map info (attached m2)) (queue_of m2) v) (map snd ld) ->
    drounds n0 (vs ++ [v]) n1 (l ++ (m1, mk_did n (OEvWait 0) g) :: lm ++ (m2, mk_did n1 o g2) :: ld).
End Spec.
