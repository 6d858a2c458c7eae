(** What a task is seen to do, and what a monitor whose method waits is expected to do. *)
From Coq Require Import List Bool Arith ZArith.
From Verif Require Import Py Prio_Model Loop_Model Loop_Spec Loop2_Spec Mon_Model.
Import ListNotations.
Open Scope nat_scope.

Section Spec.
Context {mem : Type}.
Notation prog := (@prog mem). Notation state := (@state mem). Notation body := (@body mem). Notation op := (@op mem prog).
(** An operation that was begun: in which cycle, which one, and what it gives (for the operations on memory and on queues that never wait). *)
Record did := mk_did { d_at : nat; d_op : op; d_gives : option (res lval) }.
Definition gives (s : state) (o : op) : option (res lval) :=
  match o with
  | OMem f => Some (snd (f (mm s)))
  | OQPut q _ => Some (if Nat.ltb q (List.length (qs s)) then Ok VNone else Exn TypeError)
  | OQSize q => Some (if Nat.ltb q (List.length (qs s)) then Ok (VInt (Z.of_nat (List.length (items s q)))) else Exn TypeError)
  | _ => None
  end.
(** What the next step of the system shows of task [t]. *)
Definition does (t : id) (s : state) : list did :=
  match cur s with Some (t', BProg (Op o _)) => if Nat.eqb t' t then [mk_did (nstep s) o (gives s o)] else [] | _ => [] end.
(** Task [t] waits for the clock event since cycle [n]: still in this cycle, and if the clock is not about to make a step perhaps already in
    the next one.  ([test]: without cancellation this holds until the end of the test.) *)
Definition clock_wait (test : prog) (s : state) (t : id) (n : nat) : Prop :=
  inside_wait s t 0 /\ n <= nstep s /\ ((nstep s <= S n /\ forall c, at_step s c -> nstep s = n) \/ (nocancel test -> tdone s = Some true)).
Context (shuffle : list id -> list id) (dut delayers : mem -> mem).
(** Everything that task [t] began to do during an execution. *)
Inductive record (t : id) : state -> state -> list did -> Prop :=
| rec_refl s : record t s s []
| rec_step s s1 fire l : record t s s1 l -> record t s (step shuffle dut delayers fire s1) (l ++ does t s1).

(** Operations that may suspend the task. *)
Definition waiting (o : op) : bool := match o with OSleep0 | OAwait _ | OEvWait _ | OQGet _ => true | _ => false end.
(** An operation begun in cycle [n] ends in cycle [n1] with the outcome [r]: at once unless it waits; a wait for the clock event ends in the
    next cycle, or is cancelled. *)
Definition ends (o : op) (g : option (res lval)) (n : nat) (r : res lval) (n1 : nat) : Prop :=
  n <= n1 /\ (waiting o = false -> n1 = n) /\ (forall r', g = Some r' -> r = r') /\ (o = OEvWait 0 -> (exists v, r = Ok v /\ n1 = S n) \/ r = Exn CancelledError).
(** From cycle [n] on the coroutine [p] does [l]; then it is cycle [n'] and [p'] is left to do. *)
Inductive partially : nat -> prog -> list did -> prog -> nat -> Prop :=
| pa_here n p : partially n p [] p n
| pa_op n o k g r n1 l p' n' : ends o g n r n1 -> partially n1 (k r) l p' n' -> partially n (Op o k) (mk_did n o g :: l) p' n'.
(** It does [l], and that is all: its outcome is [r], in cycle [n']. *)
Definition performs (n : nat) (p : prog) (l : list did) (r : res lval) (n' : nat) : Prop :=
  partially n p l (match r with Ok v => Ret v | Exn e => Raise e end) n'.

(** The deliveries [a] are made in cycle [n]. *)
Inductive delivers (n : nat) : list (@action mem) -> list did -> Prop :=
| dv_nil : delivers n [] []
| dv_put q v g a l : delivers n a l -> delivers n (APut q v :: a) (mk_did n (OQPut q v) (Some (Ok VNone)) :: mk_did n (OFlag true) g :: l)
| dv_hook h z g a l : delivers n a l -> delivers n (AHook h z :: a) (mk_did n (OPrio h z false) g :: l)
| dv_full q z v m a l : (z <= m)%Z -> delivers n a l -> delivers n (AQueue q z v :: a) (mk_did n (OQSize q) (Some (Ok (VInt m))) :: l)
| dv_queue q z v m g a l : (m < z)%Z -> delivers n a l ->
    delivers n (AQueue q z v :: a) (mk_did n (OQSize q) (Some (Ok (VInt m))) :: mk_did n (OQPut q v) (Some (Ok VNone)) :: mk_did n (OFlag true) g :: l).
(** What is delivered for a result. *)
Definition due (acts : lval -> list (@action mem)) (v : lval) : list (@action mem) := match v with VNone => [] | _ => acts v end.
(** Complete rounds of the monitor with the results [vs] of the method, from cycle [n0] to cycle [n]: wait for the next clock event; in the
    cycle after it the method is begun, and in the cycle in which it returns its result is delivered. *)
Inductive rounds (method : prog) (acts : lval -> list (@action mem)) (n0 : nat) : list lval -> nat -> list did -> Prop :=
| ro_nil : rounds method acts n0 [] n0 []
| ro_one vs n l g lm v n1 ld : rounds method acts n0 vs n l -> performs (S n) method lm (Ok v) n1 -> delivers n1 (due acts v) ld ->
    rounds method acts n0 (vs ++ [v]) n1 (l ++ mk_did n (OEvWait 0) g :: lm ++ ld).
End Spec.
