(** What is put into the ports of a reference model, and what the model is expected to do with it. *)
From Coq Require Import List Bool Arith ZArith.
From Verif Require Import Py Prio_Model Loop_Model Loop_Spec Loop2_Spec WMon_Spec.
Import ListNotations.
Open Scope nat_scope.

Section Spec.
Context {mem : Type}.
Notation prog := (@prog mem). Notation state := (@state mem). Notation op := (@op mem prog).
(** A value and the cycle in which it was put. *)
Definition stamped : Type := (nat * lval)%type.
(** What the next step of the system puts into which queue. *)
Definition puts (s : state) : list (id * stamped) :=
  match current_op s with Some (OQPut q v) => if Nat.ltb q (List.length (qs s)) then [(q, (nstep s, v))] else [] | _ => [] end.
Definition at_port (q : id) (P : list (id * stamped)) : list stamped := flat_map (fun x => if Nat.eqb (fst x) q then [snd x] else []) P.
(** Everything that ever was to be read at port [q]: what was there at first, and what was put since. *)
Definition sent (s : state) (P : list (id * stamped)) (q : id) : list stamped := map (fun v => (nstep s, v)) (items s q) ++ at_port q P.

Context (shuffle : list id -> list id) (dut delayers : mem -> mem).
(** During an execution task [t] did [L], and [P] was put into the queues; nobody but [t] looked into [ports]. *)
Inductive traffic (t : id) (ports : list id) : state -> state -> list (@did mem) -> list (id * stamped) -> Prop :=
| tr_here s : traffic t ports s s [] []
| tr_step s s1 fire L P : traffic t ports s s1 L P -> (forall q, In q ports -> looksb s1 q = true -> exists b, cur s1 = Some (t, b)) ->
    traffic t ports s (step shuffle dut delayers fire s1) (L ++ does t s1) (P ++ puts s1).

(** Programs that end without waiting. *)
Inductive prompt : prog -> Prop :=
| pr_ret v : prompt (Ret v)
| pr_raise e : prompt (Raise e)
| pr_op o k : waiting o = false -> (forall r, prompt (k r)) -> prompt (Op o k).

(** From cycle [n] on, reading the given values from the given ports: each is read in the cycle in which it is put, or at once if it has
    been put before. *)
Inductive reads (n : nat) : list (id * stamped) -> nat -> list (@did mem) -> Prop :=
| rd_none : reads n [] n []
| rd_next xs n1 l q c v g g' : reads n xs n1 l -> reads n (xs ++ [(q, (c, v))]) (max n1 c) (l ++ [mk_did n1 (OQGet q) g; mk_did (max n1 c) (OFlag true) g']).
(** Complete rounds: one value is read from every port, and then they are processed, in the cycle in which the last one was read. *)
Inductive served (ports : list id) (handle : list lval -> prog) (n0 : nat) : list (list stamped) -> nat -> list (@did mem) -> Prop :=
| sv_none : served ports handle n0 [] n0 []
| sv_next xss n l xs n1 l1 lm w : served ports handle n0 xss n l -> List.length xs = List.length ports -> reads n (combine ports xs) n1 l1 ->
    performs n1 (handle (map snd xs)) lm (Ok w) n1 -> served ports handle n0 (xss ++ [xs]) n1 (l ++ l1 ++ lm).
(** What the rounds have of port number [j]. *)
Definition column (j : nat) (xss : list (list stamped)) : list stamped := flat_map (fun xs => match nth_error xs j with Some x => [x] | None => [] end) xss.
End Spec.
