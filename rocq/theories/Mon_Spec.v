(** What a monitor task is seen to do. *)
From Coq Require Import List Bool Arith ZArith.
From Verif Require Import Py Prio_Model Loop_Model Loop_Spec Loop2_Spec Mon_Model.
Import ListNotations.
Open Scope nat_scope.

Section Spec.
Context {mem : Type}.
Notation prog := (@prog mem). Notation state := (@state mem). Notation body := (@body mem).
(** The method was called in cycle [n] with outcome [r]; [v] was put into [q]; a hook was registered; the size of [q] was read. *)
Inductive seen := Called (n : nat) (r : res lval) | Put (q : id) (v : lval) | Hooked (h : prog) (z : Z) | Sized (q : id) (n : nat).
(** What the next step of the system lets one see of task [t]. *)
Definition see (t : id) (s : state) : list seen :=
  match cur s with
  | Some (t', BProg (Op o _)) =>
      if Nat.eqb t' t then
        match o with
        | OMem f => [Called (nstep s) (snd (f (mm s)))]
        | OQPut q v => [Put q v]
        | OPrio h z _ => [Hooked h z]
        | OQSize q => [Sized q (List.length (items s q))]
        | _ => []
        end
      else []
  | _ => []
  end.
Context (shuffle : list id -> list id) (dut delayers : mem -> mem).
(** Everything seen of [t] during an execution. *)
Inductive log (t : id) : state -> state -> list seen -> Prop :=
| log_refl s : log t s s []
| log_step s s1 fire l : log t s s1 l -> log t s (step shuffle dut delayers fire s1) (l ++ see t s1).

(** Deliveries, and how they are seen. *)
Inductive sends : list (@action mem) -> list seen -> Prop :=
| sd_nil : sends [] []
| sd_put q v a l : sends a l -> sends (APut q v :: a) (Put q v :: l)
| sd_hook h z a l : sends a l -> sends (AHook h z :: a) (Hooked h z :: l)
| sd_full q z v n a l : (z <= Z.of_nat n)%Z -> sends a l -> sends (AQueue q z v :: a) (Sized q n :: l)
| sd_queue q z v n a l : (Z.of_nat n < z)%Z -> sends a l -> sends (AQueue q z v :: a) (Sized q n :: Put q v :: l).
(** One cycle with outcome [r] of the method: nothing is delivered for None and exceptions, everything for a value. *)
Inductive cycle (acts : lval -> list (@action mem)) (n : nat) : res lval -> list seen -> Prop :=
| cy_none : cycle acts n (Ok VNone) [Called n (Ok VNone)]
| cy_exn e : cycle acts n (Exn e) [Called n (Exn e)]
| cy_val v l : v <> VNone -> sends (acts v) l -> cycle acts n (Ok v) (Called n (Ok v) :: l).
(** The cycles after cycle [n], one after another, with the outcomes [rs]. *)
Inductive cycles (acts : lval -> list (@action mem)) (n : nat) : list (res lval) -> list seen -> Prop :=
| cs_nil : cycles acts n [] []
| cs_one rs l r l1 : cycles acts n rs l -> cycle acts (n + S (List.length rs)) r l1 -> cycles acts n (rs ++ [r]) (l ++ l1).

(** The values put into [q]; the hooks registered; the cycles in which the method was called; the results that are not None. *)
Definition puts (q : id) (l : list seen) : list lval := flat_map (fun x => match x with Put q' v => if Nat.eqb q' q then [v] else [] | _ => [] end) l.
(** What concerns queue [q]. *)
Definition about (q : id) (x : seen) : bool := match x with Put q' _ | Sized q' _ => Nat.eqb q' q | _ => false end.
(** How values offered to queue [q], each with the number of items at which the queue counts as full (none: never), are seen: a value is
    put unless there are already that many items. *)
Inductive offers (q : id) : list (option Z * lval) -> list seen -> Prop :=
| of_none : offers q [] []
| of_free v w l : offers q w l -> offers q ((None, v) :: w) (Put q v :: l)
| of_keep z v n w l : (Z.of_nat n < z)%Z -> offers q w l -> offers q ((Some z, v) :: w) (Sized q n :: Put q v :: l)
| of_drop z v n w l : (z <= Z.of_nat n)%Z -> offers q w l -> offers q ((Some z, v) :: w) (Sized q n :: l).
(** A port with maxsize -1 is never full. *)
Definition limit (z : Z) : option Z := if (z =? -1)%Z then None else Some z.
(** What queue [q] is to be offered for the result [v]: for each model in order, the pair of path and result once for every agent port
    that is [q], then the result itself if [q] is the monitor port; in the end the result if [q] is behind the monitor method. *)
Definition wanted (path : lval) (ms : list (@mon_model mem)) (gq : option (id * Z)) (q : id) (v : lval) : list (option Z * lval) :=
  flat_map (fun m => flat_map (fun p => if Nat.eqb (fst p) q then [(limit (snd p), VList [path; v])] else []) (mo_aports m) ++
                     match mo_port m with Some p => if Nat.eqb (fst p) q then [(limit (snd p), v)] else [] | None => [] end) ms ++
  match gq with Some g => if Nat.eqb (fst g) q then [(Some (snd g), v)] else [] | None => [] end.
Definition hooks (l : list seen) : list (prog * Z) := flat_map (fun x => match x with Hooked h z => [(h, z)] | _ => [] end) l.
Definition calls (l : list seen) : list nat := flat_map (fun x => match x with Called n _ => [n] | _ => [] end) l.
Definition outcomes (l : list seen) : list (res lval) := flat_map (fun x => match x with Called _ r => [r] | _ => [] end) l.
Definition values (rs : list (res lval)) : list lval := flat_map (fun r => match r with Ok VNone => [] | Ok v => [v] | Exn _ => [] end) rs.
End Spec.
