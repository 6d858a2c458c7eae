(** Vocabulary for statements about process_requests. *)
From Coq Require Import List Bool Arith.
From Verif Require Import Py Req_Model.
Import ListNotations.

Section Spec.
Context {mem data val : Type} (dut : mem -> mem) (assign : data -> mem -> mem).
Notation state := (@state mem data val). Notation dict := (@dict mem data val). Notation request := (@request mem data val).
(** The state after [n] calls of dut.Step. *)
Fixpoint after (n : nat) (s : state) : state := match n with 0 => s | S m => dstep dut assign (after m s) end.
(** Nothing queued, nothing blocked, bound once. *)
Definition idle (s : state) : Prop := queue s = [] /\ blocked s = None /\ calls s = 1.
(** Each dictionary object occurs at most once in the list. *)
Definition distinct (s : state) (rs : list request) : Prop :=
  (forall k i, nth_error rs k = Some (RDict i) -> i < List.length (heap s)) /\
  forall k k' i, nth_error rs k = Some (RDict i) -> nth_error rs k' = Some (RDict i) -> k = k'.
(** What the callback finds in the [j]-th cycle (1, 2, ...) after [s]. *)
Definition seen (s : state) (j : nat) : mem := dut (mm (after (j - 1) s)).
(** The dictionary of a request whose turn comes in cycle [t]: a callable is called in that cycle. *)
Definition content (s : state) (r : request) (t : nat) : option dict :=
  match r with RNone => None | RDict i => nth_error (heap s) i | RCall f => snd (f (cyc s + t) (seen s t)) end.
(** Whether it may be applied in cycle [j]: its condition in that cycle (in cycle [t], a callable has been called before). *)
Definition may (s : state) (rs : list request) (k t j : nat) : bool :=
  match nth_error rs k with
  | Some r => match content s r t with
              | Some d => match d_cond d with
                          | Some f => f (cyc s + j) match r with RCall g => if j =? t then fst (g (cyc s + t) (seen s t)) else seen s j | _ => seen s j end
                          | None => true
                          end
              | None => true
              end
  | None => false
  end.
(** [a] lists the cycles in which the first requests were applied: the turn of request [k] comes in the cycle after. *)
Definition turn (a : list nat) (k : nat) : nat := match k with 0 => 1 | S k' => S (nth k' a 0) end.
(** Cycle by cycle: the first request that has not been applied yet is applied if it may be.  The [k]-th element of the result is the
    cycle in which request [k] is applied, of the first [n] cycles. *)
Fixpoint schedule (ok : nat -> nat -> nat -> bool) (n : nat) : list nat :=
  match n with
  | 0 => []
  | S m => let a := schedule ok m in if ok (List.length a) (turn a (List.length a)) (S m) then a ++ [S m] else a
  end.
(** What is assigned to the bundle, with the cycles, if the requests are applied in the cycles [a]. *)
Definition assignments (s : state) (rs : list request) (a : list nat) : list (nat * data) :=
  flat_map (fun k => match nth_error rs k, nth_error a k with
                     | Some r, Some j => match content s r (turn a k) with Some d => [(cyc s + j, d_data d)] | None => [] end
                     | _, _ => []
                     end) (seq 0 (List.length a)).
(** The values of the requested bundles right after the cycles [a], for dictionaries in the list itself. *)
Definition answers (s : state) (rs : list request) (a : list nat) : list (one val * nat) :=
  flat_map (fun k => match nth_error rs k, nth_error a k with
                     | Some (RDict i), Some j =>
                         match nth_error (heap s) i with
                         | Some d => match d_bundles d with Some bs => [(squeeze (map (fun b => b (mm (after j s))) bs), cyc s + j)] | None => [] end
                         | None => []
                         end
                     | _, _ => []
                     end) (seq 0 (List.length rs)).
(** Functions called in order in cycle [c], each on what the one before left: the memory at the end, and what each returned. *)
Inductive called (c : nat) : list (option (nat -> mem -> mem * val)) -> mem -> mem -> list (option val) -> Prop :=
| cl_none m : called c [] m m []
| cl_skip fs m m' vs : called c fs m m' vs -> called c (None :: fs) m m' (None :: vs)
| cl_call f fs m m1 v m' vs : f c m = (m1, v) -> called c fs m1 m' vs -> called c (Some f :: fs) m m' (Some v :: vs).
(** What a request whose turn came in cycle [t] finds in cycle [j]: in the cycle of its turn a callable has been called. *)
Definition finds (s : state) (r : request) (t j : nat) : mem :=
  match r with RCall g => if j =? t then fst (g (cyc s + t) (seen s t)) else seen s j | _ => seen s j end.
(** The requests of the list that report something if the requests are applied in the cycles [a]: dictionaries in the list itself that
    ask for data and are applied. *)
Definition asking (s : state) (rs : list request) (a : list nat) : list nat :=
  filter (fun k => match nth_error rs k, nth_error a k with
                   | Some (RDict i), Some _ => match nth_error (heap s) i with Some d => match d_bundles d with Some _ => true | None => false end | None => false end
                   | _, _ => false
                   end) (seq 0 (List.length rs)).
(** The entry of request [k]: the values of its bundles, its cycle, and what its functions returned when they were called after its
    data had been assigned. *)
Definition reports (s : state) (rs : list request) (a : list nat) (k : nat) (e : one val * nat * one (option val)) : Prop :=
  exists i d bs j vs, nth_error rs k = Some (RDict i) /\ nth_error a k = Some j /\ nth_error (heap s) i = Some d /\ d_bundles d = Some bs /\
    called (cyc s + j) (d_funcs d) (assign (d_data d) (seen s j)) (mm (after j s)) vs /\
    e = (squeeze (map (fun b => b (mm (after j s))) bs), cyc s + j, squeeze vs).
End Spec.
