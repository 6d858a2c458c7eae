(** What a Python call binds, which ports and hooks a driver call reaches, and which results are compared. *)
From Coq Require Import List String Bool ZArith.
From Verif Require Import Py Port_Model Call_Model.
Import ListNotations.
Open Scope string_scope.
Open Scope nat_scope.

Section Spec.
Context {V : Type}.
Notation param := (param V). Notation pv := (pv V).

(** * Calls *)
Definition positional (p : param) : bool := match p_kind p with PosOnly | PosKw => true | _ => false end.
Definition by_keyword (p : param) : bool := match p_kind p with PosKw | KwOnly => true | _ => false end.
Definition is_kind (k : pkind) (p : param) : bool := match k, p_kind p with PosOnly, PosOnly | PosKw, PosKw | VarPos, VarPos | KwOnly, KwOnly | VarKw, VarKw => true | _, _ => false end.
(** Parameter lists Python accepts: a, b, /, c, d, *args, e, f, **kwargs with distinct names; the starred ones have no default. *)
Definition proper (ps : list param) : Prop :=
  exists po pk vp ko vk, ps = (po ++ pk ++ vp ++ ko ++ vk)%list /\
    Forall (fun p => p_kind p = PosOnly) po /\ Forall (fun p => p_kind p = PosKw) pk /\ Forall (fun p => p_kind p = VarPos) vp /\ Forall (fun p => p_kind p = KwOnly) ko /\ Forall (fun p => p_kind p = VarKw) vk /\
    List.length vp <= 1 /\ List.length vk <= 1 /\ Forall (fun p => p_default p = None) (vp ++ vk) /\ NoDup (map p_name ps).
Fixpoint place (x : string) (l : list string) : nat := match l with [] => 0 | y :: t => if String.eqb x y then 0 else S (place x t) end.
Definition positions (ps : list param) : list string := map p_name (filter positional ps).
Definition or_else {A} (a b : option A) : option A := match a with Some _ => a | None => b end.
(** The value the parameter [p] of a function with parameters [ps] has in the body of the call f( *args, **kw ), if it has one. *)
Definition denotes (ps : list param) (args : list V) (kw : dict V) (p : param) : option pv :=
  match p_kind p with
  | PosOnly => option_map One (or_else (nth_error args (place (p_name p) (positions ps))) (p_default p))
  | PosKw => option_map One (or_else (nth_error args (place (p_name p) (positions ps))) (or_else (dget kw (p_name p)) (p_default p)))
  | VarPos => Some (Tup (skipn (List.length (positions ps)) args))
  | KwOnly => option_map One (or_else (dget kw (p_name p)) (p_default p))
  | VarKw => Some (Dct (filter (fun x => negb (existsb (fun q => by_keyword q && String.eqb (fst x) (p_name q)) ps)) kw))
  end.
(** Python accepts the call. *)
Definition accepted_call (ps : list param) (args : list V) (kw : dict V) : Prop :=
  (List.length args <= List.length (positions ps) \/ existsb (is_kind VarPos) ps = true) /\
  (forall p, In p ps -> p_kind p = PosKw -> place (p_name p) (positions ps) < List.length args -> ~ In (p_name p) (dkeys kw)) /\
  (forall p, In p ps -> denotes ps args kw p <> None) /\
  (forall k, In k (dkeys kw) -> (exists p, In p ps /\ by_keyword p = true /\ p_name p = k) \/ existsb (is_kind VarKw) ps = true).
(** Keyword arguments: distinct, and none has the name of a positional-only parameter. *)
Definition proper_kw (ps : list param) (kw : dict V) : Prop :=
  NoDup (dkeys kw) /\ forall p, In p ps -> p_kind p = PosOnly -> ~ In (p_name p) (dkeys kw).
(** The dictionary of a call: every parameter with its value, in the order of the parameters. *)
Definition call_dict (ps : list param) (args : list V) (kw : dict V) (d : dict pv) : Prop :=
  Forall2 (fun p x => fst x = p_name p /\ denotes ps args kw p = Some (snd x)) ps d.

(** * Ports and hooks *)
Definition has_port (i : minfo) : bool := match i_dport i, i_aports i with None, [] => false | _, _ => true end.
(** The messages for the port [q], model after model: one for each entry as agent port, then one as driver port. *)
Definition expected (path : string) (d : dict pv) (q : nat) (l : list minfo) : list (msg V) :=
  flat_map (fun i =>
    map (fun _ => Tagged path d) (filter (Nat.eqb q) (i_aports i)) ++
    match i_dport i with
    | Some q' => if Nat.eqb q q' then [match d with [(_, x)] => Bare x | _ => Named d end] else []
    | None => []
    end)%list l.
(** The hooks of the models without a port for the method. *)
Definition hooks_of (i : minfo) : list hook :=
  if has_port i then [] else (match i_dhook i with Some h => [HD h] | None => [] end ++ map HA (i_ahooks i))%list.
Definition num (h : hook) : nat := match h with HD n | HA n => n end.
Definition is_d (h : hook) : bool := match h with HD _ => true | HA _ => false end.
(** The order asked for: that of the call if given, otherwise that of the hook. *)
Definition goes_first (order_of : nat -> order) (o : option order) (h : hook) : Prop :=
  match o with Some x => x = ModelFirst | None => order_of (num h) = ModelFirst end.

(** * Comparisons *)
Definition given (l : list (hook * option V)) : list (hook * V) := flat_map (fun x => match snd x with Some v => [(fst x, v)] | None => [] end) l.
Definition agrees (eq : V -> V -> res bool) (dut : V) (x : hook * V) : Prop := eq dut (snd x) = Ok true.
End Spec.
