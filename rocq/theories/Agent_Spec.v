(** What Python's method resolution says, and what it means that functions are named like their attributes. *)
From Coq Require Import List String Bool Arith.
From Verif Require Import Py Agent_Model.
Import ListNotations.

(** The first namespace that has the name [n] has [v] there. *)
Inductive found : list ns -> string -> value -> Prop :=
| fd_here d t n v : In (n, v) d -> found (d :: t) n v
| fd_next d t n v : ~ In n (map fst d) -> found t n v -> found (d :: t) n v.
(** Namespaces are dictionaries. *)
Definition proper (a : agent_) : Prop := forall d, In d (spaces a) -> NoDup (map fst d).
(** Decorated functions are held by attributes of their own name, as [def] makes it. *)
Definition own_names (a : agent_) : Prop := forall d n f, In d (spaces a) -> In (n, Drv f) d \/ In (n, Mon f) d -> f_name f = n.
(** Attribute [n] of the agent is the driver (monitor) method [f]. *)
Definition drives (a : agent_) (n : string) (f : func) : Prop := found (spaces a) n (Drv f).
Definition watches (a : agent_) (n : string) (f : func) : Prop := found (spaces a) n (Mon f).
(** [n] is the last of the names that have the property, in the order of dir(). *)
Definition last_name (P : string -> Prop) (n : string) : Prop := P n /\ forall n', P n' -> n' <> n -> String.compare n' n = Lt.
(** Attribute [n] of the env holds agent [i]. *)
Definition holds (attrs : dict (option nat)) (n : string) (i : nat) : Prop := In (n, Some i) attrs.
(** The name of the method a task belongs to. *)
Definition wname (w : worker) : string := f_name (w_func w).
