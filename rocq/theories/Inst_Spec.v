(** Vocabulary for statements about Bundle instances. *)
From Coq Require Import List Bool Arith ZArith.
From Verif Require Import Inst_Model.
Import ListNotations.

(** No bundle lists, on any level. *)
Inductive listless : cls -> Prop := listless_intro sigs subs sls : Forall listless subs -> listless (Cls sigs subs sls []).
(** The class-level lists of the class are objects that exist. *)
Inductive known (h : heap) : cls -> Prop :=
| known_intro sigs subs sls bls : Forall (known h) subs -> Forall (fun a => a < List.length h) (sls ++ bls) -> known h (Cls sigs subs sls bls).
(** References point to existing objects. *)
Definition refs (o : obj) : list nat := match o with OBun _ subs sls bls => subs ++ sls ++ bls | OSig _ => [] | OLst els => els end.
Definition sound (h : heap) : Prop := forall o a, In o h -> In a (refs o) -> a < List.length h.
(** No pins: neither in the class-level objects nor in what [__init__] puts into an instance. *)
Definition slots (o : obj) : list slot := match o with OBun s _ _ _ => s | OSig s => s | OLst _ => [] end.
Definition pinless (l : list slot) : Prop := forall p, ~ In (SPin p) l.
Inductive blank : cls -> Prop := blank_intro sigs subs sls bls : pinless sigs -> Forall blank subs -> blank (Cls sigs subs sls bls).
(** The commands of a program do not bind instance [k] to anything but pins of the DUT [D k]. *)
Definition binds_to (D : nat -> nat -> Prop) (x : act) : Prop :=
  match x with Bind k g => forall t p o l q, In (SPin q) (g t p o l) -> D k q \/ In (SPin q) l | _ => True end.
(** All the created instances are of such classes. *)
Definition creates (P : cls -> Prop) (x : act) : Prop := match x with New c => P c | _ => True end.
(** The program without the commands on other instances than [j]. *)
Definition only (j : nat) (x : act) : bool := match x with New _ => true | Bind k _ => k =? j | Drive k _ => k =? j end.
(** The classes of the instances a program creates, in order. *)
Definition created (l : list act) : list cls := flat_map (fun x => match x with New c => [c] | _ => [] end) l.
(** Before any instance exists: the class-level objects. *)
Definition start (h : heap) (v : nat -> Z) : state := mk_state h [] v.
