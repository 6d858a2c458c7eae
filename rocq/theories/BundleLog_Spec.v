(** Specification vocabulary: what Bundle.assign reports in the log. *)
From Coq Require Import List String Ascii Bool Arith.
From Verif Require Import Py Bundle_Model Bundle_Spec BundleVal_Model BundleVal_Spec.
Import ListNotations.
Open Scope string_scope.

(** The part of a multilevel dictionary that is meant for the sub-bundle at a path. *)
Fixpoint at_path (v : val) (p : list seg) : option val :=
  match p with
  | [] => Some v
  | PSub n :: t => match v with VDict d => match dget d n with Some x => at_path x t | None => None end | _ => None end
  | PElem n i :: t => match v with
                      | VDict d => match dget d n with Some x => match item x i with Some y => at_path y t | None => None end | None => None end
                      | _ => None
                      end
  end.
(** The names of the sub-bundles on the way down, joined by dots; below an element of a bundle list the names start anew. *)
Fixpoint way (acc : list string) (p : list seg) : list string :=
  match p with [] => acc | PSub n :: t => way (acc ++ [n]) t | PElem _ _ :: t => way [] t end.
Definition called (p : list seg) (k : string) : string := String.concat "." (way [] p ++ [k]).
(** [a] is a report about the part of [v] for some sub-bundle: an unknown key by its full name, or something that is no dictionary. *)
Definition complaint (b : bundle) (v : val) (a : logitem) : Prop :=
  exists p c x, sub_at b p = Some c /\ at_path v p = Some x /\
    match x with VDict d => exists k, In k (map fst d) /\ ~ In k (attrs c) /\ a = LNotFound (called p k) | _ => a = LCritical end.
