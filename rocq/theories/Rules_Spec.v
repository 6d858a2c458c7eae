(** The way down to a sub-bundle, with the names of the bundles on it. *)
From Coq Require Import List String.
From Verif Require Import Py Bundle_Model Bundle_Spec.
Import ListNotations.
Open Scope string_scope.
Open Scope list_scope.

Inductive leads : bundle -> list seg -> list string -> bundle -> Prop :=
| dn_here b : leads b [] [] b
| dn_kid b s c p ns e : In (s, c) (b_kids b) -> leads c p ns e -> leads b (s :: p) (b_name c :: ns) e.
(** The name of a signal below a bundle, as it is looked up in the dictionary of that bundle. *)
Definition path (ns : list string) (sg : string) : string := String.concat "." (ns ++ [sg]).
(** What a rule says about a signal that the dictionary does not have. *)
Definition no_match : string := "<No Matching Signal in Dict>".
