(** Vocabulary for several bundles bound to one DUT. *)
From Coq Require Import List Bool Arith.
From Verif Require Import Py Req_Model ReqM_Model.
Import ListNotations.

Section Spec.
Context {mem data val : Type}.
Notation bundle := (@bundle mem data val). Notation world := (@world mem data val). Notation request := (@request mem data val).
(** Nothing is queued or blocked. *)
Definition resting (b : bundle) : Prop := b_queue b = [] /\ b_blocked b = None.
(** All bundles other than [k] rest. *)
Definition others_rest (w : world) (k : nat) : Prop := forall j b, j <> k -> nth_error (w_bundles w) j = Some b -> resting b.
(** Bundle [k] is bound once. *)
Definition bound_once (order : list nat) (k : nat) : Prop := exists l1 l2, order = l1 ++ k :: l2 /\ ~ In k l1 /\ ~ In k l2.
(** A request that is None or a dictionary without condition. *)
Definition unconditional (w : world) (r : request) : Prop := match r with RNone => True | RDict i => exists d, nth_error (w_heap w) i = Some d /\ d_cond d = None | RCall _ => False end.
(** What is assigned if request [i] of the list is applied in cycle [c + i + 1]. *)
Definition one_per_cycle (w : world) (rs : list request) : list (nat * data) :=
  flat_map (fun i => match nth_error rs i with Some (RDict k) => match nth_error (w_heap w) k with Some d => [(w_cyc w + S i, d_data d)] | None => [] end | _ => [] end) (seq 0 (List.length rs)).
(** The bundles other than [k], and what has been assigned to each. *)
Definition same_others (w w' : world) (k : nat) : Prop := forall j, j <> k -> nth_error (w_bundles w') j = nth_error (w_bundles w) j.
End Spec.
