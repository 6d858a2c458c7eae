(** Specification vocabulary for PLRU: only API calls ([update], [get]) and their results. *)
From Coq Require Import ZArith List Bool.
From Verif Require Import Plru_Model.
Import ListNotations.
Open Scope Z_scope.

(** An object after a history of [update(way)] calls; [None] if some call raised. *)
Fixpoint after_updates (p : plru) (ways : list Z) : option plru :=
  match ways with
  | [] => Some p
  | w :: ws => match plru_update p w with Some p' => after_updates p' ws | None => None end
  end.

(** [reached n h p]: p is PLRU(n) after the calls update(h0), update(h1), ... *)
Definition reached (n : Z) (h : list Z) (p : plru) : Prop :=
  exists p0, plru_init n = Some p0 /\ after_updates p0 h = Some p.

(** [m] evictions in a row: w = get(); update(w).  The list of victims and the final object. *)
Fixpoint evictions (m : nat) (p : plru) : option (list Z * plru) :=
  match m with
  | O => Some ([], p)
  | S m' =>
      match plru_get p with
      | None => None
      | Some w =>
          match plru_update p w with
          | None => None
          | Some p' =>
              match evictions m' p' with
              | None => None
              | Some (ws, pf) => Some (w :: ws, pf)
              end
          end
      end
  end.

(** All ways 0 .. n-1 in order. *)
Definition all_ways (n : nat) : list Z := map Z.of_nat (seq 0 n).
