(** Property theorems for toffee/logger.py: C58. *)
From Coq Require Import List String ZArith Bool Lia.
From Verif Require Import Py Logger_Model Logger_Proofs.
Import ListNotations.

(** For every configuration and every sequence of records, the counters are the numbers of records at or
    above the level with that severity name / that id. *)
Theorem C58_counts : forall level console file k rs,
  let s := fst (log_all (setup_logging level console file) stats0 rs) in
  cnt (s_sev s) k = count (fun r => Z.leb level (r_level r) && String.eqb (r_levelname r) k) rs /\
  cnt (s_id s) k = count (fun r => Z.leb level (r_level r) && String.eqb (id_key r) k) rs.
Proof. intros level console file k rs. exact (log_all_counts level console file k rs stats0). Qed.
Print Assumptions C58_counts.

(** The sum over all severities (ids) is the number of records at or above the level. *)
Theorem C58_totals : forall level console file rs,
  let s := fst (log_all (setup_logging level console file) stats0 rs) in
  total (s_sev s) = count (fun r => Z.leb level (r_level r)) rs /\
  total (s_id s) = count (fun r => Z.leb level (r_level r)) rs.
Proof. intros level console file rs. exact (log_all_total level console file rs stats0). Qed.
Print Assumptions C58_totals.

(** With console and file both on, the second handler renders every id twice: for every record with an id. *)
Theorem C58_rendered_once_refuted : forall level s r x, r_id r = Some x -> x <> ""%string -> (level <= r_level r)%Z ->
  snd (log_one (setup_logging level true true) s r) = ["(id: " ++ x ++ ")"; "(id: (id: " ++ x ++ "))"]%string.
Proof. exact render_twice. Qed.
Print Assumptions C58_rendered_once_refuted.

(** With at most one of console and file the id is rendered exactly once.  Missing: both together. *)
Theorem C58_rendered_once_partial : forall level console file s r x,
  r_id r = Some x -> x <> ""%string -> (level <= r_level r)%Z -> console && file = false ->
  snd (log_one (setup_logging level console file) s r) = if console || file then ["(id: " ++ x ++ ")"]%string else [].
Proof. exact render_once. Qed.
Print Assumptions C58_rendered_once_partial.

(** Records without an id render nothing, in every configuration. *)
Theorem C58_no_id_renders_nothing : forall level console file s r, r_id r = None \/ r_id r = Some ""%string ->
  Forall (fun t => t = ""%string) (snd (log_one (setup_logging level console file) s r)).
Proof. exact render_noid. Qed.
Print Assumptions C58_no_id_renders_nothing.

(** get_stats() never returns the statistics. *)
Theorem C58_get_stats_refuted : forall s, get_stats s = Exn AttributeError.
Proof. intros s. reflexivity. Qed.
Print Assumptions C58_get_stats_refuted.

Example C58_example :
  let rs := [mk_rec 30 "WARNING" (Some "a"%string); mk_rec 10 "DEBUG" (Some "a"%string); mk_rec 40 "ERROR" None;
             mk_rec 30 "WARNING" (Some ""%string)] in
  let s := fst (log_all (setup_logging 30 true false) stats0 rs) in
  cnt (s_sev s) "WARNING" = 2%nat /\ cnt (s_sev s) "DEBUG" = 0%nat /\ cnt (s_id s) "a" = 1%nat /\
  cnt (s_id s) "default" = 1%nat /\ cnt (s_id s) "default_id" = 1%nat.
Proof. vm_compute. auto 10. Qed.
