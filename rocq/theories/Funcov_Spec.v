(** Specification vocabulary for coverage groups: histories of API calls and counts over them. *)
From Coq Require Import List String Ascii ZArith Bool.
From Verif Require Import Py Funcov_Model.
Import ListNotations.

Section S.
  Context {W : Type}.

  (** The calls a user can make on a group. *)
  Inductive op :=
  | OAdd (defkey : string) (bins : abins W) (name : string) (once : option bool) (dyn : bool)
  | ODel (name : string)
  | OReset (name : string)
  | OSample (w : W)
  | OClear
  | OCallStop
  | OSetStop (b : bool)
  | OResume
  | OMark (strip : string -> string) (fnm : string -> string -> bool) (rex : string -> option (string -> bool))
      (uniq : list string -> list string) (name : string) (fs : list farg) (pats : list string) (raise_error : bool).

  Definition exec (g : group W) (o : op) : group W * res unit :=
    match o with
    | OAdd dk b n on dy => add_watch_point g dk b n on dy
    | ODel n => del_point g n
    | OReset n => reset_point g n
    | OSample w => sample g w
    | OClear => (clear g, Ok tt)
    | OCallStop => call_stop_sample g
    | OSetStop b => (set_stop_attr g b, Ok tt)
    | OResume => (resume_sample g, Ok tt)
    | OMark st fn rx un n fs pats re => mark_function st fn rx un g n fs pats re
    end.

  Definition run (g : group W) (os : list op) : group W := fold_left (fun g o => fst (exec g o)) os g.

  (** A bins argument is a Python dict: its keys are different. *)
  Definition wf_op (o : op) : Prop :=
    match o with OAdd _ (ADict d) _ _ _ => NoDup (map fst d) | _ => True end.

  (** No sample() call of the history raised. *)
  Fixpoint no_raise (g : group W) (os : list op) : Prop :=
    match os with
    | [] => True
    | o :: t =>
        (match o with OSample _ => snd (exec g o) = Ok tt | _ => True end) /\ no_raise (fst (exec g o)) t
    end.

  (** The target states of the sample() calls that were made while sample_stoped() was False. *)
  Fixpoint effective (g : group W) (os : list op) : list W :=
    match os with
    | [] => []
    | o :: t =>
        match o with
        | OSample w => if sample_stoped g then effective (fst (exec g o)) t
                       else w :: effective (fst (exec g o)) t
        | _ => effective (fst (exec g o)) t
        end
    end.

  (** The operation neither deletes nor resets the point. *)
  Definition keeps (name : string) (o : op) : Prop :=
    match o with ODel n => n <> name | OReset n => n <> name | OClear => False | _ => True end.

  (** All conditions of a bin hold in [w]. *)
  Definition conds_of (b : bin W) : list (cond W) :=
    match b with BCall c => [c] | BList cs => cs end.
  Definition bin_holds (b : bin W) (w : W) : bool :=
    forallb (fun c => match c w with Ok true => true | _ => false end) (conds_of b).

  (** How many of the samples hit the bin. *)
  Definition hits (b : bin W) (ws : list W) : nat := List.length (filter (bin_holds b) ws).

  (** A point whose every bin has been hit. *)
  Definition all_hit (p : point W) : Prop := forall k n, In (k, n) (p_hints p) -> (0 < n)%nat.
End S.
Arguments op : clear implicits.

Section Observers.
  Context {W : Type}.

  (** The counter that as_dict() shows for bin [k] of point [name]. *)
  Definition shown (g : group W) (name k : string) : option nat :=
    match find (fun d => String.eqb (pd_name d) name) (gd_points (as_dict g)) with
    | Some d => dget (pd_bins d) k
    | None => None
    end.

  (** The marks that as_dict() shows for bin [k] of point [name]. *)
  Definition marks (g : group W) (name k : string) : list string :=
    match find (fun d => String.eqb (pd_name d) name) (gd_points (as_dict g)) with
    | Some d => match dget (pd_functions d) k with Some l => l | None => [] end
    | None => []
    end.

  (** The conditions a user wrote for one bin. *)
  Definition given (a : abin W) : list (cond W) :=
    match a with
    | ACond (Some c) => [c]
    | ACond None => []
    | AList cs => flat_map (fun c => match c with Some f => [f] | None => [] end) cs
    end.
  (** All of them hold. *)
  Definition all_hold (cs : list (cond W)) (w : W) : bool :=
    forallb (fun c => match c w with Ok true => true | _ => false end) cs.
  (** Number of samples in which they hold. *)
  Definition count_hold (cs : list (cond W)) (ws : list W) : nat := List.length (filter (all_hold cs) ws).

  (** The sample() calls made while sampling was on that did not raise. *)
  Fixpoint completed (g : group W) (os : list (op W)) : list W :=
    match os with
    | [] => []
    | o :: t =>
        match o with
        | OSample w => if sample_stoped g then completed (fst (exec g o)) t
                       else if is_ok (snd (exec g o)) then w :: completed (fst (exec g o)) t
                       else completed (fst (exec g o)) t
        | _ => completed (fst (exec g o)) t
        end
    end.

  (** The user argument [bins], with a bare callable read as the bin "anonymous". *)
  Definition user_bins (b : abins W) : list (string * abin W) :=
    match b with ADict d => d | AOne c => [("anonymous"%string, ACond c)] end.
  (** Every condition in it is callable. *)
  Definition callable_bin (a : abin W) : Prop :=
    match a with ACond c => c <> None | AList cs => ~ In None cs end.

  (** A group that was built by some history of calls. *)
  Definition reachable (g : group W) : Prop :=
    exists dis os, Forall wf_op os /\ g = run (cov_init dis) os.
  (** ... in which no sample() raised. *)
  Definition reachable_ok (g : group W) : Prop :=
    exists dis os, Forall wf_op os /\ no_raise (cov_init dis) os /\ g = run (cov_init dis) os.

  (** No call in the history raised in sample, added, reset, cleared or resumed. *)
  Definition only_samples (o : op W) : Prop := match o with OSample _ => True | _ => False end.
End Observers.

(** Which bins a pattern selects. *)
Definition wild (s : string) : Prop :=
  In "*"%char (list_ascii_of_string s) \/ In "?"%char (list_ascii_of_string s).
Definition selects (strip : string -> string) (fnm : string -> string -> bool) (rex : string -> option (string -> bool))
  (avail : list string) (pat b : string) : Prop :=
  In b avail /\
  ((In (strip pat) avail /\ b = strip pat) \/
   (~ In (strip pat) avail /\ wild (strip pat) /\ fnm b (strip pat) = true) \/
   (~ In (strip pat) avail /\ ~ wild (strip pat) /\ exists m, rex (strip pat) = Some m /\ m b = true)).

(** The name that a function argument contributes, if it is acceptable. *)
Definition fname (f : farg) : option string :=
  match f with FStr s => Some s | FCall (Ok s) => Some s | _ => None end.

(** A report entry without its marks. *)
Definition strip_functions (d : point_dict) :=
  mk_pd (pd_once d) (pd_hinted d) (pd_bins d) (pd_name d) [] (pd_dyn d).

(** A positive counter in a report entry. *)
Definition positive (kn : string * nat) : bool := Nat.ltb 0 (snd kn).
