(** Model of toffee/funcov.py: class CovGroup (lines 235-569) and the predefined conditions
    (lines 101-232).

    [W] is the state of the watched targets at the moment of a [sample()] call; a condition is a
    callable on it that returns a truth value or raises.  Simplifications: the caller does not
    mutate the bins dictionary after adding it; the truth value of [once == True] and of [once] is
    one boolean; file name / line number fields are not represented. *)
From Coq Require Import List String Ascii ZArith Bool.
From Verif Require Import Py.
Import ListNotations.
Open Scope string_scope.

Section Cov.
  Context {W : Type}.

  (** A callable condition, funcov.py:407-413. *)
  Definition cond := W -> res bool.

  (** A stored bin: a callable or a list/tuple of callables (funcov.py:285-292). *)
  Inductive bin := BCall (c : cond) | BList (cs : list cond).

  (** What the user passes as one bin; [None] = an object that is not callable. *)
  Inductive abin := ACond (c : option cond) | AList (cs : list (option cond)).
  (** What the user passes as [bins]: a dict, or a single object. *)
  Inductive abins := ADict (d : list (string * abin)) | AOne (c : option cond).

  (** funcov.py:293-301, the dictionary of one point.  [functions] maps bin names to sets. *)
  Record point := mk_point
    { p_bins : list (string * bin); p_dyn : bool; p_hints : dict nat; p_hinted : bool;
      p_once : bool; p_functions : dict (list string) }.

  (** funcov.py:250-259, the fields of a group. *)
  Record group := mk_group
    { g_dis : bool; g_points : dict point; g_hinted : bool; g_all_once : bool; g_stop : bool;
      g_count : nat; g_calln : nat }.

  (** funcov.py:253-260 [init] (also the tail of [__init__], line 251). *)
  Definition cov_init (dis : bool) : group := mk_group dis [] false false false 0 0.

  (** funcov.py:285-292: validation of a list of conditions. *)
  Fixpoint check_conds (cs : list (option cond)) : option (list cond) :=
    match cs with
    | [] => Some []
    | None :: _ => None
    | Some c :: t => match check_conds t with Some r => Some (c :: r) | None => None end
    end.

  (** funcov.py:285-292: validation of the bins dictionary; [None] = ValueError. *)
  Fixpoint check_bins (d : list (string * abin)) : option (list (string * bin)) :=
    match d with
    | [] => Some []
    | (k, ACond None) :: _ => None
    | (k, ACond (Some c)) :: t =>
        match check_bins t with Some r => Some ((k, BCall c) :: r) | None => None end
    | (k, AList cs) :: t =>
        match check_conds cs with
        | None => None
        | Some l => match check_bins t with Some r => Some ((k, BList l) :: r) | None => None end
        end
    end.

  (** funcov.py:262-303 [add_watch_point].  [defkey] is the text computed at line 278 when the name
      is empty; with a non-dict [bins] that line raises AttributeError. *)
  Definition add_watch_point (g : group) (defkey : string) (bins : abins) (name : string)
    (once : option bool) (dyn : bool) : group * res unit :=
    match name, bins with
    | EmptyString, AOne _ => (g, Exn AttributeError)
    | _, _ =>
        let key := if String.eqb name "" then defkey else name in
        if dmem (g_points g) key then (g, Exn ValueError)
        else
          let obins :=
            match bins with
            | AOne None => None
            | AOne (Some c) => check_bins [("anonymous", ACond (Some c))]
            | ADict d => check_bins d
            end in
          match obins with
          | None => (g, Exn ValueError)
          | Some bs =>
              let p := mk_point bs dyn (map (fun kb => (fst kb, 0%nat)) bs) false
                         (match once with None => g_dis g | Some b => b end) [] in
              (mk_group (g_dis g) (dset (g_points g) key p) false (g_all_once g) (g_stop g)
                 (g_count g) (g_calln g), Ok tt)
          end
    end.

  (** funcov.py:307-315 [del_point]. *)
  Definition del_point (g : group) (name : string) : group * res unit :=
    if dmem (g_points g) name then
      (mk_group (g_dis g) (ddel (g_points g) name) (g_hinted g) (g_all_once g) (g_stop g)
         (g_count g) (g_calln g), Ok tt)
    else (g, Exn ValueError).

  (** funcov.py:317-329 [reset_point]. *)
  Definition reset_point (g : group) (name : string) : group * res unit :=
    match dget (g_points g) name with
    | None => (g, Exn ValueError)
    | Some p =>
        let p' := mk_point (p_bins p) (p_dyn p) (map (fun kb => (fst kb, 0%nat)) (p_bins p)) false
                    (p_once p) (p_functions p) in
        (mk_group (g_dis g) (dset (g_points g) name p') false (g_all_once g) (g_stop g)
           (g_count g) (g_calln g), Ok tt)
    end.

  (** funcov.py:393-398 [clear]. *)
  Definition clear (g : group) : group := cov_init (g_dis g).

  (** funcov.py:409-414: a list of conditions, short circuit. *)
  Fixpoint eval_list (cs : list cond) (w : W) : res bool :=
    match cs with
    | [] => Ok true
    | c :: t =>
        match c w with
        | Exn e => Exn e
        | Ok true => eval_list t w
        | Ok false => Ok false
        end
    end.

  (** funcov.py:406-418: is the bin hit? *)
  Definition eval_bin (b : bin) (w : W) : res bool :=
    match b with BCall c => c w | BList cs => eval_list cs w end.

  (** funcov.py:402-424: loop over the bins; returns the hints (also when an exception escapes), and
      (hinted, onece). *)
  Fixpoint check_loop (bs : list (string * bin)) (w : W) (once : bool) (hints : dict nat)
    (hinted onece : bool) : dict nat * res (bool * bool) :=
    match bs with
    | [] => (hints, Ok (hinted, onece))
    | (k, b) :: t =>
        match dget hints k with
        | None => (hints, Exn KeyError)
        | Some h =>
            match eval_bin b w with
            | Exn e => (hints, Exn e)
            | Ok c =>
                let h' := (h + (if c then 1 else 0))%nat in
                let hinted' := if Nat.eqb h' 0 then false else hinted in
                let onece' := if negb (hinted' && once) then false else onece in
                check_loop t w once (dset hints k h') hinted' onece'
            end
        end
    end.

  (** funcov.py:400-426 [__check__]. *)
  Definition check (p : point) (w : W) : point * res (bool * bool) :=
    match check_loop (p_bins p) w (p_once p) (p_hints p) true true with
    | (h, Exn e) => (mk_point (p_bins p) (p_dyn p) h (p_hinted p) (p_once p) (p_functions p), Exn e)
    | (h, Ok (hi, on)) =>
        (mk_point (p_bins p) (p_dyn p) h hi (p_once p) (p_functions p), Ok (hi, on))
    end.

  (** funcov.py:475-480: loop over the points. *)
  Fixpoint sample_loop (ps : dict point) (w : W) (all_hinted all_once : bool)
    : dict point * bool * res bool :=
    match ps with
    | [] => ([], all_once, Ok all_hinted)
    | (k, p) :: t =>
        let (p', r) := check p w in
        match r with
        | Exn e => ((k, p') :: t, all_once, Exn e)
        | Ok (hi, on) =>
            let '(t', ao, r') :=
              sample_loop t w (if hi then all_hinted else false) (if on then all_once else false) in
            ((k, p') :: t', ao, r')
        end
    end.

  (** funcov.py:463-482 [sample].  Line 474 sets all_once before the loop, line 481 sets hinted after it. *)
  Definition sample (g : group) (w : W) : group * res unit :=
    if g_stop g then
      (mk_group (g_dis g) (g_points g) (g_hinted g) (g_all_once g) (g_stop g) (g_count g) (S (g_calln g)), Ok tt)
    else if g_hinted g && g_all_once g then
      (mk_group (g_dis g) (g_points g) (g_hinted g) (g_all_once g) (g_stop g) (g_count g) (S (g_calln g)), Ok tt)
    else
      let '(ps, ao, r) := sample_loop (g_points g) w true true in
      match r with
      | Exn e => (mk_group (g_dis g) ps (g_hinted g) ao (g_stop g) (S (g_count g)) (S (g_calln g)), Exn e)
      | Ok ah => (mk_group (g_dis g) ps ah ao (g_stop g) (S (g_count g)) (S (g_calln g)), Ok tt)
      end.

  (** funcov.py:484-490 [sample_stoped]. *)
  Definition sample_stoped (g : group) : bool := if g_stop g then true else g_hinted g && g_all_once g.

  (** funcov.py:492-497 [stop_sample()].  The instance attribute [self.stop_sample] set at line 257 is a
      bool and hides the method of the same name, so the call raises TypeError and changes nothing. *)
  Definition call_stop_sample (g : group) : group * res unit := (g, Exn TypeError).

  (** Assignment to the public attribute: [g.stop_sample = b] (funcov.py:257,468,503). *)
  Definition set_stop_attr (g : group) (b : bool) : group :=
    mk_group (g_dis g) (g_points g) (g_hinted g) (g_all_once g) b (g_count g) (g_calln g).

  (** funcov.py:499-505 [resume_sample]. *)
  Definition resume_sample (g : group) : group :=
    mk_group (g_dis g) (g_points g) (g_hinted g) false false (g_count g) (g_calln g).

  (** funcov.py:443-450 [is_point_covered]. *)
  Definition is_point_covered (g : group) (key : string) : res bool :=
    match dget (g_points g) key with None => Exn ValueError | Some p => Ok (p_hinted p) end.

  (** funcov.py:452-461 [is_all_covered]. *)
  Definition is_all_covered (g : group) : bool :=
    if g_hinted g then true else forallb (fun kp => p_hinted (snd kp)) (g_points g).

  (** funcov.py:507-569 [as_dict]: the counters are the nonlocal variables incremented while the
      comprehension walks over points and bins. *)
  Record point_dict := mk_pd
    { pd_once : bool; pd_hinted : bool; pd_bins : list (string * nat); pd_name : string;
      pd_functions : list (string * list string); pd_dyn : bool }.
  Record group_dict := mk_gd
    { gd_points : list point_dict; gd_hinted : bool; gd_bin_total : nat; gd_bin_hints : nat;
      gd_point_total : nat; gd_point_hints : nat; gd_has_once : bool; gd_count : nat; gd_calln : nat;
      gd_stop : bool }.

  (** funcov.py:518-523 [collect_bins] over one hints dictionary. *)
  Fixpoint collect_bins (h : dict nat) (tot hin : nat) : nat * nat :=
    match h with
    | [] => (tot, hin)
    | (_, y) :: t => collect_bins t (S tot) (if Nat.ltb 0 y then S hin else hin)
    end.

  (** funcov.py:540-552: the comprehension, with the counters threaded through. *)
  Fixpoint collect_points (ps : dict point) (bt bh pt ph : nat) (ho : bool)
    : list point_dict * (nat * nat * nat * nat * bool) :=
    match ps with
    | [] => ([], (bt, bh, pt, ph, ho))
    | (k, v) :: t =>
        let pt' := S pt in
        let ph' := if p_hinted v then S ph else ph in
        let ho' := if p_once v then true else ho in
        let (bt', bh') := collect_bins (p_hints v) bt bh in
        let (l, c) := collect_points t bt' bh' pt' ph' ho' in
        (mk_pd (p_once v) (p_hinted v) (p_hints v) k (p_functions v) (p_dyn v) :: l, c)
    end.

  (** funcov.py:507-569 [as_dict]. *)
  Definition as_dict (g : group) : group_dict :=
    let '(l, (bt, bh, pt, ph, ho)) := collect_points (g_points g) 0 0 0 0 false in
    mk_gd l (g_hinted g) bt bh pt ph ho (g_count g) (g_calln g) (g_stop g).

  (** ** mark_function, funcov.py:331-391.  [strip] is str.strip, [fnm] is fnmatch.fnmatch,
      [rex p] is re.compile(p).match as a predicate (None = re.error), [uniq] is list(set(.)) whose
      order is that of the hash table.  A function argument is a string, a callable with the result
      of get_func_full_name (funcov.py:38-98), or something else. *)
  Inductive farg := FStr (s : string) | FCall (r : res string) | FOther.

  Section Mark.
    Context (strip : string -> string) (fnm : string -> string -> bool)
            (rex : string -> option (string -> bool)) (uniq : list string -> list string).

    (** does the pattern contain "*" or "?" (funcov.py:373) *)
    Fixpoint has_wild (s : string) : bool :=
      match s with
      | EmptyString => false
      | String c t => Ascii.eqb c "*"%char || Ascii.eqb c "?"%char || has_wild t
      end.

    (** funcov.py:368-379 *)
    Fixpoint match_bins (avail : list string) (pats : list string) : res (list string) :=
      match pats with
      | [] => Ok []
      | p0 :: t =>
          let p := strip p0 in
          let r :=
            if smem p avail then Ok [p]
            else if has_wild p then Ok (filter (fun b => fnm b p) avail)
            else match rex p with None => Exn (UserExn 0) | Some m => Ok (filter m avail) end in
          match r with
          | Exn e => Exn e
          | Ok [] => Exn AssertionError
          | Ok bs => match match_bins avail t with Exn e => Exn e | Ok r' => Ok ((bs ++ r')%list) end
          end
      end.

    (** set.add *)
    Definition sadd (x : string) (l : list string) : list string :=
      if smem x l then l else (l ++ [x])%list.

    (** funcov.py:385-390 for one bin; the accumulated set and the exception, if any. *)
    Fixpoint add_funcs (fs : list farg) (s : list string) : list string * res unit :=
      match fs with
      | [] => (s, Ok tt)
      | FStr x :: t => add_funcs t (sadd x s)
      | FCall (Ok x) :: t => add_funcs t (sadd x s)
      | FCall (Exn e) :: t => (s, Exn e)
      | FOther :: t => (s, Exn AssertionError)
      end.

    (** funcov.py:380-390 *)
    Fixpoint mark_loop (bs : list string) (fs : list farg) (d : dict (list string))
      : dict (list string) * res unit :=
      match bs with
      | [] => (d, Ok tt)
      | b :: t =>
          let old := match dget d b with Some s => s | None => [] end in
          match add_funcs fs old with
          | (s, Exn e) => (dset d b s, Exn e)
          | (s, Ok _) => mark_loop t fs (dset d b s)
          end
      end.

    (** funcov.py:331-391 [mark_function]; [pats] = the list bin_names. *)
    Definition mark_function (g : group) (name : string) (fs : list farg) (pats : list string)
      (raise_error : bool) : group * res unit :=
      match dget (g_points g) name with
      | None => (g, if raise_error then Exn ValueError else Ok tt)
      | Some p =>
          match pats with
          | [] => (g, Exn AssertionError)
          | _ =>
              match match_bins (map fst (p_bins p)) pats with
              | Exn e => (g, Exn e)
              | Ok bs =>
                  let (d, r) := mark_loop (uniq bs) fs (p_functions p) in
                  (mk_group (g_dis g)
                     (dset (g_points g) name
                        (mk_point (p_bins p) (p_dyn p) (p_hints p) (p_hinted p) (p_once p) d))
                     (g_hinted g) (g_all_once g) (g_stop g) (g_count g) (g_calln g), r)
              end
          end
      end.
  End Mark.
End Cov.
Arguments cond : clear implicits.
Arguments bin : clear implicits.
Arguments abin : clear implicits.
Arguments abins : clear implicits.
Arguments point : clear implicits.
Arguments group : clear implicits.

(** ** Predefined conditions, funcov.py:101-232, on a target that is an int or an object with a
    [value] attribute (funcov.py:109-111 [__call__]). *)
Inductive target := TInt (z : Z) | TObj (value : Z).
Inductive pcond :=
| CEq (v : Z) | CGt (v : Z) | CLt (v : Z) | CGe (v : Z) | CLe (v : Z) | CNe (v : Z)
| CIn (l : list Z) | CNotIn (l : list Z) | CRange (lo hi : Z).

(** funcov.py:122-220 [__check__] of each class. *)
Definition pcheck (c : pcond) (t : Z) : bool :=
  match c with
  | CEq v => Z.eqb t v
  | CGt v => Z.gtb t v
  | CLt v => Z.ltb t v
  | CGe v => Z.geb t v
  | CLe v => Z.leb t v
  | CNe v => negb (Z.eqb t v)
  | CIn l => existsb (Z.eqb t) l
  | CNotIn l => negb (existsb (Z.eqb t) l)
  | CRange lo hi => Z.leb lo t && Z.leb t hi
  end.

(** funcov.py:109-111 [CovCondition.__call__] *)
Definition pcall (c : pcond) (t : target) : bool :=
  pcheck c (match t with TInt z => z | TObj v => v end).
