(** Model of toffee/logger.py: StatsHandler, ToffeeFormatter and the handler chain of setup_logging.

    Python's logging is assumed to do the following: a record is dropped if its level is below the
    logger's; otherwise it is passed, as one mutable object, to every handler of the logger in list
    order whose own level it reaches.  Simplifications: a log id is a string or missing; colours,
    the rest of the format string and file handling are not represented (a rendering is the text put
    in place of %(log_id)s); handlers of ancestor loggers are not considered (basicConfig is called
    with handlers=[] at logger.py:128). *)
From Coq Require Import List String ZArith Bool.
From Verif Require Import Py.
Import ListNotations.
Open Scope string_scope.

(** The attributes of a record that logger.py uses. *)
Record record := mk_rec { r_level : Z; r_levelname : string; r_id : option string }.

(** logger.py:25-28: the dictionaries of the StatsHandler. *)
Record stats := mk_stats { s_sev : dict nat; s_id : dict nat }.

(** [d[k] = 0 if missing; d[k] += 1] (logger.py:33-35, 40-42). *)
Definition bump (d : dict nat) (k : string) : dict nat :=
  match dget d k with
  | None => dset d k 1%nat
  | Some n => dset d k (S n)
  end.

(** logger.py:30-42 [StatsHandler.emit]. *)
Definition emit_stats (s : stats) (r : record) : stats :=
  let sev := bump (s_sev s) (r_levelname r) in
  let log_id := match r_id r with None => "default_id" | Some x => x end in
  let log_id := if String.eqb log_id "" then "default" else log_id in
  mk_stats sev (bump (s_id s) log_id).

(** logger.py:44-45 [get_stats]: the attribute self.stats does not exist. *)
Definition get_stats (s : stats) : res (dict nat) := Exn AttributeError.

(** logger.py:63-66: the new value of record.log_id, which is also what is printed. *)
Definition new_id (r : record) : string :=
  match r_id r with
  | None => ""
  | Some x => if String.eqb x "" then "" else "(id: " ++ x ++ ")"
  end.

(** logger.py:62-78 [ToffeeFormatter.format]: the rendered id, and the record it leaves behind. *)
Definition format (r : record) : string * record :=
  (new_id r, mk_rec (r_level r) (r_levelname r) (Some (new_id r))).

(** A handler in the logger's list: the statistics, or a formatting handler with its level. *)
Inductive handler := HStats | HFormat (lvl : Z).

(** logger.py:115-146 [setup_logging]: the handlers and the level in force. *)
Definition setup_logging (log_level : Z) (console : bool) (log_file : bool) : Z * list handler :=
  (log_level,
   HStats :: (if console then [HFormat log_level] else []) ++ (if log_file then [HFormat log_level] else []))%list.

(** The handler chain for one record: new statistics and the renderings, in handler order. *)
Fixpoint call_handlers (hs : list handler) (s : stats) (r : record) : stats * list string :=
  match hs with
  | [] => (s, [])
  | HStats :: t => call_handlers t (emit_stats s r) r
  | HFormat l :: t =>
      if Z.leb l (r_level r) then
        let (txt, r') := format r in
        let (s', o) := call_handlers t s r' in (s', txt :: o)
      else call_handlers t s r
  end.

(** One logging call, and a sequence of them (renderings per call). *)
Definition log_one (cfg : Z * list handler) (s : stats) (r : record) : stats * list string :=
  if Z.leb (fst cfg) (r_level r) then call_handlers (snd cfg) s r else (s, []).
Fixpoint log_all (cfg : Z * list handler) (s : stats) (rs : list record) : stats * list (list string) :=
  match rs with
  | [] => (s, [])
  | r :: t =>
      let (s1, o) := log_one cfg s r in
      let (s2, os) := log_all cfg s1 t in (s2, o :: os)
  end.

(** logger.py:25-28: a fresh StatsHandler. *)
Definition stats0 : stats := mk_stats [] [].
