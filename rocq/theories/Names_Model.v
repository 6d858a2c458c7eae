(** Model of how hooks and ports get the path of the method they match (toffee/model.py).

    The decorators' and constructors' priority and sche_order checks are not part of this model; own names are
    func.__name__ for a hook and the attribute name, set by collect_all, for a port. *)
From Coq Require Import List String Ascii Bool.
From Verif Require Import Py.
Import ListNotations.
Open Scope string_scope.

(** Python's s.replace("__", "."): leftmost, non-overlapping. *)
Fixpoint replace_uu (s : string) : string :=
  match s with
  | String a ((String b t) as r) =>
      if Ascii.eqb a "_"%char && Ascii.eqb b "_"%char then String "."%char (replace_uu t)
      else String a (replace_uu r)
  | String a EmptyString => String a EmptyString
  | EmptyString => EmptyString
  end.

(** The closure variables of one decorator object: (path, agent_name, method_name). *)
Record args := mk_args { x_path : string; x_agent : string; x_method : string }.

Definition empty (s : string) : bool := String.eqb s "".

(** model.py:89-95 (driver_hook), 146-152 (monitor_hook), 216-222 (DriverPort), 285-291 (MonitorPort). *)
Definition check_args (x : args) : res unit :=
  if negb (empty (x_path x) || (empty (x_agent x) && empty (x_method x))) then Exn AssertionError
  else if negb (negb (empty (x_agent x)) || empty (x_method x)) then Exn AssertionError
  else Ok tt.

(** model.py:106-113 (driver_hook), 159-166 (monitor_hook): the path for a function of this name, and the
    closure afterwards (nonlocal). *)
Definition hook_path (x : args) (own : string) : string * args :=
  let path :=
    if empty (x_path x) then
      if negb (empty (x_agent x)) then
        if negb (empty (x_method x)) then x_agent x ++ "." ++ x_method x
        else x_agent x ++ "." ++ own
      else replace_uu own
    else x_path x in
  (path, mk_args path (x_agent x) (x_method x)).

(** model.py:67-123, 126-175: decorator(args)(function). *)
Definition hook (x : args) (own : string) : res string :=
  rbind (check_args x) (fun _ => Ok (fst (hook_path x own))).

(** One decorator object applied to several functions in turn. *)
Fixpoint hook_many (x : args) (owns : list string) : list string :=
  match owns with
  | [] => []
  | own :: t => let (p, x') := hook_path x own in p :: hook_many x' t
  end.

(** model.py:203-228, 272-297: a port; [po_name] is Port.name, "" until collect_all names it. *)
Record portn := mk_portn { po_args : args; po_name : string }.
Definition new_portn (x : args) : res portn := rbind (check_args x) (fun _ => Ok (mk_portn x "")).

(** model.py:230-242, 299-311 [get_path]: the path, which is also remembered. *)
Definition get_path (p : portn) : string * portn :=
  let x := po_args p in
  let path :=
    if empty (x_path x) then
      if negb (empty (x_agent x)) then
        if negb (empty (x_method x)) then x_agent x ++ "." ++ x_method x
        else x_agent x ++ "." ++ po_name p
      else replace_uu (po_name p)
    else x_path x in
  (path, mk_portn (mk_args path (x_agent x) (x_method x)) (po_name p)).

(** model.py:349-351 [collect_all]: a port that has no name gets the attribute's. *)
Definition set_name (attr : string) (p : portn) : portn :=
  if empty (po_name p) then mk_portn (po_args p) attr else p.

(** What can happen to a port: a call of get_path, or a collect_all that finds it under an attribute. *)
Inductive port_event := EGetPath | ECollect (attr : string).
Definition port_event_step (p : portn) (e : port_event) : portn :=
  match e with EGetPath => snd (get_path p) | ECollect attr => set_name attr p end.
