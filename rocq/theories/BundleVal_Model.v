(** Model of reading and writing bundles (toffee/bundle.py: as_dict, assign, set_all, randomize_all, SignalList.assign,
    BundleList.assign) on the trees of Bundle_Model.

    Pins belong to the DUT library: [wr p v] is the value that writing [v] gives to pin [p], or the exception of the write; reading
    gives the value.  An item with a __bundle_assign__ method is user code: [usr n b st].  Simplifications: the keys of
    dictionaries are strings; the dictionaries and lists inside one item are distinct objects; the log keeps
    the full names of the signals not found and a mark for the critical message. *)
From Coq Require Import List String Ascii Bool Arith ZArith.
From Verif Require Import Py Bundle_Model.
Import ListNotations.
Open Scope string_scope.

(** Python values passed to assign and returned by as_dict. *)
Inductive val := VNone | VInt (z : Z) | VStr (s : string) | VList (l : list val) | VDict (d : list (string * val)) | VObj (n : nat).

(** len(v) and v[i] with an index (94-98, 132-133). *)
Definition vlen (v : val) : res nat :=
  match v with
  | VStr s => Ok (String.length s)
  | VList l => Ok (List.length l)
  | VDict d => Ok (List.length d)
  | _ => Exn TypeError
  end.
Definition vidx (v : val) (i : nat) : res val :=
  match v with
  | VStr s => match String.get i s with Some c => Ok (VStr (String c "")) | None => Exn IndexError end
  | VList l => match nth_error l i with Some x => Ok x | None => Exn IndexError end
  | VDict _ => Exn KeyError
  | _ => Exn TypeError
  end.
(** The list value with the i-th element changed by the code that received it. *)
Fixpoint lset (l : list val) (i : nat) (x : val) : list val :=
  match l, i with
  | [], _ => []
  | _ :: t, 0 => x :: t
  | y :: t, S j => y :: lset t j x
  end.
Definition vset (v : val) (i : nat) (x : val) : val := match v with VList l => VList (lset l i x) | _ => v end.

Definition set_val (p : pin) (z : Z) : pin := mk_pin z (p_out p) (p_width p) (p_nconn p) (p_mode p) (p_clk p).

(** getattr(self, signal).value (735, 750): a dummy reads None (32-34), a Signal() raises (48-49), a missing attribute too. *)
Definition read_slot (st : store) (s : slot) : res val :=
  match s with
  | SPin i => Ok (VInt (p_val (st i)))
  | SDummy => Ok VNone
  | SPlaceholder | SAbsent => Exn AttributeError
  end.

Section Writes.
Context (wr : pin -> val -> res Z) (usr : nat -> bundle -> store -> res unit * store).

(** getattr(self, signal).value = value (853, 877): a dummy ignores it (29-30), a Signal() raises (51-52). *)
Definition write_slot (s : slot) (v : val) (st : store) : res unit * store :=
  match s with
  | SPin i => match wr (st i) v with Ok z => (Ok tt, upd st i (set_val (st i) z)) | Exn e => (Exn e, st) end
  | SDummy => (Ok tt, st)
  | SPlaceholder | SAbsent => (Exn AttributeError, st)
  end.

(** bundle.py:771-784 [set_all], over the signals that all_signals yields *)
Fixpoint write_all (l : list (string * slot)) (v : val) (st : store) : res unit * store :=
  match l with
  | [] => (Ok tt, st)
  | (_, SPin i) :: t =>
      if p_out (st i) then write_all t v st
      else match write_slot (SPin i) v st with
           | (Ok _, st1) => write_all t v st1
           | (Exn e, st1) => (Exn e, st1)
           end
  | _ :: t => write_all t v st
  end.
Definition set_all (b : bundle) (v : val) (st : store) : res unit * store := write_all (all_signals b "") v st.

(** bundle.py:786-812 [randomize_all]; [rnd n lo hi] is the answer of the n-th call of random_func. *)
Definition bounds (range : option (Z * Z)) (p : pin) : Z * Z :=
  match range with
  | Some r => r
  | None => (0, 2 ^ Z.of_nat (if Nat.eqb (p_width p) 0 then 1 else p_width p) - 1)%Z
  end.
Fixpoint random_all (rnd : nat -> Z -> Z -> Z) (n : nat) (range : option (Z * Z)) (excl : list string) (l : list (string * slot)) (st : store)
  : res unit * store :=
  match l with
  | [] => (Ok tt, st)
  | (name, SPin i) :: t =>
      if smem name excl || p_out (st i) then random_all rnd n range excl t st
      else let (lo, hi) := bounds range (st i) in
           match write_slot (SPin i) (VInt (rnd n lo hi)) st with
           | (Ok _, st1) => random_all rnd (S n) range excl t st1
           | (Exn e, st1) => (Exn e, st1)
           end
  | _ :: t => random_all rnd n range excl t st
  end.
Definition randomize_all (b : bundle) (rnd : nat -> Z -> Z -> Z) (range : option (Z * Z)) (excl : list string) (st : store) : res unit * store :=
  random_all rnd 0 range excl (all_signals b "") st.

(** Outcome of assign: exception, pins, log, and the item as the call leaves it. *)
Inductive logitem := LNotFound (name : string) | LCritical.
Record out := mk_out { o_res : res unit; o_st : store; o_log : list logitem; o_val : val }.

(** Signals and signal lists of one level. *)
Fixpoint own (ls : list leaf) (k : string) : option slot :=
  match ls with
  | [] => None
  | l :: t => match l_id l with LSig n => if String.eqb k n then Some (l_slot l) else own t k | LEl _ _ => own t k end
  end.
Fixpoint els (ls : list leaf) (k : string) : list slot :=
  match ls with
  | [] => []
  | l :: t => match l_id l with LEl n _ => if String.eqb k n then l_slot l :: els t k else els t k | LSig _ => els t k end
  end.

(** bundle.py:93-98 [SignalList.assign] *)
Fixpoint write_list (l : list slot) (v : val) (i : nat) (st : store) : res unit * store :=
  match l with
  | [] => (Ok tt, st)
  | s :: t => match vidx v i with
              | Exn e => (Exn e, st)
              | Ok x => match write_slot s x st with
                        | (Ok _, st1) => write_list t v (S i) st1
                        | (Exn e, st1) => (Exn e, st1)
                        end
              end
  end.
Definition sl_assign (l : list slot) (v : val) (st : store) : res unit * store :=
  match vlen v with
  | Exn e => (Exn e, st)
  | Ok n => if Nat.eqb n (List.length l) then write_list l v 0 st else (Exn AssertionError, st)
  end.

(** The assign methods of the children, with their level string. *)
Definition assigner := val -> string -> store -> out.
Fixpoint sub (fs : list (seg * assigner)) (k : string) : option assigner :=
  match fs with
  | [] => None
  | (PSub n, f) :: t => if String.eqb k n then Some f else sub t k
  | (PElem _ _, _) :: t => sub t k
  end.
Fixpoint elems (fs : list (seg * assigner)) (k : string) : list assigner :=
  match fs with
  | [] => []
  | (PElem n _, f) :: t => if String.eqb k n then f :: elems t k else elems t k
  | (PSub _, _) :: t => elems t k
  end.

(** bundle.py:131-133 [BundleList.assign]: the level string is not handed on. *)
Fixpoint bl_assign (fs : list assigner) (v : val) (i : nat) (st : store) : out :=
  match fs with
  | [] => mk_out (Ok tt) st [] v
  | f :: t => match vidx v i with
              | Exn e => mk_out (Exn e) st [] v
              | Ok x =>
                  let o := f x "" st in
                  let v1 := vset v i (o_val o) in
                  match o_res o with
                  | Exn e => mk_out (Exn e) (o_st o) (o_log o) v1
                  | Ok _ => let o2 := bl_assign t v1 (S i) (o_st o) in
                            mk_out (o_res o2) (o_st o2) (o_log o ++ o_log o2) (o_val o2)
                  end
              end
  end.

Definition just (r : res unit * store) (x : val) : out := mk_out (fst r) (snd r) [] x.

(** bundle.py:851-874: one entry of a multilevel dictionary. *)
Definition act_multi (ls : list leaf) (sls : list string) (fs : list (seg * assigner)) (bls : list string) (level : string)
  (k : string) (x : val) (st : store) : out :=
  match own ls k with
  | Some s => just (write_slot s x st) x
  | None =>
      if smem k sls then just (sl_assign (els ls k) x st) x
      else match sub fs k with
           | Some f => f x (append_level level k) st
           | None => if smem k bls then bl_assign (elems fs k) x 0 st
                     else mk_out (Ok tt) st [LNotFound (append_level level k)] x
           end
  end.

(** signal.split(".", 1) if there is a dot (885-886) *)
Fixpoint split_dot (s : string) : option (string * string) :=
  match s with
  | EmptyString => None
  | String a t => if Ascii.eqb a "." then Some ("", t)
                  else match split_dot t with Some (h, r) => Some (String a h, r) | None => None end
  end.

(** bundle.py:876-908: one entry of a flat dictionary. *)
Definition act_flat (ls : list leaf) (sls : list string) (fs : list (seg * assigner)) (bls : list string) (level : string)
  (k : string) (x : val) (st : store) : out :=
  match own ls k with
  | Some s => just (write_slot s x st) x
  | None =>
      if smem k sls then just (sl_assign (els ls k) x st) x
      else
        match (match split_dot k with
               | Some (h, r) => match sub fs h with Some f => Some (f, h, r) | None => None end
               | None => None
               end) with
        | Some (f, h, r) =>
            let o := f (VDict [(r, x)]) (append_level level h) st in
            mk_out (o_res o) (o_st o) (o_log o) (match o_val o with VDict ((_, x1) :: _) => x1 | _ => x end)
        | None => if smem k bls then bl_assign (elems fs k) x 0 st
                  else mk_out (Ok tt) st [LNotFound (append_level level k)] x
        end
  end.

(** The loop over item.items(). *)
Fixpoint each (act : string -> val -> store -> out) (d : list (string * val)) (st : store) : res unit * store * list logitem * list (string * val) :=
  match d with
  | [] => (Ok tt, st, [], [])
  | (k, x) :: t =>
      let o := act k x st in
      match o_res o with
      | Exn e => (Exn e, o_st o, o_log o, (k, o_val o) :: t)
      | Ok _ => let '(r, st2, lg, t1) := each act t (o_st o) in (r, st2, (o_log o ++ lg)%list, (k, o_val o) :: t1)
      end
  end.

(** bundle.py:814-908 [assign] *)
Fixpoint assign (ml : bool) (b : bundle) (v : val) (level : string) (st : store) : out :=
  match b with
  | B nm m ls sls ks bls ck =>
      let fs := (fix go (ks : list (seg * bundle)) : list (seg * assigner) := match ks with
                 | [] => []
                 | (s, c) :: t => (s, fun v level st => assign ml c v level st) :: go t
                 end) ks in
      match v with
      | VObj n => just (usr n b st) v
      | VDict d =>
          match (match dget d "*" with Some x => set_all b x st | None => (Ok tt, st) end) with
          | (Exn e, st1) => mk_out (Exn e) st1 [] v
          | (Ok _, st1) =>
              let '(r, st2, lg, d2) := each ((if ml then act_multi else act_flat) ls sls fs bls level) (ddel d "*") st1 in
              mk_out r st2 lg (VDict d2)
          end
      | _ => mk_out (Ok tt) st [LCritical] v
      end
  end.
End Writes.

(** [x.value for x in ...] and the like: the first exception wins. *)
Fixpoint all_ok {A} (l : list (res A)) : res (list A) :=
  match l with
  | [] => Ok []
  | r :: t => rbind r (fun x => rbind (all_ok t) (fun xs => Ok (x :: xs)))
  end.
Fixpoint own_values (ls : list leaf) (st : store) : res (list (string * val)) :=
  match ls with
  | [] => Ok []
  | l :: t => match l_id l with
              | LSig n => rbind (read_slot st (l_slot l)) (fun x => rbind (own_values t st) (fun xs => Ok ((n, x) :: xs)))
              | LEl _ _ => own_values t st
              end
  end.
Definition list_values (ls : list leaf) (sls : list string) (st : store) : res (list (string * val)) :=
  all_ok (map (fun n => rbind (all_ok (map (read_slot st) (els ls n))) (fun xs => Ok (n, VList xs))) sls).

(** bundle.py:717-748 [as_dict], multilevel; attribute names are distinct, so the merged dictionary is the concatenation. *)
Fixpoint sub_values (rs : list (seg * res (list (string * val)))) : res (list (string * val)) :=
  match rs with
  | [] => Ok []
  | (PSub n, r) :: t => rbind r (fun d => rbind (sub_values t) (fun xs => Ok ((n, VDict d) :: xs)))
  | (PElem _ _, _) :: t => sub_values t
  end.
Fixpoint elem_values (rs : list (seg * res (list (string * val)))) (k : string) : list (res val) :=
  match rs with
  | [] => []
  | (PElem n _, r) :: t => if String.eqb k n then rbind r (fun d => Ok (VDict d)) :: elem_values t k else elem_values t k
  | (PSub _, _) :: t => elem_values t k
  end.
Fixpoint as_dict (b : bundle) (st : store) : res (list (string * val)) :=
  match b with
  | B _ _ ls sls ks bls _ =>
      let rs := (fix go (ks : list (seg * bundle)) := match ks with [] => [] | (s, c) :: t => (s, as_dict c st) :: go t end) ks in
      rbind (own_values ls st) (fun d1 =>
      rbind (list_values ls sls st) (fun d2 =>
      rbind (sub_values rs) (fun d3 =>
      rbind (all_ok (map (fun n => rbind (all_ok (elem_values rs n)) (fun xs => Ok (n, VList xs))) bls)) (fun d4 =>
      Ok (d1 ++ d2 ++ d3 ++ d4)%list))))
  end.

(** bundle.py:749-769 [as_dict], flat; the keys are distinct again. *)
Fixpoint flat_kids (rs : list (seg * res (list (string * val)))) : res (list (string * val)) :=
  match rs with
  | [] => Ok []
  | (s, r) :: t => rbind r (fun d => rbind (flat_kids t) (fun xs => Ok (map (fun kv => ((seg_label s ++ "." ++ fst kv)%string, snd kv)) d ++ xs)%list))
  end.
Fixpoint as_dict_flat (b : bundle) (st : store) : res (list (string * val)) :=
  match b with
  | B _ _ ls sls ks bls _ =>
      let rs := (fix go (ks : list (seg * bundle)) := match ks with [] => [] | (s, c) :: t => (s, as_dict_flat c st) :: go t end) ks in
      rbind (own_values ls st) (fun d1 =>
      rbind (list_values ls sls st) (fun d2 =>
      rbind (flat_kids rs) (fun d3 => Ok (d1 ++ d2 ++ d3)%list)))
  end.
