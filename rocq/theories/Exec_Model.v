(** The Executor (toffee/executor.py:45-261): what [exec(...)] records, and what leaving the block and wait_all do on the loop.

    The list __uncompleted is handed to the rest of the program instead of being kept in the object, and the groups are those recorded when the block is
    left: an executor is used for one block, since a coroutine can be awaited only once. *)
From Coq Require Import List String Bool Arith ZArith.
From Verif Require Import Py Prio_Model Loop_Model LoopProg_Model Drv_Model.
Import ListNotations.
Open Scope nat_scope.

Section Exec.
Context {mem : Type}.
Notation prog := (@prog mem).

(** A coroutine object: its __name__, the driver that __get_driver (248-261) finds in its frame, with the agent_name of the driver, and awaiting it. *)
Record coro := mk_coro { c_name : string; c_drv : option (string * @drv mem); c_await : (res lval -> prog) -> prog }.
(** 215: the triple recorded for a call. *)
Record added := mk_added { a_coro : coro; a_order : option string; a_prio : option Z }.
(** 65 [__coros] *)
Definition coros := dict (list added).

(** 187-192 *)
Definition group_key (c : coro) (g : option string) : string :=
  match g with
  | Some k => k
  | None => match c_drv c with Some (a, _) => append a (append "." (c_name c)) | None => c_name c end
  end.
Definition has_driver (c : coro) : bool := match c_drv c with Some _ => true | None => false end.
(** 197-204, 206-213: the assertions. *)
Definition prio_ok (c : coro) (p : option Z) : bool := match p with Some z => ((0 <=? z)%Z && (z <=? 99)%Z) && has_driver c | None => true end.
Definition order_ok (c : coro) (o : option string) : bool := match o with Some _ => has_driver c | None => true end.
(** 207-208 *)
Definition norm_order (o : option string) : option string := match o with Some x => if String.eqb x "parallel" then Some "model_first"%string else Some x | None => None end.
(** 173-215 [__call__] *)
Definition add (cs : coros) (c : coro) (p : option Z) (o g : option string) : coros * res unit :=
  let k := group_key c g in
  let cs1 := if dmem cs k then cs else dset cs k [] in                              (* 194-195 *)
  if negb (prio_ok c p) then (cs1, Exn AssertionError)
  else if negb (order_ok c o) then (cs1, Exn AssertionError)
  else (match dget cs1 k with Some l => dset cs1 k (l ++ [mk_added c (norm_order o) p]) | None => cs1 end, Ok tt).

(** 88-103 [__set_results], from group number [i] on; [d]: result_dict so far. *)
Fixpoint set_results (cs : coros) (rs : list lval) (i : nat) (d : dict lval) : res (dict lval) :=
  match cs with
  | [] => Ok d
  | (k, l) :: rest =>
      match nth_error rs i with
      | None => Exn IndexError
      | Some r =>
          if Nat.eqb (List.length l) 1
          then match r with
               | VList (v :: _) => set_results rest rs (S i) (dset d k v)
               | VList [] => Exn IndexError
               | _ => Exn TypeError
               end
          else set_results rest rs (S i) (dset d k r)
      end
  end.

(** The sche_order of a driver as far as process_driver_call looks at it (_base_agent.py:131-134). *)
Definition order_of (o : option string) : option bool :=
  match o with Some x => if String.eqb x "model_first" then Some true else if String.eqb x "dut_first" then Some false else None | None => None end.
(** 230-240: the attributes of the driver are assigned. *)
Definition assign (a : added) (k : prog) : prog :=
  match c_drv (a_coro a) with
  | None => k
  | Some (_, d) => Op (OMem (fun m => (d_set d (order_of (a_order a)) (a_prio a) m, Ok VNone))) (fun _ => k)
  end.
(** 244-246; setting an event that is set changes nothing, so the test of is_set() is left out. *)
Definition group_end (ce : option id) (vs : list lval) : prog :=
  match ce with Some e => Op (OEvSet e) (fun _ => Ret (VList vs)) | None => Ret (VList vs) end.
(** 217-246 [__sequential_execution_all], results [vs] so far. *)
Fixpoint seq_all (l : list added) (vs : list lval) (ce : option id) : prog :=
  match l with
  | [] => group_end ce vs
  | a :: rest => assign a (c_await (a_coro a) (fun r => match r with Ok v => seq_all rest (vs ++ [v]) ce | Exn e => Raise e end))
  end.
(** 105-113 [__get_sche_group] *)
Definition groups (cs : coros) (ce : option id) : list prog := map (fun g => seq_all (snd g) [] ce) cs.

(** The attribute __results: assigning it. *)
Context (store : dict lval -> mem -> mem).
(** 122, 161: __set_results with the value [v] of gather. *)
Definition keep_results (cs : coros) (v : lval) (K : res lval -> prog) : prog :=
  Op (OMem (fun m => match v with
       | VList rs => match set_results cs rs 0 [] with Ok d => (store d m, Ok VNone) | Exn e => (m, Exn e) end
       | _ => (m, Exn TypeError)
       end)) K.
(** 115-123 [__exit_all] *)
Definition exit_all (cs : coros) (K : res lval -> prog) : prog := gather (groups cs None) (fun r => match r with Ok v => keep_results cs v K | Exn e => K (Exn e) end).
(** 125-132 [__exit_none]; [K] gets the list __uncompleted. *)
Definition exit_none (cs : coros) (K : list id -> res lval -> prog) : prog := create_all (groups cs None) [] (fun ids => K ids (Ok VNone)) (K []).
(** 134-148 [__exit_any]; [e]: the event __exit_any_event; the wait is Event.wait of asynchronous.py:123-125. *)
Definition exit_any (e : id) (cs : coros) (K : list id -> res lval -> prog) : prog :=
  Op (OEvClear e) (fun r => match r with
    | Ok _ => create_all (groups cs (Some e)) []
                (fun ids => Op (OEvWait e) (fun r => match r with Ok _ => Op (OFlag true) (fun _ => K ids (Ok VNone)) | Exn x => K ids (Exn x) end)) (K [])
    | Exn x => K [] (Exn x)
    end).
(** 74-86 [__execute] (71-72: awaited by __aexit__). *)
Definition execute (exit : string) (e : id) (cs : coros) (K : list id -> res lval -> prog) : prog :=
  if String.eqb exit "all" then exit_all cs (K [])
  else if String.eqb exit "none" then exit_none cs K
  else if String.eqb exit "any" then exit_any e cs K
  else K [] (Exn ValueError).
(** 150-161 [wait_all] *)
Definition wait_all (cs : coros) (ids : list id) (K : res lval -> prog) : prog :=
  match ids with
  | [] => K (Ok VNone)
  | _ => await_all ids [] (fun r => match r with Ok v => keep_results cs v K | Exn e => K (Exn e) end)
  end.
End Exec.
