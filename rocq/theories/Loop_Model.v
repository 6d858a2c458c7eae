(** Model of the event loop under toffee: tasks, futures, events and queues of asyncio (CPython 3.10), the clock loop, callbacks
    and test wrapper of toffee/asynchronous.py, and the priority tasks of toffee/executor.py.

    A coroutine is a program [prog]: it returns, raises, or performs one operation and continues with the outcome.  [prog] is
    coinductive, so coroutines may run forever.  The machine executes one operation per step; which coroutine runs is decided by
    the FIFO ready queue of the loop as in asyncio's BaseEventLoop._run_once.

    Left out: several clocks (one start_clock call), the exception handler of the loop (toffee/asynchronous.py:208-215), the
    cleanup asyncio.run does after the main coroutine has finished, Task.uncancel, and cancelling an asyncio.gather future (treated
    as cancelling a plain future).  Callbacks run by the DUT inside Step are part of [dut].  User code neither sets nor clears the
    clock event nor the events of hooks (such operations raise TypeError here). *)
From Coq Require Import List Bool Arith ZArith.
From Verif Require Import Py Prio_Model.
Import ListNotations.
Open Scope nat_scope.

Definition id := nat.
(** Values passed between coroutines. *)
Inductive lval := VNone | VBool (b : bool) | VInt (z : Z) | VId (n : id) | VList (l : list lval).

Section Machine.
(** Everything that is not part of the loop: the DUT, the variables of the test and of the models. *)
Context {mem : Type}.

(** What a coroutine can do.  [OMem] is any synchronous computation on the memory; [OMark] stands for observable progress. *)
Inductive op (P : Type) : Type :=
| OMem (f : mem -> mem * res lval)
| OMark (m : nat)
| OFlag (b : bool)                            (* asynchronous.py:47-52 task_run, 76 *)
| OSleep0                                     (* asyncio.sleep(0) *)
| OCreate (p : P)                             (* asyncio.create_task *)
| OAwait (f : id)                             (* await of a task or future *)
| OCancel (f : id)                            (* Task.cancel / Future.cancel *)
| OEvNew | OEvSet (e : id) | OEvClear (e : id) | OEvWait (e : id)
| OQNew | OQPut (q : id) (v : lval) | OQGet (q : id) | OQSize (q : id)
| OTimer                                      (* the future behind asyncio.sleep(d), d > 0 *)
| OPrio (h : P) (z : Z) (done : bool)         (* executor.py:17-22 add_priority_task, with a new event if [done] *)
| OGather (l : list id)                       (* the future of asyncio.gather(..., return_exceptions=True) *)
| OStartClock                                 (* asynchronous.py:180-189 *)
| OHasClock.                                  (* asynchronous.py:256, 330: hasattr(loop, "global_clock_event") *)
Arguments OMem {P}. Arguments OMark {P}. Arguments OFlag {P}. Arguments OSleep0 {P}. Arguments OCreate {P}. Arguments OAwait {P}. Arguments OCancel {P}.
Arguments OEvNew {P}. Arguments OEvSet {P}. Arguments OEvClear {P}. Arguments OEvWait {P}. Arguments OQNew {P}. Arguments OQPut {P}. Arguments OQGet {P}. Arguments OQSize {P}.
Arguments OTimer {P}. Arguments OPrio {P}. Arguments OGather {P}. Arguments OStartClock {P}. Arguments OHasClock {P}.

CoInductive prog : Type := Ret (v : lval) | Raise (e : exn) | Op (o : op prog) (k : res lval -> prog).

(** [await p] inside another coroutine, with the outcome handed to [k] (which sees exceptions, as try/except does). *)
CoFixpoint bindr (p : prog) (k : res lval -> prog) : prog :=
  match p with Ret v => k (Ok v) | Raise e => k (Exn e) | Op o c => Op o (fun r => bindr (c r) k) end.
(** The usual await: exceptions propagate. *)
Definition thenv (k : lval -> prog) (r : res lval) : prog := match r with Ok v => k v | Exn e => Raise e end.

(** Where the clock task is (asynchronous.py:161-174 and the functions it awaits). *)
Inductive clk : Type :=
| CInit                                       (* 167: while not hasattr(loop, "test_done") *)
| CRound                                      (* 71-78: new_task_run = False; sleep(0) *)
| CCheck                                      (* 87: the condition of the while loop *)
| CPass (todo : list (prog * option id)) (set_event : bool)  (* executor.py:30-38 *)
| CTail                                       (* 109: if test_done *)
| CCancel                                     (* 92-100 *)
| CGathered                                   (* 111: sleep(0) after cancel_all_tasks *)
| CStep (last : bool).                        (* 172-174; [last]: after cancel_all_tasks *)

(** What a task executes next: a program; a hook awaited by the clock task; the clock loop; the rest of Event.wait and Queue.get
    after the awaited future is done; main_coro at its start (asynchronous.py:232-239) and while it awaits the test (247-250). *)
Inductive body : Type :=
| BProg (p : prog)
| BHook (p : prog) (ev : option id) (todo : list (prog * option id)) (set_event : bool)
| BClk (c : clk)
| BEv (e f : id) (r : res lval) (k : res lval -> body)
| BGet (q f : id) (r : res lval) (k : res lval -> body)
| BMain (test : prog)
| BTest (p : prog).

(** asyncio.Task: continuation, _fut_waiter, _must_cancel. *)
Record task := mk_task { k_cont : res lval -> body; k_wait : option id; k_must : bool }.
(** asyncio.Future: _state with the result, callbacks, and what kind of future it is. *)
Inductive fstate := Pending | Finished (r : res lval) | Canc.
(** Kinds: waiter inside Event.wait / Queue.get; timer scheduled / expired; asyncio.gather (with the number of children it still
    waits for); task. *)
Inductive kind := KEv (e : id) | KQueue (q : id) | KTimer | KFired | KGather (need : nat) | KTask (t : task).
Inductive cb := CbWake (t : id) | CbCount (g : id) | CbStop.
Record fut := mk_fut { f_st : fstate; f_cbs : list cb; f_kind : kind }.
(** asyncio.Event and asyncio.Queue; [e_priv]: created by toffee for a hook. *)
Record event := mk_event { e_val : bool; e_waiters : list id; e_priv : bool }.
Record queue := mk_queue { q_items : list lval; q_getters : list id }.
(** Entries of the ready queue of the loop. *)
Inductive handle := HStep (t : id) | HThrow (t : id) (e : exn) | HWake (t f : id) | HCount (g : id) | HStop | HTimer (f : id).

(** [cur]: the task executing now; [batch]: handles left in this iteration of the loop; [tdone]: loop.test_done (None: not set
    yet); [ran]: events of the hooks that have been run, in order; [nstep]: number of calls of dut.Step; [marks]: task, mark and
    number of steps. *)
Record state := mk_state
  { cur : option (id * body); ready : list handle; batch : nat; stopping : bool; futs : list fut; evs : list event; qs : list queue;
    flag : bool; tdone : option bool; clock : option id; prio : list (ptask prog); ran : list id; nstep : nat; marks : list (id * nat * nat); mm : mem }.

Definition set_cur (s : state) x := mk_state x (ready s) (batch s) (stopping s) (futs s) (evs s) (qs s) (flag s) (tdone s) (clock s) (prio s) (ran s) (nstep s) (marks s) (mm s).
Definition set_ready (s : state) x := mk_state (cur s) x (batch s) (stopping s) (futs s) (evs s) (qs s) (flag s) (tdone s) (clock s) (prio s) (ran s) (nstep s) (marks s) (mm s).
Definition set_batch (s : state) x := mk_state (cur s) (ready s) x (stopping s) (futs s) (evs s) (qs s) (flag s) (tdone s) (clock s) (prio s) (ran s) (nstep s) (marks s) (mm s).
Definition set_stopping (s : state) x := mk_state (cur s) (ready s) (batch s) x (futs s) (evs s) (qs s) (flag s) (tdone s) (clock s) (prio s) (ran s) (nstep s) (marks s) (mm s).
Definition set_futs (s : state) x := mk_state (cur s) (ready s) (batch s) (stopping s) x (evs s) (qs s) (flag s) (tdone s) (clock s) (prio s) (ran s) (nstep s) (marks s) (mm s).
Definition set_evs (s : state) x := mk_state (cur s) (ready s) (batch s) (stopping s) (futs s) x (qs s) (flag s) (tdone s) (clock s) (prio s) (ran s) (nstep s) (marks s) (mm s).
Definition set_qs (s : state) x := mk_state (cur s) (ready s) (batch s) (stopping s) (futs s) (evs s) x (flag s) (tdone s) (clock s) (prio s) (ran s) (nstep s) (marks s) (mm s).
Definition set_flag (s : state) x := mk_state (cur s) (ready s) (batch s) (stopping s) (futs s) (evs s) (qs s) x (tdone s) (clock s) (prio s) (ran s) (nstep s) (marks s) (mm s).
Definition set_tdone (s : state) x := mk_state (cur s) (ready s) (batch s) (stopping s) (futs s) (evs s) (qs s) (flag s) x (clock s) (prio s) (ran s) (nstep s) (marks s) (mm s).
Definition set_clock (s : state) x := mk_state (cur s) (ready s) (batch s) (stopping s) (futs s) (evs s) (qs s) (flag s) (tdone s) x (prio s) (ran s) (nstep s) (marks s) (mm s).
Definition set_prio (s : state) x := mk_state (cur s) (ready s) (batch s) (stopping s) (futs s) (evs s) (qs s) (flag s) (tdone s) (clock s) x (ran s) (nstep s) (marks s) (mm s).
Definition set_ran (s : state) x := mk_state (cur s) (ready s) (batch s) (stopping s) (futs s) (evs s) (qs s) (flag s) (tdone s) (clock s) (prio s) x (nstep s) (marks s) (mm s).
Definition set_nstep (s : state) x := mk_state (cur s) (ready s) (batch s) (stopping s) (futs s) (evs s) (qs s) (flag s) (tdone s) (clock s) (prio s) (ran s) x (marks s) (mm s).
Definition set_marks (s : state) x := mk_state (cur s) (ready s) (batch s) (stopping s) (futs s) (evs s) (qs s) (flag s) (tdone s) (clock s) (prio s) (ran s) (nstep s) x (mm s).
Definition set_mm (s : state) x := mk_state (cur s) (ready s) (batch s) (stopping s) (futs s) (evs s) (qs s) (flag s) (tdone s) (clock s) (prio s) (ran s) (nstep s) (marks s) x.

Fixpoint put_nth {A} (n : nat) (a : A) (l : list A) : list A :=
  match l, n with [], _ => [] | _ :: t, 0 => a :: t | x :: t, S n' => x :: put_nth n' a t end.
Definition fget (s : state) (f : id) : option fut := nth_error (futs s) f.
Definition fput (s : state) (f : id) (x : fut) : state := set_futs s (put_nth f x (futs s)).
Definition eput (s : state) (e : id) (x : event) : state := set_evs s (put_nth e x (evs s)).
Definition qput (s : state) (q : id) (x : queue) : state := set_qs s (put_nth q x (qs s)).
Definition push (s : state) (h : list handle) : state := set_ready s (ready s ++ h).
Definition go (s : state) (t : id) (b : body) : state := set_cur s (Some (t, b)).

Definition pending (fu : fut) : bool := match f_st fu with Pending => true | _ => false end.
Definition fpending (s : state) (f : id) : bool := match fget s f with Some fu => pending fu | None => false end.
(** What awaiting a done future gives: Future.result(). *)
Definition outcome (st : fstate) : res lval := match st with Finished r => r | _ => Exn CancelledError end.
(** Future.__schedule_callbacks. *)
Definition sched (f : id) (c : cb) : handle := match c with CbWake t => HWake t f | CbCount g => HCount g | CbStop => HStop end.
(** A pending future gets its final state, its callbacks are scheduled. *)
Definition conclude (s : state) (f : id) (st : fstate) : state :=
  match fget s f with
  | Some fu => if pending fu then push (fput s f (mk_fut st [] (f_kind fu))) (map (sched f) (f_cbs fu)) else s
  | None => s
  end.
Definition is_task (k : kind) : bool := match k with KTask _ => true | _ => false end.
(** Futures a coroutine can name: not those inside Event.wait and Queue.get. *)
Definition nameable (k : kind) : bool := match k with KEv _ | KQueue _ => false | _ => true end.
(** Future.set_result / Future.cancel, for futures that are not tasks. *)
Definition settle (s : state) (f : id) (st : fstate) : state :=
  match fget s f with Some fu => if is_task (f_kind fu) then s else conclude s f st | None => s end.
(** Future.add_done_callback. *)
Definition on_done (s : state) (f : id) (c : cb) : state :=
  match fget s f with
  | Some fu => if pending fu then fput s f (mk_fut (f_st fu) (f_cbs fu ++ [c]) (f_kind fu)) else push s [sched f c]
  | None => s
  end.
(** A new future. *)
Definition falloc (s : state) (x : fut) : state := set_futs s (futs s ++ [x]).

Definition tget (s : state) (t : id) : option task :=
  match fget s t with Some (mk_fut _ _ (KTask k)) => Some k | _ => None end.
Definition tput (s : state) (t : id) (k : task) : state :=
  match fget s t with Some fu => fput s t (mk_fut (f_st fu) (f_cbs fu) (KTask k)) | None => s end.

(** Future.cancel / Task.cancel; [fuel] bounds the chain of awaited tasks. *)
Fixpoint cancel (fuel : nat) (s : state) (f : id) : state * bool :=
  match fget s f with
  | Some fu =>
      if pending fu then
        match f_kind fu with
        | KTask k =>
            let must := (tput s f (mk_task (k_cont k) (k_wait k) true), true) in
            match k_wait k, fuel with
            | Some g, S n => let (s1, ok) := cancel n s g in if ok then (s1, true) else must
            | _, _ => must
            end
        | _ => (settle s f Canc, true)
        end
      else (s, false)
  | None => (s, false)
  end.
Definition cancel_top (s : state) (f : id) : state := fst (cancel (List.length (futs s)) s f).

(** The running task yields: Task.__step with a yielded future, or None for sleep(0). *)
Definition suspend0 (s : state) (t : id) (k : res lval -> body) : state :=
  match tget s t with
  | Some tk => set_cur (push (tput s t (mk_task k None (k_must tk))) [HStep t]) None
  | None => set_cur s None
  end.
Definition suspend (s : state) (t f : id) (k : res lval -> body) : state :=
  match tget s t with
  | Some tk =>
      if Nat.eqb t f then set_cur (push (tput s t (mk_task k None (k_must tk))) [HThrow t RuntimeError]) None  (* a task awaiting itself *)
      else
        let s1 := set_cur (on_done (tput s t (mk_task k (Some f) (k_must tk))) f (CbWake t)) None in
        if k_must tk then
          let (s2, ok) := cancel (List.length (futs s1)) s1 f in
          if ok then (match tget s2 t with Some tk' => tput s2 t (mk_task (k_cont tk') (k_wait tk') false) | None => s2 end) else s2
        else s1
  | None => set_cur s None
  end.
(** A new task: its first step is scheduled. *)
Definition spawn (s : state) (k : res lval -> body) : state :=
  push (falloc s (mk_fut Pending [] (KTask (mk_task k None false)))) [HStep (List.length (futs s))].
(** The coroutine of a new task: an exception thrown in before the first step is raised at once. *)
Definition start (b : body) (r : res lval) : body := match r with Ok _ => b | Exn e => BProg (Raise e) end.

(** asyncio.Event.set *)
Definition ev_set (s : state) (e : id) : state :=
  match nth_error (evs s) e with
  | Some ev => if e_val ev then s else fold_left (fun s f => settle s f (Finished (Ok (VBool true)))) (e_waiters ev) (eput s e (mk_event true (e_waiters ev) (e_priv ev)))
  | None => s
  end.
Definition ev_clear (s : state) (e : id) : state :=
  match nth_error (evs s) e with Some ev => eput s e (mk_event false (e_waiters ev) (e_priv ev)) | None => s end.
(** asyncio.Queue._wakeup_next *)
Fixpoint wake_next (s : state) (l : list id) : state * list id :=
  match l with
  | [] => (s, [])
  | f :: t => if fpending s f then (settle s f (Finished (Ok VNone)), t) else wake_next s t
  end.
Definition q_wake (s : state) (q : id) : state :=
  match nth_error (qs s) q with
  | Some qu => let (s1, l) := wake_next s (q_getters qu) in qput s1 q (mk_queue (q_items qu) l)
  | None => s
  end.
Definition remove1 (f : id) (l : list id) : list id := filter (fun x => negb (Nat.eqb f x)) l.

(** asyncio.Queue.get, one round of its loop. *)
Definition q_get (s : state) (t q : id) (k : res lval -> body) : state :=
  match nth_error (qs s) q with
  | Some qu =>
      match q_items qu with
      | v :: rest => go (qput s q (mk_queue rest (q_getters qu))) t (k (Ok v))
      | [] => let f := List.length (futs s) in
              suspend (qput (falloc s (mk_fut Pending [] (KQueue q))) q (mk_queue [] (q_getters qu ++ [f]))) t f (fun r => BGet q f r k)
      end
  | None => go s t (k (Exn TypeError))
  end.

(** asyncio.all_tasks() *)
Definition live (s : state) : list id :=
  filter (fun t => match fget s t with Some (mk_fut Pending _ (KTask _)) => true | _ => false end) (seq 0 (List.length (futs s))).
(** asynchronous.py:60-66 for one task. *)
Definition unwait (s : state) (t : id) : bool :=
  match tget s t with
  | Some k => match k_wait k with
              | None => true
              | Some f => match fget s f with Some fu => match f_st fu with Finished _ => true | _ => false end | None => false end
              end
  | None => false
  end.
(** asynchronous.py:55-68 [__has_unwait_task] *)
Definition has_unwait (s : state) (c : id) : bool := existsb (fun t => negb (Nat.eqb t c) && unwait s t) (live s).

(** One operation of task [t]; [k]: the rest of the task. *)
Definition exec_op (s : state) (t : id) (o : op prog) (k : res lval -> body) : state :=
  let ret s v := go s t (k (Ok v)) in
  let err s e := go s t (k (Exn e)) in
  match o with
  | OMem f => let (m, r) := f (mm s) in go (set_mm s m) t (k r)
  | OMark m => ret (set_marks s (marks s ++ [(t, m, nstep s)])) VNone
  | OFlag b => ret (set_flag s b) VNone
  | OSleep0 => suspend0 s t k
  | OCreate p => ret (spawn s (start (BProg p))) (VId (List.length (futs s)))
  | OAwait f =>
      match fget s f with
      | Some fu => if negb (nameable (f_kind fu)) then err s TypeError
                   else if pending fu then suspend s t f k else go s t (k (outcome (f_st fu)))
      | None => err s TypeError
      end
  | OCancel f =>
      match fget s f with
      | Some fu => if negb (nameable (f_kind fu)) then err s TypeError else ret (cancel_top s f) (VBool (pending fu))
      | None => err s TypeError
      end
  | OEvNew => ret (set_evs s (evs s ++ [mk_event false [] false])) (VId (List.length (evs s)))
  | OEvSet e =>
      match nth_error (evs s) e with
      | Some ev => if e_priv ev then err s TypeError else ret (ev_set s e) VNone
      | None => err s TypeError
      end
  | OEvClear e =>
      match nth_error (evs s) e with
      | Some ev => if e_priv ev then err s TypeError else ret (ev_clear s e) VNone
      | None => err s TypeError
      end
  | OEvWait e =>
      match nth_error (evs s) e with
      | Some ev =>
          if e_val ev then ret s (VBool true)
          else let f := List.length (futs s) in
               suspend (eput (falloc s (mk_fut Pending [] (KEv e))) e (mk_event false (e_waiters ev ++ [f]) (e_priv ev))) t f (fun r => BEv e f r k)
      | None => err s TypeError
      end
  | OQNew => ret (set_qs s (qs s ++ [mk_queue [] []])) (VId (List.length (qs s)))
  | OQPut q v =>
      match nth_error (qs s) q with
      | Some qu => ret (q_wake (qput s q (mk_queue (q_items qu ++ [v]) (q_getters qu))) q) VNone
      | None => err s TypeError
      end
  | OQGet q => q_get s t q k
  | OQSize q => match nth_error (qs s) q with Some qu => ret s (VInt (Z.of_nat (List.length (q_items qu)))) | None => err s TypeError end
  | OTimer => ret (falloc s (mk_fut Pending [] KTimer)) (VId (List.length (futs s)))
  | OPrio h z true =>
      let e := List.length (evs s) in
      ret (set_prio (set_evs s (evs s ++ [mk_event false [] true])) (add_priority_task (prio s) h z (Some e))) (VId e)
  | OPrio h z false => ret (set_prio s (add_priority_task (prio s) h z None)) VNone
  | OGather l =>
      let l' := nodup Nat.eq_dec (filter (fun f => Nat.ltb f (List.length (futs s))) l) in
      let g := List.length (futs s) in
      match l' with
      | [] => ret (falloc s (mk_fut (Finished (Ok VNone)) [] (KGather 0))) (VId g)
      | _ => ret (fold_left (fun s f => on_done s f (CbCount g)) l' (falloc s (mk_fut Pending [] (KGather (List.length l'))))) (VId g)
      end
  | OStartClock =>
      match clock s with
      | None => ret (set_clock (spawn s (start (BClk CInit))) (Some (List.length (futs s)))) VNone
      | Some _ => err s RuntimeError   (* a second clock: not modelled *)
      end
  | OHasClock => ret s (VBool (match clock s with Some _ => true | None => false end))
  end.

(** [shuffle]: the order in which a Python set of tasks is iterated; [dut]: dut.Step(1); [delayers]: delay.py's callback. *)
Context (shuffle : list id -> list id) (dut delayers : mem -> mem).

(** The next move of the clock task [t]. *)
Definition exec_clk (s : state) (t : id) (c : clk) : state :=
  let to s c := go s t (BClk c) in
  match c with
  | CInit => match tdone s with None => suspend0 s t (start (BClk CInit)) | Some _ => to s CRound end
  | CRound => suspend0 (set_flag s false) t (start (BClk CCheck))
  | CCheck => if has_unwait s t || flag s then to s CRound else to s (CPass (map (fun p => (pt_coro p, pt_done p)) (pt_sorted (prio s))) false)
  | CPass ((h, ev) :: todo) b => go s t (BHook h ev todo b)
  | CPass [] b => let s1 := set_mm (set_prio s []) (delayers (mm s)) in to s1 (if b then CRound else CTail)
  | CTail => to s (match tdone s with Some true => CCancel | _ => CStep false end)
  | CCancel =>
      let l := shuffle (filter (fun x => negb (Nat.eqb x t) && negb (Nat.eqb x 0)) (live s)) in
      let s1 := fold_left cancel_top l s in
      match l with
      | [] => suspend0 s1 t (start (BClk (CStep true)))
      | _ => let g := List.length (futs s1) in
             suspend (fold_left (fun s f => on_done s f (CbCount g)) l (falloc s1 (mk_fut Pending [] (KGather (List.length l))))) t g (start (BClk CGathered))
      end
  | CGathered => suspend0 s t (start (BClk (CStep true)))
  | CStep _ => to (ev_clear (ev_set (set_mm (set_nstep s (S (nstep s))) (dut (mm s))) 0) 0) CRound
  end.

(** The task [t] finishes: Task.__step on StopIteration / exception. *)
Definition finish (s : state) (t : id) (r : res lval) : state :=
  let st := match r with
            | Exn CancelledError => Canc
            | Exn e => Finished (Exn e)
            | Ok v => match tget s t with Some k => if k_must k then Canc else Finished (Ok v) | None => Finished (Ok v) end
            end in
  set_cur (conclude s t st) None.

Definition exec_body (s : state) (t : id) (b : body) : state :=
  match b with
  | BProg (Ret v) => finish s t (Ok v)
  | BProg (Raise e) => finish s t (Exn e)
  | BProg (Op o k) => exec_op s t o (fun r => BProg (k r))
  | BHook (Ret _) ev todo b =>                                                        (* executor.py:32-35 *)
      match ev with
      | Some e => go (ev_set (set_ran s (ran s ++ [e])) e) t (BClk (CPass todo true))
      | None => go s t (BClk (CPass todo b))
      end
  | BHook (Raise e) _ _ _ => go s t (BProg (Raise e))
  | BHook (Op o k) ev todo b => exec_op s t o (fun r => BHook (k r) ev todo b)
  | BClk c => exec_clk s t c
  | BEv e f r k =>                                                                    (* Event.wait: finally self._waiters.remove(fut) *)
      let s1 := match nth_error (evs s) e with Some ev => eput s e (mk_event (e_val ev) (remove1 f (e_waiters ev)) (e_priv ev)) | None => s end in
      go s1 t (k (match r with Ok _ => Ok (VBool true) | Exn e => Exn e end))
  | BGet q f (Ok _) k => q_get s t q k
  | BGet q f (Exn e) k =>                                                             (* Queue.get: the except clause *)
      let s1 := settle s f Canc in
      let s2 := match nth_error (qs s1) q with Some qu => qput s1 q (mk_queue (q_items qu) (remove1 f (q_getters qu))) | None => s1 end in
      let s3 := match nth_error (qs s2) q, fget s2 f with
                | Some qu, Some fu => match q_items qu, f_st fu with _ :: _, Finished _ => q_wake s2 q | _, _ => s2 end
                | _, _ => s2
                end in
      go s3 t (k (Exn e))
  | BMain test => go (set_flag (set_tdone s (Some false)) false) t (BTest test)       (* asynchronous.py:234-235 *)
  | BTest (Ret v) =>                                                                  (* asynchronous.py:252-261 *)
      let s1 := set_tdone s (Some true) in
      match clock s with
      | Some _ => exec_op s1 t (OEvWait 0) (fun r => BProg (match r with Ok _ => Ret v | Exn e => Raise e end))
      | None => finish s1 t (Ok v)
      end
  | BTest (Raise e) => finish s t (Exn e)
  | BTest (Op o k) => exec_op s t o (fun r => BTest (k r))
  end.

(** Task.__step / Task.__wakeup: resume task [t] with the outcome [r], or with CancelledError if it is to be cancelled. *)
Definition resume (s : state) (t : id) (r : res lval) : state :=
  match tget s t with
  | Some k => let r' := if k_must k then Exn CancelledError else r in go (tput s t (mk_task (k_cont k) None false)) t (k_cont k r')
  | None => s
  end.
Definition run_handle (s : state) (h : handle) : state :=
  match h with
  | HStep t => resume s t (Ok VNone)
  | HThrow t e => resume s t (Exn e)
  | HWake t f => resume s t (match fget s f with Some fu => outcome (f_st fu) | None => Exn TypeError end)
  | HCount g =>
      match fget s g with
      | Some (mk_fut st cbs (KGather n)) =>
          match n with
          | 0 => s
          | S n' => let s1 := fput s g (mk_fut st cbs (KGather n')) in match n' with 0 => settle s1 g (Finished (Ok VNone)) | _ => s1 end
          end
      | _ => s
      end
  | HStop => set_stopping s true
  | HTimer f => settle s f (Finished (Ok VNone))
  end.
(** The timers among [l] that are still scheduled expire. *)
Definition fire1 (s : state) (f : id) : state :=
  match fget s f with
  | Some (mk_fut st cbs KTimer) => push (fput s f (mk_fut st cbs KFired)) [HTimer f]
  | _ => s
  end.

(** One step; [fire]: the timers that expire before the next iteration of the loop. *)
Definition step (fire : list id) (s : state) : state :=
  match cur s with
  | Some (t, b) => exec_body s t b
  | None =>
      match batch s with
      | 0 => if stopping s then s else let s1 := fold_left fire1 fire s in set_batch s1 (List.length (ready s1))
      | S n => match ready s with [] => set_batch s 0 | h :: r => run_handle (set_batch (set_ready s r) n) h end
      end
  end.
Inductive steps : state -> state -> Prop :=
| steps_refl s : steps s s
| steps_step s s1 fire : steps s s1 -> steps s (step fire s1).

(** asynchronous.py:282 [asyncio.run(main_coro(test))], without env_handle: task 0 is the main coroutine, event 0 the clock event of the DUT. *)
Definition init (test : prog) (m : mem) : state :=
  mk_state None [HStep 0] 0 false [mk_fut Pending [CbStop] (KTask (mk_task (start (BMain test)) None false))] [mk_event false [] true] []
    false None None [] [] 0 [] m.
End Machine.

Arguments OMem {mem P}. Arguments OMark {mem P}. Arguments OFlag {mem P}. Arguments OSleep0 {mem P}. Arguments OCreate {mem P}. Arguments OAwait {mem P}. Arguments OCancel {mem P}.
Arguments OEvNew {mem P}. Arguments OEvSet {mem P}. Arguments OEvClear {mem P}. Arguments OEvWait {mem P}. Arguments OQNew {mem P}. Arguments OQPut {mem P}. Arguments OQGet {mem P}. Arguments OQSize {mem P}.
Arguments OTimer {mem P}. Arguments OPrio {mem P}. Arguments OGather {mem P}. Arguments OStartClock {mem P}. Arguments OHasClock {mem P}.
