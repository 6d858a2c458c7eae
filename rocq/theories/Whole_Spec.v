(** A driver call from its start to the comparison of the results: what is to have happened, and what a call that has not come so far is doing. *)
From Coq Require Import List Bool Arith ZArith.
From Verif Require Import Py Prio_Model Loop_Model Loop_Spec Loop2_Spec LoopProg_Model Bind_Spec Drv_Model Drv_Spec.
Import ListNotations.
Open Scope nat_scope.

Section Spec.
Context {mem : Type} (shuffle : list id -> list id) (dut delayers : mem -> mem).
Notation steps := (steps shuffle dut delayers). Notation step := (step shuffle dut delayers). Notation prog := (@prog mem). Notation state := (@state mem). Notation hook := (@hook mem).
Notation hook_ran := (hook_ran shuffle dut delayers).
Context (d : @drv mem) (compare : lval -> mem -> mem * res lval) (mi : list (@minfo mem)) (func : prog) (K : res lval -> prog).

(** The hook registered as [e] has returned, once. *)
Definition returned_once (s : state) (e : id) : Prop := In e (ran s) /\ NoDup (ran s).
(** In [s2] the call has its result [v] and creates the task of the dut-first hooks; the caller goes on with [v] in the next state, which leads to [s']. *)
Definition handed_over (h2 : list hook) (s s2 s' : state) (t : id) (v : lval) : Prop :=
  steps s s2 /\ (exists k, runs s2 t (Op (OCreate (background d compare h2 v)) k)) /\ exists fire, runs (step fire s2) t (K (Ok v)) /\ steps (step fire s2) s'.
(** Task [t], which called the driver in [s], has got so far that the results are about to be compared with [v], in [s4], by the task [i]: the method was
    started in [s1], after the hooks [h1] had returned; in [s2] it has returned [v]; the hooks [h2] have returned since then. *)
Record compares (s : state) (t : id) (h1 h2 : list hook) (s1 s2 s3 s4 : state) (i : id) (v : lval) (es1 es2 : list id) : Prop := {
  cp_method : steps s s1 /\ runs s1 t (bindr func (after_body d compare h2 K));
  cp_result : handed_over h2 s1 s2 s4 t v /\ i = List.length (futs s2);
  cp_start : steps s2 s3 /\ steps s3 s4;
  cp_compare : runs s4 i (conclude_call d compare v);
  cp_first : Forall2 (hook_ran s s1 t (priority (d_prio d (mm s)))) h1 es1;
  cp_later : Forall2 (hook_ran s3 s4 i (priority (d_prio d (mm s3)))) h2 es2;
  cp_distinct : NoDup (es1 ++ es2);
  cp_before : forall e, In e es1 -> In e (ran s1);
  cp_after : forall e, In e es2 -> ~ In e (ran s2);
  cp_once : forall e, In e (es1 ++ es2) -> returned_once s4 e }.

(** The task [i] of the dut-first hooks, created in [s2], in [s']: it has not started, is registering hooks or waits for them. *)
Inductive busy (h2 : list hook) (v : lval) (s2 s' : state) (i : id) : Prop :=
| by_new k : unfinished s' i -> (forall b, cur s' <> Some (i, b)) -> tget s' i = Some k -> k_cont k = start (BProg (background d compare h2 v)) -> k_wait k = None -> busy h2 v s2 s' i
| by_register q k kx : runs s' i q -> registering d k kx q -> busy h2 v s2 s' i
| by_wait s3 es k : steps s2 s3 -> steps s3 s' -> gathering s3 s' i (map event_wait es) k -> busy h2 v s2 s' i.
(** What the call made in [s] by [t] is doing in [s'] when it has not handed over to that task. *)
Inductive under_way (h2 : list hook) (s s' : state) (t : id) : Prop :=
| uw_prepare q : runs s' t q -> preparing d (then_body d compare func K) (fun e => K (Exn e)) q -> under_way h2 s s' t
| uw_first s2 es k : steps s s2 -> steps s2 s' -> gathering s2 s' t (map event_wait es) k -> under_way h2 s s' t
| uw_method : awaiting s' t (after_body d compare h2 K) -> under_way h2 s s' t
| uw_create v k : runs s' t (Op (OCreate (background d compare h2 v)) k) -> under_way h2 s s' t.
End Spec.
