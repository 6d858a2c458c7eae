(** What an executor is to do: which group a call belongs to, one coroutine after the other, and the dictionary of results. *)
From Coq Require Import List String Bool Arith ZArith.
From Verif Require Import Py Prio_Model Loop_Model Loop_Spec Loop2_Spec Bind_Spec Drv_Model Exec_Model.
Import ListNotations.
Open Scope nat_scope.

Section Spec.
Context {mem : Type}.
Notation prog := (@prog mem). Notation state := (@state mem). Notation coro := (@coro mem). Notation added := (@added mem).

(** One call [exec(coro, priority, sche_order, sche_group)]. *)
Record request := mk_request { r_coro : coro; r_prio : option Z; r_order : option string; r_group : option string }.
(** Its group: the one named, otherwise "agent.method" for a driver call and the name of the coroutine for others. *)
Definition key_of (r : request) : string :=
  match r_group r, c_drv (r_coro r) with
  | Some g, _ => g
  | None, Some (agent, _) => agent ++ "." ++ c_name (r_coro r)
  | None, None => c_name (r_coro r)
  end%string.
(** It is accepted unless it gives a priority outside 0..99, or gives a priority or an order although it is not a driver call. *)
Definition accepted (r : request) : bool :=
  match r_prio r with Some z => (0 <=? z)%Z && (z <=? 99)%Z | None => true end &&
  match r_prio r, r_order r, c_drv (r_coro r) with None, None, _ => true | _, _, Some _ => true | _, _, None => false end.
(** What is recorded: "parallel" means "model_first". *)
Definition recorded (r : request) : added :=
  mk_added (r_coro r) (match r_order r with Some o => Some (if String.eqb o "parallel" then "model_first" else o)%string | None => None end) (r_prio r).
(** Names in the order of their first occurrence. *)
Fixpoint firsts (l : list string) : list string := match l with [] => [] | x :: t => x :: filter (fun y => negb (String.eqb x y)) (firsts t) end.
(** The group [k] after several calls: those accepted for it, in order. *)
Definition group_of (k : string) (rs : list request) : list added := map recorded (filter (fun r => String.eqb (key_of r) k && accepted r) rs).

(** What the order given to [exec] means for a driver: "model_first" and "dut_first" settle it, anything else leaves it to the hooks. *)
Definition means (x : option string) (o : option bool) : Prop := (o = Some true <-> x = Some "model_first"%string) /\ (o = Some false <-> x = Some "dut_first"%string).
(** What a group reports: the result if the group has a single coroutine, otherwise the list. *)
Definition report (vs : list lval) : lval := match vs with [v] => v | _ => VList vs end.

Context (shuffle : list id -> list id) (dut delayers : mem -> mem).
Notation steps := (steps shuffle dut delayers). Notation along := (along shuffle dut delayers).

(** The coroutine [a] is next in [s], and awaited from [s0] on: if it has a driver, the attributes of the driver are assigned in between. *)
Definition begins_coro (a : added) (s s0 : state) : Prop :=
  match c_drv (a_coro a) with Some _ => exists fire, s0 = step shuffle dut delayers fire s | None => s0 = s end.
(** From [s] to [s'] task [t] executes the coroutines [l] one after the other, and they return [vs]: in [s0] it begins to await the coroutine (having assigned
    the attributes of its driver, if it has one), it has not left it before [s1], and there the coroutine returns to [K], which goes on with the next. *)
Inductive in_turn (t : id) : list added -> list lval -> state -> state -> Prop :=
| turn_end s : in_turn t [] [] s s
| turn_next a l v vs K s s0 s1 s2 :
    begins_coro a s s0 ->
    runs s0 t (c_await (a_coro a) K) -> along (fun x => awaiting x t K) s0 s1 -> runs s1 t (K (Ok v)) ->
    in_turn t l vs s1 s2 -> in_turn t (a :: l) (v :: vs) s s2.
(** Task [t] is in the coroutine [a], which it began to await in [s0]. *)
Definition in_coro (t : id) (a : added) (s0 s : state) : Prop :=
  exists K, runs s0 t (c_await (a_coro a) K) /\ along (fun x => awaiting x t K) s0 s /\ awaiting s t K.
(** It raised [e] in [s]. *)
Definition coro_raised (t : id) (a : added) (e : exn) (s0 s : state) : Prop :=
  exists K, runs s0 t (c_await (a_coro a) K) /\ along (fun x => awaiting x t K) s0 s /\ runs s t (K (Exn e)).
(** Task [i] has executed the coroutines of a group. *)
Definition group_ran (s s1 : state) (g : string * list added) (i : id) (vs : list lval) : Prop := exists x y, steps s x /\ in_turn i (snd g) vs x y /\ steps y s1.
(** Awaiting a coroutine comes to an end only by giving its outcome to whoever awaits it. *)
Definition awaitable (c : coro) : Prop := forall K, upto any K (c_await c K).
(** The same, and the coroutine does not touch the event [e]. *)
Definition leaves (e : id) (c : coro) : Prop := forall K, upto (fun o => o <> OEvSet e) K (c_await c K).
End Spec.
