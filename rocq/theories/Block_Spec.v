(** The calls made in the body of an executor block. *)
From Coq Require Import List String Bool Arith ZArith.
From Verif Require Import Py Prio_Model Loop_Model Loop_Spec Loop2_Spec Bind_Spec Drv_Model Exec_Model Exec_Spec Block_Model.
Import ListNotations.
Open Scope nat_scope.

Section Spec.
Context {mem : Type}.
Notation request := (@request mem). Notation block := (@block mem). Notation coros := (@coros mem).

(** What a call of [exec] gives to the body. *)
Definition answer (r : request) : res unit := if accepted r then Ok tt else Exn AssertionError.
(** The body [b] has come to [b'], having made the calls [rs]. *)
Inductive trail : block -> list request -> block -> Prop :=
| trail_here b : trail b [] b
| trail_call c p o g k rs b : trail (k (answer (mk_request c p o g))) rs b -> trail (Calls c p o g k) (mk_request c p o g :: rs) b
| trail_op o k x rs b : trail (k x) rs b -> trail (Does o k) rs b.
(** The body is at its end. *)
Definition ended (b : block) : option (res lval) := match b with Done => Some (Ok VNone) | Fails x => Some (Exn x) | _ => None end.
(** The groups after the calls [rs]. *)
Definition grouped (rs : list request) : coros := map (fun k => (k, group_of k rs)) (firsts (map key_of rs)).
(** Whatever the body gives to [exec] can be awaited. *)
Definition gives_coroutines (b : block) : Prop := forall rs b' r, trail b rs b' -> In r rs -> awaitable (r_coro r).
End Spec.
