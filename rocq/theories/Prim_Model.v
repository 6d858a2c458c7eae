(** toffee.sleep with a positive delay. *)
From Coq Require Import List Bool Arith ZArith.
From Verif Require Import Py Prio_Model Loop_Model LoopProg_Model.
Import ListNotations.
Open Scope nat_scope.

Section Model.
Context {mem : Type}.
(** asynchronous.py:146-152 sleep(delay) for delay > 0: asyncio.sleep makes a future that a timer of the loop settles and awaits it.  Simplified: the delay is not in the
    model; when the timer expires is left open (the argument [fire] of [step]). *)
Definition sleep_for : @prog mem := Op OTimer (thenv (fun v => match v with VId i => Let (OAwait i) (fun _ => Let (OFlag true) (fun _ => Ret VNone)) | _ => Raise TypeError end)).
End Model.
