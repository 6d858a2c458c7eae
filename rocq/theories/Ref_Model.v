(** A reference model that reads its ports in a loop: the [main] of a [Model] (toffee/model.py:317-380, docs/source/env/ref_model.md:38-46,
    example/adder/env/refmodel.py:22-41). *)
From Coq Require Import List Bool Arith ZArith.
From Verif Require Import Py Prio_Model Loop_Model.
Import ListNotations.
Open Scope nat_scope.

Section Ref.
Context {mem : Type}.
Notation prog := (@prog mem).
(** The ports [main] reads in every round, in this order (at least one), and what it does with the values. *)
Context (q0 : id) (more : list id) (handle : list lval -> prog).
Definition ports : list id := q0 :: more.
(** Where [main] is: it still has to read [todo], having read the values [got]; or it processes them and [p] is left to do. *)
Inductive spot := Reading (todo : list id) (got : list lval) | Handling (p : prog).
(** [while True]: after the last port the values are processed, and after that the first port is read again. *)
Definition settled (x : spot) : spot :=
  match x with
  | Reading [] got => match handle got with Ret _ => Reading ports [] | p => Handling p end
  | Handling (Ret _) => Reading ports []
  | _ => x
  end.
(** refmodel.py:28-31 [await port()]: model.py:244-245, 268-269, 313-314 [Port.__call__], asynchronous.py:140-143 [Queue.get]. *)
CoFixpoint serve (x : spot) : prog :=
  match settled x with
  | Reading [] _ => Ret VNone                                     (* not possible: see [settled] *)
  | Reading (q :: todo) got => Op (OQGet q) (fun r => match r with Ok v => Op (OFlag true) (fun _ => serve (Reading todo (got ++ [v]))) | Exn e => Raise e end)
  | Handling (Ret v) => Ret v                                     (* not possible: see [settled] *)
  | Handling (Raise e) => Raise e
  | Handling (Op o k) => Op o (fun r => serve (Handling (k r)))
  end.
Definition ref_main : prog := serve (Reading ports []).
End Ref.
