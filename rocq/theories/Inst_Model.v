(** Model of the creation of Bundle instances (toffee/bundle.py:388-423, 68-92, 110-116, 119-133, 148-154): which objects are shared.

    Left out: names of attributes (a bundle's parts are given by their position), rules and everything else that is not an object
    with signals in it. *)
From Coq Require Import List Bool Arith ZArith.
Import ListNotations.

(** What an attribute holding a signal contains: nothing, a placeholder (58: class-level Signal objects ignore what is assigned to
    them, 48-52), a pin. *)
Inductive slot := SAbsent | SHolder | SPin (p : nat).
(** The objects: a Bundle with its own signals and references to sub-bundles, signal lists and bundle lists; a SignalList; a
    BundleList. *)
Inductive obj := OBun (sigs : list slot) (subs sls bls : list nat) | OSig (els : list slot) | OLst (els : list nat).
Definition heap := list obj.
(** A Bundle class: its own signals (as they are after [__init__]), the classes of its class-level sub-bundles, its class-level
    signal lists and bundle lists. *)
Inductive cls := Cls (sigs : list slot) (subs : list cls) (sls bls : list nat).

Definition alloc (h : heap) (o : obj) : heap * nat := (h ++ [o], List.length h).
(** 110-116 [from_signallist]: a new list with the same elements. *)
Definition from_signallist (h : heap) (a : nat) : heap * nat :=
  match nth_error h a with Some (OSig els) => alloc h (OSig els) | _ => alloc h (OSig []) end.
(** 148-154 [from_bundlelist]: a new list with the same elements, so with the same Bundle objects.  Left out: the bundle that
    the constructor creates (149) and 153 drops. *)
Definition from_bundlelist (h : heap) (a : nat) : heap * nat :=
  match nth_error h a with Some (OLst els) => alloc h (OLst els) | _ => alloc h (OLst []) end.
Fixpoint each (f : heap -> nat -> heap * nat) (h : heap) (l : list nat) : heap * list nat :=
  match l with [] => (h, []) | a :: t => let (h1, b) := f h a in let (h2, r) := each f h1 t in (h2, b :: r) end.
(** 388-423 [Bundle.__init__].  Simplified: the object itself is allocated after its parts. *)
Fixpoint init (c : cls) (h : heap) : heap * nat :=
  match c with
  | Cls sigs subs sls bls =>
      let fix all (l : list cls) (h : heap) : heap * list nat := match l with [] => (h, []) | x :: t => let (h1, b) := init x h in let (h2, r) := all t h1 in (h2, b :: r) end in
      let (h1, subs') := all subs h in
      let (h2, sls') := each from_signallist h1 sls in
      let (h3, bls') := each from_bundlelist h2 bls in
      alloc h3 (OBun sigs subs' sls' bls')
  end.
(** 120-133 [BundleList.__init__]: [n] new instances of the class. *)
Fixpoint inits (n : nat) (c : cls) (h : heap) : heap * list nat :=
  match n with 0 => (h, []) | S m => let (h1, b) := init c h in let (h2, r) := inits m c h1 in (h2, b :: r) end.
Definition new_bundlelist (c : cls) (n : nat) (h : heap) : heap * nat := let (h1, r) := inits n c h in alloc h1 (OLst r).

(** What is seen through a bundle: the signals on all levels. *)
Inductive tree := T (sigs : list slot) (subs : list tree) (sls : list (list slot)) (bls : list (list tree)).
(** Objects refer to objects with smaller addresses only; [n] bounds the depth. *)
Fixpoint view (n : nat) (h : heap) (a : nat) : tree :=
  match n with
  | 0 => T [] [] [] []
  | S n' =>
      match nth_error h a with
      | Some (OBun sigs subs sls bls) =>
          T sigs (map (view n' h) subs) (map (fun x => match nth_error h x with Some (OSig els) => els | _ => [] end) sls)
            (map (fun x => match nth_error h x with Some (OLst els) => map (view n' h) els | _ => [] end) bls)
      | _ => T [] [] [] []
      end
  end.
Definition look (h : heap) (a : nat) : tree := view (S a) h a.

Definition put (h : heap) (a : nat) (o : obj) : heap := firstn a h ++ match skipn a h with _ :: t => o :: t | [] => [] end.
(** A place in a bundle: sub-bundle number, or number of the bundle list and of the element. *)
Inductive seg := Sub (i : nat) | Elem (i j : nat).
Definition number {A} (l : list A) : list (nat * A) := combine (seq 0 (List.length l)) l.
(** Binding (681-715, 1303-1402): replaces the contents of signal attributes and of elements of signal lists, on all levels.  What
    goes where is arbitrary here (see Bundle_Model.v for it): [g p None l] replaces the signals [l] of the bundle at [p],
    [g p (Some i) l] the elements [l] of its [i]-th signal list. *)
Fixpoint fill (n : nat) (g : list seg -> option nat -> list slot -> list slot) (p : list seg) (h : heap) (a : nat) : heap :=
  match n with
  | 0 => h
  | S n' =>
      match nth_error h a with
      | Some (OBun sigs subs sls bls) =>
          let h1 := put h a (OBun (g p None sigs) subs sls bls) in
          let h2 := fold_left (fun h x => match nth_error h (snd x) with Some (OSig els) => put h (snd x) (OSig (g p (Some (fst x)) els)) | _ => h end) (number sls) h1 in
          let h3 := fold_left (fun h x => fill n' g (p ++ [Sub (fst x)]) h (snd x)) (number subs) h2 in
          fold_left (fun h x => match nth_error h (snd x) with
                                | Some (OLst els) => fold_left (fun h y => fill n' g (p ++ [Elem (fst x) (fst y)]) h (snd y)) (number els) h
                                | _ => h
                                end) (number bls) h3
      | _ => h
      end
  end.
Fixpoint pins (t : tree) : list nat :=
  match t with
  | T sigs subs sls bls =>
      let of := flat_map (fun s => match s with SPin p => [p] | _ => [] end) in
      of sigs ++ flat_map of sls ++ flat_map pins subs ++ flat_map (fun l => flat_map pins l) bls
  end.
(** What a user does: create an instance; bind (or unbind) the [k]-th instance, in a way that may depend on what is seen through
    it; write values through it. *)
Inductive act := New (c : cls) | Bind (k : nat) (g : tree -> list seg -> option nat -> list slot -> list slot) | Drive (k : nat) (v : tree -> nat -> Z).
Record state := mk_state { hp : heap; insts : list nat; values : nat -> Z }.
Definition do (s : state) (x : act) : state :=
  match x with
  | New c => let (h, a) := init c (hp s) in mk_state h (insts s ++ [a]) (values s)
  | Bind k g => match nth_error (insts s) k with Some a => mk_state (fill (S a) (g (look (hp s) a)) [] (hp s) a) (insts s) (values s) | None => s end
  | Drive k v =>
      match nth_error (insts s) k with
      | Some a => let t := look (hp s) a in mk_state (hp s) (insts s) (fun p => if existsb (Nat.eqb p) (pins t) then v t p else values s p)
      | None => s
      end
  end.
Definition doall (s : state) (l : list act) : state := fold_left do l s.
(** The signals seen through the [k]-th instance, and the values on its pins. *)
Definition seen (s : state) (k : nat) : option (tree * list Z) :=
  match nth_error (insts s) k with Some a => let t := look (hp s) a in Some (t, map (values s) (pins t)) | None => None end.
