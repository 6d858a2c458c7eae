(** Specification vocabulary for bundles: places of signals, which names a place accepts, who owns a pin. *)
From Coq Require Import List String Ascii Bool Arith ZArith.
From Verif Require Import Py Bundle_Model.
Import ListNotations.
Open Scope string_scope.

(** The place of a signal in a tree: the way down, then the signal. *)
Definition place : Type := list seg * leafid.

Definition seg_eq_dec : forall x y : seg, {x = y} + {x <> y}.
Proof. decide equality; (apply string_dec || apply Nat.eq_dec). Defined.
Definition leafid_eq_dec : forall x y : leafid, {x = y} + {x <> y}.
Proof. decide equality; (apply string_dec || apply Nat.eq_dec). Defined.

Fixpoint kid (ks : list (seg * bundle)) (s : seg) : option bundle :=
  match ks with [] => None | (s', c) :: t => if seg_eq_dec s s' then Some c else kid t s end.
Fixpoint sub_at (b : bundle) (p : list seg) : option bundle :=
  match p with
  | [] => Some b
  | s :: t => match kid (b_kids b) s with Some c => sub_at c t | None => None end
  end.
Fixpoint leaf_in (ls : list leaf) (l : leafid) : option leaf :=
  match ls with [] => None | x :: t => if leafid_eq_dec l (l_id x) then Some x else leaf_in t l end.
Definition leaf_at (b : bundle) (pl : place) : option leaf :=
  match sub_at b (fst pl) with Some c => leaf_in (b_leaves c) (snd pl) | None => None end.
(** What the signal at a place holds; None: there is no such signal. *)
Definition slot_at (b : bundle) (pl : place) : option slot := option_map l_slot (leaf_at b pl).

(** What the rules say. prefix: the name is the prefix followed by the rest; regex: whatever the regular expression yields;
    dict: an entry (new name, name), the first if there are several for the name. *)
Definition renames (m : method) (s n : string) : Prop :=
  match m with
  | MPrefix p => s = p ++ n
  | MRegex _ f => f s = Some n
  | MDict d => exists d1 d2, d = (d1 ++ (n, s) :: d2)%list /\ forall k, ~ In (k, s) d1
  end.

(** The name [s] is renamed by the rules along the way to the name of the signal at the place. *)
Fixpoint accepts (b : bundle) (p : list seg) (l : leafid) (s : string) : Prop :=
  exists n, renames (b_meth b) s n /\
    match p with
    | [] => exists x, leaf_in (b_leaves b) l = Some x /\ l_name x = n
    | sg :: t => match kid (b_kids b) sg with Some c => accepts c t l n | None => False end
    end.

(** All places, in the order signals, signal lists, sub-bundles, bundle lists. *)
Fixpoint places (b : bundle) : list place :=
  match b with
  | B _ _ ls _ ks _ _ =>
      map (fun x => ([], l_id x)) ls ++
      (fix go (ks : list (seg * bundle)) := match ks with
       | [] => []
       | (s, c) :: t => map (fun pl => (s :: fst pl, snd pl)) (places c) ++ go t
       end) ks
  end%list.

(** The place that a pin called [s] goes to: the first that accepts the name. *)
Definition goes_to (b : bundle) (s : string) (pl : place) : Prop :=
  exists l1 l2, places b = (l1 ++ pl :: l2)%list /\ accepts b (fst pl) (snd pl) s /\
    forall q, In q l1 -> ~ accepts b (fst q) (snd q) s.

(** On every level the signals, the names they accept and the children are distinct. *)
Inductive wf : bundle -> Prop :=
| wf_B nm m ls sls ks bls ck :
    NoDup (map l_id ls) -> NoDup (map l_name ls) -> NoDup (map fst ks) ->
    (forall s c, In (s, c) ks -> wf c) -> wf (B nm m ls sls ks bls ck).

(** A bundle as created: nothing connected (bundle.py:388-423). *)
Inductive unbound : bundle -> Prop :=
| unbound_B nm m ls sls ks bls :
    (forall l, In l ls -> l_slot l = if l_decl l then SPlaceholder else SAbsent) ->
    (forall s c, In (s, c) ks -> unbound c) -> unbound (B nm m ls sls ks bls None).

(** A DUT has distinct names (they are attributes of one object); its pins are distinct objects. *)
Definition dut_ok (d : dut) : Prop := NoDup (map fst (d_pins d)) /\ NoDup (map snd (d_pins d)).

(** Number of bundles connected to a pin, as users see it. *)
Definition nconn (st : store) (i : nat) : nat := match p_nconn (st i) with Some n => n | None => 0 end.

(** Two stores agree on everything but the numbers of connections. *)
Definition same_pin (p q : pin) : Prop :=
  p_val p = p_val q /\ p_out p = p_out q /\ p_width p = p_width q /\ p_mode p = p_mode q /\ p_clk p = p_clk q.

(** In no dict rule of the tree a key is also a value. *)
Inductive plain_dicts : bundle -> Prop :=
| plain_dicts_B nm m ls sls ks bls ck :
    (forall d, m = MDict d -> forall k v k' v', In (k, v) d -> In (k', v') d -> k <> v') ->
    (forall s c, In (s, c) ks -> plain_dicts c) -> plain_dicts (B nm m ls sls ks bls ck).
(** Only prefix rules. *)
Inductive prefix_only : bundle -> Prop :=
| prefix_only_B nm p ls sls ks bls ck :
    (forall s c, In (s, c) ks -> prefix_only c) -> prefix_only (B nm (MPrefix p) ls sls ks bls ck).
(** Neither signal lists nor bundle lists. *)
Inductive no_lists : bundle -> Prop :=
| no_lists_B nm m ls ks ck :
    (forall l, In l ls -> exists n, l_id l = LSig n) -> (forall s c, In (s, c) ks -> exists n, s = PSub n) ->
    (forall s c, In (s, c) ks -> no_lists c) -> no_lists (B nm m ls [] ks [] ck).

(** A bundle that has been created and not yet bound. *)
Definition created (t : top) : Prop := t_bound t = false /\ unbound (t_b t) /\ wf (t_b t).

(** No two pins of the DUT go to the same signal. *)
Definition one_pin_each (b : bundle) (d : dut) : Prop :=
  forall s1 i1 s2 i2 pl, In (s1, i1) (d_pins d) -> In (s2, i2) (d_pins d) ->
    goes_to b s1 pl -> goes_to b s2 pl -> s1 = s2.

(** Bind several bundles to one DUT, one after the other. *)
Fixpoint bind_all (l : list (bool * top)) (d : dut) (st : store) : res (list top * store) :=
  match l with
  | [] => Ok ([], st)
  | (acc, t) :: r =>
      match bind acc t d st with
      | Exn x => Exn x
      | Ok (t1, st1) => match bind_all r d st1 with Exn x => Exn x | Ok (r1, st2) => Ok (t1 :: r1, st2) end
      end
  end.

(** Places not below a bundle list. *)
Definition off_lists (p : list seg) : Prop := forall s, In s p -> exists n, s = PSub n.

(** The dotted text of a place. *)
Fixpoint dotted (p : list seg) (l : leafid) : string :=
  match p with [] => leaf_label l | s :: t => seg_label s ++ "." ++ dotted t l end.
Definition under (level s : string) : string := if String.eqb level "" then s else level ++ "." ++ s.

(** Attribute names: not empty, without the characters that separate path components. *)
Fixpoint no_char (c : Ascii.ascii) (s : string) : Prop :=
  match s with EmptyString => True | String a t => a <> c /\ no_char c t end.
Definition ident (n : string) : Prop := n <> "" /\ no_char "."%char n /\ no_char "["%char n.
Definition seg_ok (s : seg) : Prop := match s with PSub n | PElem n _ => ident n end.
Definition leafid_ok (l : leafid) : Prop := match l with LSig n | LEl n _ => ident n end.
Inductive idents : bundle -> Prop :=
| idents_B nm m ls sls ks bls ck :
    (forall l, In l ls -> leafid_ok (l_id l)) -> (forall s c, In (s, c) ks -> seg_ok s /\ idents c) ->
    idents (B nm m ls sls ks bls ck).

(** The text a prefix-only tree demands for a place: all prefixes on the way and the signal's name. *)
Fixpoint full_name (b : bundle) (p : list seg) (l : leafid) : option string :=
  match b_meth b with
  | MPrefix pre =>
      option_map (fun r => pre ++ r)
        match p with
        | [] => option_map l_name (leaf_in (b_leaves b) l)
        | s :: t => match kid (b_kids b) s with Some c => full_name c t l | None => None end
        end
  | _ => None
  end.
