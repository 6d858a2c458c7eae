(** What bind leaves behind when it raises (toffee/bundle.py:681-715, 1235-1402): the functions of Bundle_Model.v once more, with the tree and the pins also in the case of an
    exception.  Simplifications as there. *)
From Coq Require Import List String Bool Arith.
From Verif Require Import Py Bundle_Model.
Import ListNotations.
Open Scope string_scope.

(** bundle.py:1235-1275 [__detect_missing_signals]: the rule is looked up (and may raise) before the signal becomes a dummy. *)
Fixpoint missing_x (acc : bool) (stack : list bundle) (conn : list string) (ls : list leaf) : list leaf * res unit :=
  match ls with
  | [] => ([], Ok tt)
  | l :: t =>
      if smem (l_name l) conn then let (t1, r) := missing_x acc stack conn t in (l :: t1, r)
      else match rule_string stack (l_name l) with
           | Exn x => (l :: t, Exn x)
           | Ok _ => let (t1, r) := missing_x acc stack conn t in ((if acc then mk_leaf (l_id l) (l_name l) (l_decl l) SDummy else l) :: t1, r)
           end
  end.

(** bundle.py:1303-1402 [__bind_from_signal_list], not in detection mode: the signals of the level are connected first (1332-1334), then looked through (1336-1339), then the
    children follow one after another (1374-1399). *)
Fixpoint bind_bx (acc : bool) (stack : list bundle) (b : bundle) (es : list entry) (st : store) : bundle * store * res (list entry) :=
  match b with
  | B nm m ls sls ks bls ck =>
      let stack1 := (stack ++ [b])%list in
      let h := bind_here m es ls ck st in
      match missing_x acc stack1 (h_conn h) (h_ls h) with
      | (ls1, Exn x) => (B nm m ls1 sls ks bls (h_ck h), h_st h, Exn x)
      | (ls1, Ok _) =>
          let '(ks1, st1, ck1, r) := (fix go (ks : list (seg * bundle)) es st ck := match ks with
             | [] => ([], st, ck, Ok es)
             | (s, c) :: t =>
                 match bind_bx acc stack1 c es st with
                 | (c1, st1, Exn x) => ((s, c1) :: t, st1, ck, Exn x)
                 | (c1, st1, Ok es1) => let '(t1, st2, ck2, r) := go t es1 st1 (next_clk s (b_clk c1) ck) in ((s, c1) :: t1, st2, ck2, r)
                 end
             end) ks (h_match h) (h_st h) (h_ck h) in
          (B nm m ls1 sls ks1 bls ck1, st1, match r with Ok rest => Ok (revert rest es ++ h_rest h)%list | Exn x => Exn x end)
      end
  end.

(** bundle.py:1292-1301 [__unbind_all], 1277-1290 [__remove_signal_attr] *)
Fixpoint remove_attrs_x (ls : list leaf) (st : store) : list leaf * store * res unit :=
  match ls with
  | [] => ([], st, Ok tt)
  | l :: t =>
      match (match l_id l with LSig _ => remove_attr l st | LEl _ _ => Ok (l, st) end) with
      | Exn x => (l :: t, st, Exn x)
      | Ok (l1, st1) => let '(t1, st2, r) := remove_attrs_x t st1 in (l1 :: t1, st2, r)
      end
  end.
Fixpoint unbind_bx (b : bundle) (st : store) : bundle * store * res unit :=
  match b with
  | B nm m ls sls ks bls ck =>
      match remove_attrs_x ls st with
      | (ls1, st1, Exn x) => (B nm m ls1 sls ks bls ck, st1, Exn x)
      | (ls1, st1, Ok _) =>
          let '(ks1, st2, r) := (fix go (ks : list (seg * bundle)) st := match ks with
             | [] => ([], st, Ok tt)
             | (s, c) :: t =>
                 match (match s with PSub _ => unbind_bx c st | PElem _ _ => (c, st, Ok tt) end) with
                 | (c1, st1, Exn x) => ((s, c1) :: t, st1, Exn x)
                 | (c1, st1, Ok _) => let '(t1, st2, r) := go t st1 in ((s, c1) :: t1, st2, r)
                 end
             end) ks st1 in
          (B nm m ls1 sls ks1 bls ck, st2, r)
      end
  end.

(** bundle.py:681-715 [bind]: [bound] is assigned, the write mode applied and the callback registered only at the end. *)
Definition bind_x (acc : bool) (t : top) (d : dut) (st : store) : top * store * res unit :=
  let '(b0, st0, r0) := if t_bound t then unbind_bx (t_b t) st else (name_kids (t_b t), st, Ok tt) in
  match r0 with
  | Exn x => (mk_top b0 (t_bound t) (t_mode t) (t_regs t), st0, Exn x)
  | Ok _ =>
      match bind_bx acc [] b0 (entries d) st0 with
      | (b1, st1, Exn x) => (mk_top b1 (t_bound t) (t_mode t) (t_regs t), st1, Exn x)
      | (b1, st1, Ok _) => (mk_top b1 true (t_mode t) (t_regs t ++ [d_id d])%list, match t_mode t with Some w => set_modes b1 w st1 | None => st1 end, Ok tt)
      end
  end.
