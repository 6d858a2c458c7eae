(** Model of Bundle trees, binding and connection bookkeeping (toffee/bundle.py).

    A bundle is given flattened per level: its leaves are its own signals (in the order of
    current_level_signals) followed by the elements of its signal lists (in dir() order), its children are its
    sub-bundles (in dir() order) followed by the elements of its bundle lists (in dir() order); element [i] of
    list [n] is the leaf [LEl n i] or the child [PElem n i].  Simplifications: attribute names of one level are
    distinct, so setattr never replaces an attribute of another kind; pins are numbers into a store, a pin (XPin)
    and its xdata are one object, so that attributes of xdata can be read through the pin; the texts of infos,
    warnings and errors are left out, but what is computed for them is kept where it can raise; when bind raises, the half
    bound tree is not described. *)
From Coq Require Import List String Ascii Bool Arith ZArith Decimal DecimalString.
From Verif Require Import Py.
Import ListNotations.
Open Scope string_scope.

(** What an attribute holding a signal contains: nothing, the class-level Signal() object (58), a DummySignal (24-34), a
    pin of a DUT. *)
Inductive slot := SAbsent | SPlaceholder | SDummy | SPin (i : nat).

(** The place of a signal in its bundle, and of a child in its parent. *)
Inductive leafid := LSig (n : string) | LEl (n : string) (i : nat).
Inductive seg := PSub (n : string) | PElem (n : string) (i : nat).

(** A signal: [l_name] is the name a pin must have to be connected here (the signal's own name, or
    SignalList.names[i], 74-78); [l_decl] tells whether the class declares it as Signal() (1081-1083) or only names it
    in `signals` (1079). *)
Record leaf := mk_leaf { l_id : leafid; l_name : string; l_decl : bool; l_slot : slot }.

(** bundle.py:206-378: the connection rules.  For a regex only re.search and the joined groups (280-283) matter: [f s] is
    None if there is no match and the joined groups otherwise; [raw] is its text. *)
Inductive method := MPrefix (p : string) | MRegex (raw : string) (f : string -> option string) | MDict (d : dict string).

(** bundle.py:381-423: name, rule, signals, names of the signal lists, children, names of the bundle lists, clock event. *)
Inductive bundle :=
| B (nm : string) (m : method) (ls : list leaf) (sls : list string) (ks : list (seg * bundle)) (bls : list string)
    (ck : option nat).

Definition b_name (b : bundle) := let (nm, _, _, _, _, _, _) := b in nm.
Definition b_meth (b : bundle) := let (_, m, _, _, _, _, _) := b in m.
Definition b_leaves (b : bundle) := let (_, _, ls, _, _, _, _) := b in ls.
Definition b_slists (b : bundle) := let (_, _, _, sls, _, _, _) := b in sls.
Definition b_kids (b : bundle) := let (_, _, _, _, ks, _, _) := b in ks.
Definition b_blists (b : bundle) := let (_, _, _, _, _, bls, _) := b in bls.
Definition b_clk (b : bundle) := let (_, _, _, _, _, _, ck) := b in ck.

(** bundle.py:37-44 *)
Inductive wmode := Imme | Rise | Fall.

(** A pin: value, IsOutIO(), W(), number_of_bundles_connected_to if present, write mode, clock event. *)
Record pin := mk_pin { p_val : Z; p_out : bool; p_width : nat; p_nconn : option nat; p_mode : wmode; p_clk : nat }.
Definition store := nat -> pin.
Definition upd (st : store) (i : nat) (p : pin) : store := fun j => if Nat.eqb j i then p else st j.
Definition set_nconn (p : pin) (o : option nat) : pin :=
  mk_pin (p_val p) (p_out p) (p_width p) o (p_mode p) (p_clk p).

(** A DUT: its pins in dir() order with their names (1531-1546), and a number for the object. *)
Record dut := mk_dut { d_id : nat; d_pins : list (string * nat) }.

(** The dictionaries {"name", "org_name", "signal"} that binding passes around. *)
Record entry := mk_entry { e_name : string; e_org : string; e_pin : nat }.

(** name.startswith(p) and name[len(p):] (222-223) *)
Fixpoint strip (p s : string) : option string :=
  match p, s with
  | EmptyString, _ => Some s
  | String a p', String b s' => if Ascii.eqb a b then strip p' s' else None
  | String _ _, EmptyString => None
  end.

(** bundle.py:339-340: the first key whose value is the name. *)
Fixpoint key_of (d : dict string) (v : string) : option string :=
  match d with
  | [] => None
  | (k, v') :: t => if String.eqb v v' then Some k else key_of t v
  end.

(** bundle.py:222-223, 280-283, 339-340: does the rule match, and the name it yields. *)
Definition translate (m : method) (s : string) : option string :=
  match m with
  | MPrefix p => strip p s
  | MRegex _ f => f s
  | MDict d => key_of d s
  end.

Definition has_leaf (ls : list leaf) (n : string) : bool := smem n (map l_name ls).

(** setattr(self, name, pin) (1141), signals[names.index(name)] = pin (87-88): the first leaf with this name. *)
Fixpoint set_slot (ls : list leaf) (n : string) (v : slot) : list leaf :=
  match ls with
  | [] => []
  | l :: t => if String.eqb n (l_name l) then mk_leaf (l_id l) (l_name l) (l_decl l) v :: t else l :: set_slot t n v
  end.

(** bundle.py:1145-1156 [__update_signal_info] *)
Definition count_up (st : store) (i : nat) : store :=
  upd st i (set_nconn (st i) (match p_nconn (st i) with Some n => Some (S n) | None => Some 1 end)).
Definition first_clk (ck : option nat) (st : store) (i : nat) : option nat :=
  match ck with Some _ => ck | None => Some (p_clk (st i)) end.

(** bundle.py:214-261, 272-320, 331-378: connect what is on this level.  The names connected, what matched only
    the rule (with its new name), what did not match; leaves, clock event and pins afterwards. *)
Record here := mk_here { h_conn : list string; h_match : list entry; h_rest : list entry;
                         h_ls : list leaf; h_ck : option nat; h_st : store }.
Fixpoint bind_here (m : method) (es : list entry) (ls : list leaf) (ck : option nat) (st : store) : here :=
  match es with
  | [] => mk_here [] [] [] ls ck st
  | e :: t =>
      match translate m (e_name e) with
      | Some n =>
          if has_leaf ls n then
            let h := bind_here m t (set_slot ls n (SPin (e_pin e))) (first_clk ck st (e_pin e)) (count_up st (e_pin e)) in
            mk_here (n :: h_conn h) (h_match h) (h_rest h) (h_ls h) (h_ck h) (h_st h)
          else
            let h := bind_here m t ls ck st in
            mk_here (h_conn h) (mk_entry n (e_org e) (e_pin e) :: h_match h) (h_rest h) (h_ls h) (h_ck h) (h_st h)
      | None =>
          let h := bind_here m t ls ck st in
          mk_here (h_conn h) (h_match h) (e :: h_rest h) (h_ls h) (h_ck h) (h_st h)
      end
  end.

(** The decimal text of a number. *)
Definition dec (n : nat) : string := NilEmpty.string_of_uint (Nat.to_uint n).

(** f"{name}[{idx}]" (1099-1114, 1366-1392) *)
Definition seg_label (s : seg) : string := match s with PSub n => n | PElem n i => n ++ "[" ++ dec i ++ "]" end.
Definition leaf_label (l : leafid) : string := match l with LSig n => n | LEl n i => n ++ "[" ++ dec i ++ "]" end.

(** bundle.py:1476-1492 [__appended_level_string] *)
Definition append_level (level s : string) : string :=
  if String.eqb level "" then s else level ++ "." ++ s.

(** bundle.py:954-960 with 1303-1402 in detection mode with a specific signal, for the list of zero or one entries that it is
    called with: the name that is left, if any.  Prefix rules report no connected names in this mode (225-249), the
    others do (294, 308, 352, 366) and then signal["name"] is applied to a string (1349-1352). *)
Fixpoint dspec (b : bundle) (level : string) (target : string) (o : option string) : res (option string) :=
  match b with
  | B _ m ls _ ks _ _ =>
      match o with
      | None => Ok None
      | Some n =>
          match translate m n with
          | Some n' =>
              if has_leaf ls n' then
                match m with MPrefix _ => Ok None | _ => Exn TypeError end
              else
                match (fix go ks o := match ks with
                                      | [] => Ok o
                                      | (s, c) :: t => match dspec c (append_level level (seg_label s)) target o with
                                                       | Ok o' => go t o'
                                                       | Exn e => Exn e
                                                       end
                                      end) ks (Some n') with
                | Ok None => Ok None
                | Ok (Some _) => Ok (Some n)
                | Exn e => Exn e
                end
          | None => if String.eqb (append_level level n) target then Ok None else Ok (Some n)
          end
      end
  end.

(** bundle.py:944-960 [detect_specific_connectivity] *)
Definition detect_specific (b : bundle) (name target : string) : res bool :=
  rbind (dspec b "" target (Some name)) (fun o => Ok (match o with None => true | Some _ => false end)).

(** bundle.py:1603-1619 [__filter_signals_in_dict], the values. *)
Fixpoint filter_dict (b : bundle) (d : dict string) (target : string) : res (list string) :=
  match d with
  | [] => Ok []
  | (k, v) :: t =>
      rbind (detect_specific b k target) (fun ok =>
      rbind (filter_dict b t target) (fun r => Ok (if ok then v :: r else r)))
  end.

(** "|".join *)
Fixpoint join_bar (l : list string) : string :=
  match l with [] => "" | [x] => x | x :: t => x ++ "|" ++ join_bar t end.

(** bundle.py:1583-1589 *)
Definition dict_string (vs : list string) : string :=
  match vs with
  | [] => "<No Matching Signal in Dict>"
  | [v] => v
  | _ => "(" ++ join_bar vs ++ ")"
  end.

(** bundle.py:1621-1641 [__get_path_from_rule_stack], for the bundles below the first. *)
Fixpoint stack_path (below : list bundle) (sg : string) : string :=
  match below with [] => sg | b :: t => b_name b ++ "." ++ stack_path t sg end.

(** bundle.py:1548-1601 [__get_rule_string] *)
Fixpoint rule_string (stack : list bundle) (sg : string) : res string :=
  match stack with
  | [] => Ok sg
  | b :: t =>
      match b_meth b with
      | MPrefix p => rbind (rule_string t sg) (fun r => Ok (p ++ r))
      | MRegex raw _ => rbind (rule_string t sg) (fun r => Ok (raw ++ " -> " ++ r))
      | MDict d => rbind (filter_dict b d (stack_path t sg)) (fun vs => Ok (dict_string vs))
      end
  end.

(** bundle.py:1235-1275 [__detect_missing_signals] *)
Fixpoint missing (acc : bool) (stack : list bundle) (conn : list string) (ls : list leaf) : res (list leaf) :=
  match ls with
  | [] => Ok []
  | l :: t =>
      if smem (l_name l) conn then rbind (missing acc stack conn t) (fun r => Ok (l :: r))
      else rbind (rule_string stack (l_name l)) (fun _ =>
           rbind (missing acc stack conn t) (fun r =>
           Ok ((if acc then mk_leaf (l_id l) (l_name l) (l_decl l) SDummy else l) :: r)))
  end.

(** bundle.py:1494-1509 [__revert_signal_name] *)
Definition revert_one (e : entry) (last : list entry) : entry :=
  fold_left (fun e l => if String.eqb (e_org e) (e_org l) then mk_entry (e_name l) (e_org e) (e_pin e) else e) last e.
Definition revert (es last : list entry) : list entry := map (fun e => revert_one e last) es.

(** bundle.py:1384-1385: only sub-bundles hand up their clock event. *)
Definition next_clk (s : seg) (kid ck : option nat) : option nat :=
  match s, kid with PSub _, Some _ => kid | _, _ => ck end.

(** bundle.py:1303-1402 [__bind_from_signal_list], not in detection mode. *)
Fixpoint bind_b (acc : bool) (stack : list bundle) (b : bundle) (es : list entry) (st : store)
  : res (bundle * store * list entry) :=
  match b with
  | B nm m ls sls ks bls ck =>
      let stack1 := (stack ++ [b])%list in
      let h := bind_here m es ls ck st in
      match missing acc stack1 (h_conn h) (h_ls h) with
      | Exn x => Exn x
      | Ok ls1 =>
          match (fix go (ks : list (seg * bundle)) es st ck := match ks with
                 | [] => Ok ([], st, es, ck)
                 | (s, c) :: t =>
                     match bind_b acc stack1 c es st with
                     | Exn x => Exn x
                     | Ok (c1, st1, es1) =>
                         match go t es1 st1 (next_clk s (b_clk c1) ck) with
                         | Exn x => Exn x
                         | Ok (t1, st2, es2, ck2) => Ok ((s, c1) :: t1, st2, es2, ck2)
                         end
                     end
                 end) ks (h_match h) (h_st h) (h_ck h) with
          | Exn x => Exn x
          | Ok (ks1, st1, rest, ck1) => Ok (B nm m ls1 sls ks1 bls ck1, st1, (revert rest es ++ h_rest h)%list)
          end
      end
  end.

(** bundle.py:1303-1402 [__bind_from_signal_list] in detection mode without specific signal and rules: what is left, and the
    bundle, whose clock event alone can change (1384-1385). *)
Fixpoint detect_b (b : bundle) (es : list entry) : bundle * list entry :=
  match b with
  | B nm m ls sls ks bls ck =>
      let h := bind_here m es ls ck (fun _ => mk_pin 0 false 0 None Imme 0) in
      let '(ks1, rest, ck1) :=
        (fix go (ks : list (seg * bundle)) es ck := match ks with
         | [] => ([], es, ck)
         | (s, c) :: t =>
             let (c1, es1) := detect_b c es in
             let '(t1, es2, ck2) := go t es1 (next_clk s (b_clk c1) ck) in
             ((s, c1) :: t1, es2, ck2)
         end) ks (h_match h) ck in
      (B nm m ls sls ks1 bls ck1, (revert rest es ++ h_rest h)%list)
  end.

(** bundle.py:910-928 [detect_connectivity]; (the signal of the entry, None, is not used in this mode). *)
Definition detect_connectivity (b : bundle) (name : string) : bundle * bool :=
  let (b1, rest) := detect_b b [mk_entry name name 0] in
  (b1, match rest with [] => true | _ :: _ => false end).

(** bundle.py:1277-1290 [__remove_signal_attr], called if hasattr (1298): a class-level Signal() raises on .xdata. *)
Definition remove_attr (l : leaf) (st : store) : res (leaf * store) :=
  let back := mk_leaf (l_id l) (l_name l) (l_decl l) (if l_decl l then SPlaceholder else SAbsent) in
  match l_slot l with
  | SAbsent => Ok (l, st)
  | SPlaceholder => Exn AttributeError
  | SDummy => Ok (back, st)
  | SPin i =>
      Ok (back, match p_nconn (st i) with
                | None => st
                | Some n => upd st i (set_nconn (st i) (if Nat.eqb (n - 1) 0 then None else Some (n - 1)))
                end)
  end.
(** bundle.py:1297-1299: only own signals, not signal lists. *)
Fixpoint remove_attrs (ls : list leaf) (st : store) : res (list leaf * store) :=
  match ls with
  | [] => Ok ([], st)
  | l :: t =>
      match (match l_id l with LSig _ => remove_attr l st | LEl _ _ => Ok (l, st) end) with
      | Exn x => Exn x
      | Ok (l1, st1) => rbind (remove_attrs t st1) (fun r => let (t1, st2) := r in Ok (l1 :: t1, st2))
      end
  end.

(** bundle.py:1292-1301 [__unbind_all]: sub-bundles only, not bundle lists. *)
Fixpoint unbind_b (b : bundle) (st : store) : res (bundle * store) :=
  match b with
  | B nm m ls sls ks bls ck =>
      match remove_attrs ls st with
      | Exn x => Exn x
      | Ok (ls1, st1) =>
          match (fix go (ks : list (seg * bundle)) st := match ks with
                 | [] => Ok ([], st)
                 | (s, c) :: t =>
                     match (match s with PSub _ => unbind_b c st | PElem _ _ => Ok (c, st) end) with
                     | Exn x => Exn x
                     | Ok (c1, st1) =>
                         match go t st1 with
                         | Exn x => Exn x
                         | Ok (t1, st2) => Ok ((s, c1) :: t1, st2)
                         end
                     end
                 end) ks st1 with
          | Exn x => Exn x
          | Ok (ks1, st2) => Ok (B nm m ls1 sls ks1 bls ck, st2)
          end
      end
  end.

(** bundle.py:1085-1115 [all_signals]; an absent attribute is reported as None (1094-1096). *)
Fixpoint all_signals (b : bundle) (level : string) : list (string * slot) :=
  match b with
  | B _ _ ls _ ks _ _ =>
      map (fun l => (append_level level (leaf_label (l_id l)), l_slot l)) ls ++
      (fix go (ks : list (seg * bundle)) := match ks with
       | [] => []
       | (s, c) :: t => all_signals c (append_level level (seg_label s)) ++ go t
       end) ks
  end%list.

(** bundle.py:930-942, 1357-1371: the rules of all signals (keys are distinct, so the dictionary is this list). *)
Fixpoint rules_here (stack : list bundle) (level : string) (ls : list leaf) : res (list (string * string)) :=
  match ls with
  | [] => Ok []
  | l :: t =>
      rbind (rule_string stack (l_name l)) (fun r =>
      rbind (rules_here stack level t) (fun rs => Ok ((append_level level (leaf_label (l_id l)), r) :: rs)))
  end.
Fixpoint rules_b (stack : list bundle) (b : bundle) (level : string) : res (list (string * string)) :=
  match b with
  | B _ _ ls _ ks _ _ =>
      let stack1 := (stack ++ [b])%list in
      rbind (rules_here stack1 level ls) (fun r1 =>
      rbind ((fix go (ks : list (seg * bundle)) := match ks with
              | [] => Ok []
              | (s, c) :: t => rbind (rules_b stack1 c (append_level level (seg_label s))) (fun r =>
                               rbind (go t) (fun rs => Ok (r ++ rs)%list))
              end) ks) (fun r2 => Ok (r1 ++ r2)%list))
  end.
Definition all_signals_rule (b : bundle) : res (list (string * string)) := rules_b [] b (b_name b).

(** bundle.py:617-634 [__set_all_signals_write_mode] for the modes of WriteMode; 1511-1529: only pins are touched. *)
Definition set_mode (p : pin) (w : wmode) : pin :=
  mk_pin (p_val p) (p_out p) (p_width p) (p_nconn p) w (p_clk p).
Definition mode_one (w : wmode) (st : store) (x : string * slot) : store :=
  match snd x with
  | SPin i => if p_out (st i) then st else upd st i (set_mode (st i) w)
  | _ => st
  end.
Definition set_modes (b : bundle) (w : wmode) (st : store) : store := fold_left (mode_one w) (all_signals b "") st.

(** The bundle on which bind is called: the tree, bound (396), write_mode (397), and the DUTs on which its rising-edge
    callback is registered (502). *)
Record top := mk_top { t_b : bundle; t_bound : bool; t_mode : option wmode; t_regs : list nat }.

(** bundle.py:543-555, 698-699 *)
Definition set_name (nm : string) (b : bundle) : bundle :=
  match b with B _ m ls sls ks bls ck => B nm m ls sls ks bls ck end.
Definition name_kids (b : bundle) : bundle :=
  match b with
  | B nm m ls sls ks bls ck =>
      B nm m ls sls (map (fun x => match fst x with PSub n => (fst x, set_name n (snd x)) | PElem _ _ => x end) ks) bls ck
  end.

(** bundle.py:1531-1546 [dut_all_signals] *)
Definition entries (d : dut) : list entry := map (fun x => mk_entry (fst x) (fst x) (snd x)) (d_pins d).

(** bundle.py:681-715 [bind] *)
Definition bind (acc : bool) (t : top) (d : dut) (st : store) : res (top * store) :=
  rbind (if t_bound t then unbind_b (t_b t) st else Ok (name_kids (t_b t), st)) (fun r0 =>
  let (b0, st0) := r0 in
  rbind (bind_b acc [] b0 (entries d) st0) (fun r =>
  let '(b1, st1, _) := r in
  Ok (mk_top b1 true (t_mode t) (t_regs t ++ [d_id d])%list,
      match t_mode t with Some w => set_modes b1 w st1 | None => st1 end))).

(** bundle.py:600-615 [set_write_mode] *)
Definition set_write_mode (w : wmode) (t : top) (st : store) : top * store :=
  (mk_top (t_b t) (t_bound t) (Some w) (t_regs t), set_modes (t_b t) w st).

(** bundle.py:1430-1451 [detect_unconnected_signals], 1453-1474 [detect_multiple_connections] *)
Definition detect_unconnected (d : dut) (st : store) : list string :=
  map fst (filter (fun x => match p_nconn (st (snd x)) with None => true | Some n => Nat.eqb n 0 end) (d_pins d)).
Definition detect_multiple (d : dut) (st : store) : list string :=
  map fst (filter (fun x => match p_nconn (st (snd x)) with None => false | Some n => Nat.ltb 1 n end) (d_pins d)).

(** bundle.py:675-679: the clock event step() waits for; None: it logs an error and then fails. *)
Definition step_clock (t : top) : option nat := b_clk (t_b t).
