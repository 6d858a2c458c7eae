(** C91, C92: the commands of the debugger, for every DUT, every state of it and every argument. *)
From Coq Require Import List ZArith Bool Ascii String Lia.
From Verif Require Import Py Dbg_Model Dbg_Spec Dbg_Proofs.
Import ListNotations.
Open Scope list_scope.

Section Debug.
Context {mem : Type} (d : dut mem).
Notation enter := (enter d).
Local Ltac open := unfold Dbg_Model.enter, execute, do_tstep, do_tflush, do_tlist, do_tprint, do_tset, do_tforce, do_trelease, with_value, bind, ask, say, ret; cbn beta iota zeta delta [fst snd app].

Lemma say_all_out l : forall s, say_all (mem := mem) l s = ((fst s ++ map Print l, snd s), Ok tt).
Proof. induction l as [|x l IH]; intros [ev m]; simpl; [now rewrite app_nil_r|]. unfold bind, say. rewrite IH. simpl. now rewrite <- app_assoc. Qed.

Definition arg_of (c : command) : str := match c with Tstep a | Tflush a | Tlist a | Tprint a | Tset a | Tforce a | Trelease a => a end.
Lemma spaced_none s : spaced s [] -> blanks s.
Proof. intros H. remember [] as l eqn:E. revert E. induction H; intros E; try discriminate; constructor; auto. apply IHspaced; auto. Qed.

(** A command whose argument cannot be understood touches nothing and says so, in one line; if there is nothing but blanks it may raise
    IndexError instead. *)
Theorem C91_not_understood c m : ~ understood c ->
  exists ev r, enter c m = (ev, m, r) /\ calls ev = [] /\
    ((r = Ok tt /\ exists l, ev = [Print l] /\ complaint l) \/ (r = Exn IndexError /\ ev = [] /\ blanks (arg_of c))).
Proof.
  intros H. destruct c as [a|a|a|a|a|a|a]; cbn [understood] in H; open; try (exfalso; now apply H).
  - destruct a as [|x a]; [exfalso; apply H; auto|]. destruct (py_int (x :: a)) as [n|] eqn:E; [exfalso; apply H; right; exists n; now apply py_int_numeral|].
    eexists _, _. split; [reflexivity|]. split; [reflexivity|]. left. split; [reflexivity|]. eexists. split; [reflexivity|exact Logic.I].
  - destruct a as [|x a]; [exfalso; apply H; auto|]. eexists _, _. split; [reflexivity|]. split; [reflexivity|]. left. split; [reflexivity|]. eexists. split; [reflexivity|exact Logic.I].
  - destruct a as [|x a]; [exfalso; apply H; auto|]. destruct (split (x :: a)) as [|w r] eqn:Es; apply split_spaced in Es.
    + eexists _, _. split; [reflexivity|]. split; [reflexivity|]. right. split; [reflexivity|]. split; [reflexivity|]. now apply spaced_none.
    + destruct (py_int w) as [n|] eqn:E; [exfalso; apply H; right; exists w, r, n; split; auto; now apply py_int_numeral|].
      eexists _, _. split; [reflexivity|]. split; [reflexivity|]. left. split; [reflexivity|]. eexists. split; [reflexivity|exact Logic.I].
  - destruct a as [|x a]; [exfalso; apply H; auto|]. destruct (split (x :: a)) as [|name [|t r]] eqn:Es; apply split_spaced in Es.
    + eexists _, _. split; [reflexivity|]. split; [reflexivity|]. right. split; [reflexivity|]. split; [reflexivity|]. now apply spaced_none.
    + exfalso. apply H. right. exists name. auto.
    + destruct (base_of (lower t)) as [b|] eqn:E.
      * exfalso. apply H. right. exists name. right. exists t, r. split; auto. apply base_of_spells in E. destruct b; auto.
      * eexists _, _. split; [reflexivity|]. split; [reflexivity|]. left. split; [reflexivity|]. eexists. split; [reflexivity|exact Logic.I].
  - destruct a as [|x a]; [exfalso; apply H; auto|]. destruct (split (x :: a)) as [|name [|t r]] eqn:Es; apply split_spaced in Es.
    + eexists _, _. split; [reflexivity|]. split; [reflexivity|]. right. split; [reflexivity|]. split; [reflexivity|]. now apply spaced_none.
    + eexists _, _. split; [reflexivity|]. split; [reflexivity|]. left. split; [reflexivity|]. eexists. split; [reflexivity|exact Logic.I].
    + destruct (py_int t) as [v|] eqn:E; [exfalso; apply H; right; exists name, t, r, v; split; auto; now apply py_int_numeral|].
      eexists _, _. split; [reflexivity|]. split; [reflexivity|]. left. split; [reflexivity|]. eexists. split; [reflexivity|exact Logic.I].
  - destruct a as [|x a]; [exfalso; apply H; auto|]. destruct (split (x :: a)) as [|name [|t r]] eqn:Es; apply split_spaced in Es.
    + eexists _, _. split; [reflexivity|]. split; [reflexivity|]. right. split; [reflexivity|]. split; [reflexivity|]. now apply spaced_none.
    + eexists _, _. split; [reflexivity|]. split; [reflexivity|]. left. split; [reflexivity|]. eexists. split; [reflexivity|exact Logic.I].
    + destruct (py_int t) as [v|] eqn:E; [exfalso; apply H; right; exists name, t, r, v; split; auto; now apply py_int_numeral|].
      eexists _, _. split; [reflexivity|]. split; [reflexivity|]. left. split; [reflexivity|]. eexists. split; [reflexivity|exact Logic.I].
Qed.

Local Ltac cases := repeat match goal with
  | |- context [say_all ?l ?s] => rewrite (say_all_out l s); cbn [fst snd app]
  | |- context [match ?x with _ => _ end] => match x with
      | context [match _ with _ => _ end] => fail 1
      | _ => destruct x eqn:?
      end
  end.
Lemma tail_calls c l : calls (Call c :: map Print (map Name l)) = [c].
Proof. simpl. f_equal. induction l; auto. Qed.
Lemma tail_lines c l : lines (Call c :: map Print (map Name l)) = map Name l.
Proof. simpl. induction l; simpl; auto; f_equal; auto. Qed.

(** tlist and tprint only look. *)
Theorem C91_looking_only c m ev m' r a : (c = Tlist a \/ c = Tprint a) -> enter c m = (ev, m', r) -> Forall looking (calls ev).
Proof.
  intros [->| ->]; open; cases; intros E; injection E as <- <- <-; try (rewrite tail_calls; repeat constructor); repeat constructor.
Qed.
(** A command that complains has done nothing but look the signal up. *)
Theorem C91_complaint c m ev m' r l : enter c m = (ev, m', r) -> In l (lines ev) -> complaint l ->
  forall x, In x (calls ev) -> exists name, x = GetInternalSignal name.
Proof.
  destruct c as [a|a|a|a|a|a|a]; open; cases; intros E; injection E as <- <- <-; intros Hl C x Hx;
  try (rewrite tail_lines in Hl; apply in_map_iff in Hl as (? & <- & _); destruct C);
  simpl in Hl, Hx; repeat match goal with H : _ \/ _ |- _ => destruct H end; try contradiction; subst; try contradiction; eauto.
Qed.
(** tstep: the clock advances by the number that was typed (one if there is none), once, and the waveform is flushed after it. *)
Theorem C91_step a n m m1 r1 m2 r2 : (a = [] /\ n = 1%Z \/ a <> [] /\ numeral a n) -> d_step d n m = (m1, r1) -> d_flush d m1 = (m2, r2) ->
  enter (Tstep a) m = match r1 with Ok _ => ([Call (Step n); Call FlushWaveform], m2, r2) | Exn e => ([Call (Step n)], m1, Exn e) end.
Proof.
  intros [[-> ->]|[Ha N]] E1 E2; open; [|destruct a; [contradiction|]; apply py_int_numeral in N; rewrite N]; cbn [fst snd app]; rewrite E1; destruct r1 as [u|e]; cbn [fst snd app]; auto; rewrite E2; reflexivity.
Qed.
(** Nothing but tstep advances the clock. *)
Theorem C91_only_step c m ev m' r : enter c m = (ev, m', r) -> steps (calls ev) <> [] -> exists a, c = Tstep a.
Proof.
  destruct c as [a|a|a|a|a|a|a]; [eauto|..]; open; cases; intros E; injection E as <- <- <-; intros H; exfalso; apply H; auto;
  rewrite tail_calls; reflexivity.
Qed.
(** What is written: by tset and tforce the number that was typed, to the signal that was named; by trelease the value the signal has. *)
Theorem C91_writes c m ev m' r h v : enter c m = (ev, m', r) -> In (h, v) (writes (calls ev)) ->
  (exists a name w ws m1, (c = Tset a \/ c = Tforce a) /\ spaced a (name :: w :: ws) /\ numeral w v /\ d_get d name m = (m1, Ok (Some h))) \/
  (exists a m1 m2 m3 m4, c = Trelease a /\ d_get d a m = (m1, Ok (Some h)) /\ d_ignore d h false m1 = (m2, Ok tt) /\ d_mode d h Release m2 = (m3, Ok tt) /\ d_read d h m3 = (m4, Ok v)).
Proof.
  destruct c as [a|a|a|a|a|a|a]; open; cases; intros E; injection E as <- <- <-; intros Hw;
  try rewrite tail_calls in Hw;
  simpl in Hw; repeat match goal with H : _ \/ _ |- _ => destruct H end; try contradiction;
  match goal with H : (_, _) = (h, v) |- _ => injection H as <- <- end;
  repeat match goal with u : unit |- _ => destruct u end; cbn [fst snd] in *;
  try (left; match goal with
       | H : split ?a = ?n :: ?w :: ?ws, G : d_get d ?n m = (?m1, _), P : py_int ?w = Some _ |- _ => exists a, n, w, ws, m1; split; [auto|]; split; [now apply split_spaced|]; split; [now apply py_int_numeral|exact G] end);
  try (right; match goal with
       | G : d_get d ?n m = (?m1, _), I1 : d_ignore d _ false ?m1 = (?m2, _), M1 : d_mode d _ Release ?m2 = (?m3, _), R1 : d_read d _ ?m3 = (?m4, _) |- _ => exists n, m1, m2, m3, m4; auto 6 end).
Qed.
(** tset on a signal that exists: it is written once, then the combinational logic is refreshed; nothing else is called or printed. *)
Theorem C91_set a name w ws v m m1 h m2 m3 : spaced a (name :: w :: ws) -> numeral w v ->
  d_get d name m = (m1, Ok (Some h)) -> d_write d h v m1 = (m2, Ok tt) -> d_refresh d m2 = (m3, Ok tt) ->
  enter (Tset a) m = ([Call (GetInternalSignal name); Call (Write h v); Call RefreshComb], m3, Ok tt).
Proof.
  intros S N G W R. apply split_spaced in S. apply py_int_numeral in N. open. destruct a as [|x a]; [discriminate|]. rewrite S, N. cbn [fst snd app]. rewrite G. cbn [fst snd app]. rewrite W. cbn [fst snd app]. rewrite R. reflexivity.
Qed.
(** A signal that does not exist is reported and nothing else is done. *)
Theorem C91_not_found c m m1 name : d_get d name m = (m1, Ok None) ->
  (exists a w ws v, (c = Tset a \/ c = Tforce a) /\ spaced a (name :: w :: ws) /\ numeral w v) \/ (c = Trelease name /\ name <> []) \/ (exists a, c = Tprint a /\ spaced a [name]) ->
  enter c m = ([Call (GetInternalSignal name); Print (NotFound name)], m1, Ok tt).
Proof.
  intros G [(a & w & ws & v & C & S & N)|[[-> Hn]|(a & -> & S)]].
  - apply split_spaced in S. apply py_int_numeral in N. destruct C as [->| ->]; open; (destruct a as [|x a]; [discriminate|]); rewrite S, N; cbn [fst snd app]; rewrite G; reflexivity.
  - open. destruct name as [|x s]; [contradiction|]. cbn [fst snd app]. rewrite G. reflexivity.
  - apply split_spaced in S. open. destruct a as [|x a]; [discriminate|]. rewrite S; cbn [fst snd app]; rewrite G. reflexivity.
Qed.
(** tprint: the line shows width and value of the signal that was named, in the base that was asked for in any case of letters (decimal if
    none was). *)
Theorem C91_print a name b m m1 h m2 wd m3 v : (spaced a [name] /\ b = Dec \/ exists t ws, spaced a (name :: t :: ws) /\ spells t (match b with Bin => bin | Hex => hex | Dec => dec end)) ->
  d_get d name m = (m1, Ok (Some h)) -> d_width d h m1 = (m2, Ok wd) -> d_read d h m2 = (m3, Ok v) ->
  enter (Tprint a) m = ([Call (GetInternalSignal name); Call (Width h); Call (Read h); Print (Value b wd v)], m3, Ok tt).
Proof.
  intros [[S ->]|(t & ws & S & B)] G W R; apply split_spaced in S; open; (destruct a as [|x a]; [discriminate|]); rewrite S.
  - cbn [fst snd app]. rewrite G. cbn [fst snd app]. rewrite W. cbn [fst snd app]. rewrite R. reflexivity.
  - apply (base_of_spells t b) in B. rewrite B. cbn [fst snd app]. rewrite G. cbn [fst snd app]. rewrite W. cbn [fst snd app]. rewrite R. reflexivity.
Qed.
(** tlist: one line for each signal of the list the DUT gives for the depth (99 if none is given) and the prefix (none). *)
Theorem C91_list a deep prefix m m1 l : (a = [] /\ deep = 99%Z /\ prefix = [] \/ exists w, numeral w deep /\ (spaced a [w] /\ prefix = [] \/ exists ws, spaced a (w :: prefix :: ws))) ->
  d_list d prefix deep m = (m1, Ok l) -> enter (Tlist a) m = (Call (SignalList prefix deep) :: map (fun s => Print (Name s)) l, m1, Ok tt).
Proof.
  intros H L. assert (Z : forall m0 : mem, say_all (map Name l) ([Call (SignalList prefix deep)], m0) = ((Call (SignalList prefix deep) :: map (fun s => Print (Name s)) l, m0), Ok tt)) by (intros m0; rewrite say_all_out; cbn [fst snd app]; now rewrite map_map).
  destruct H as [(-> & -> & ->)|(w & N & H)]; [open; rewrite L; cbn [fst snd app]; rewrite Z; reflexivity|].
  apply py_int_numeral in N. open. destruct H as [[S ->]|(ws & S)]; (destruct a as [|x a]; [apply split_spaced in S; discriminate|]); apply split_spaced in S; rewrite S, N; cbn [fst snd app]; rewrite L; cbn [fst snd app]; rewrite Z; reflexivity.
Qed.

(** tforce and trelease on a signal that exists, when nothing raises: all they do, in order. *)
Theorem C92_force a name w ws v m m1 h m2 m3 m4 m5 m6 : spaced a (name :: w :: ws) -> numeral w v ->
  d_get d name m = (m1, Ok (Some h)) -> d_ignore d h false m1 = (m2, Ok tt) -> d_mode d h Force m2 = (m3, Ok tt) -> d_write d h v m3 = (m4, Ok tt) -> d_refresh d m4 = (m5, Ok tt) -> d_ignore d h true m5 = (m6, Ok tt) ->
  enter (Tforce a) m = (map Call [GetInternalSignal name; SetIgnoreSameDataWrite h false; AsVPIWrite h Force; Write h v; RefreshComb; SetIgnoreSameDataWrite h true], m6, Ok tt).
Proof.
  intros S N G I1 M1 W R I2. apply split_spaced in S. apply py_int_numeral in N. open. destruct a as [|x a]; [discriminate|]. rewrite S, N. cbn [fst snd app]. rewrite G. cbn [fst snd app]. rewrite I1. cbn [fst snd app]. rewrite M1. cbn [fst snd app]. rewrite W. cbn [fst snd app]. rewrite R. cbn [fst snd app]. rewrite I2. reflexivity.
Qed.
Theorem C92_release a m m1 h m2 m3 m4 v m5 m6 m7 m8 : a <> [] ->
  d_get d a m = (m1, Ok (Some h)) -> d_ignore d h false m1 = (m2, Ok tt) -> d_mode d h Release m2 = (m3, Ok tt) -> d_read d h m3 = (m4, Ok v) -> d_write d h v m4 = (m5, Ok tt) -> d_refresh d m5 = (m6, Ok tt) ->
  d_mode d h NoDelay m6 = (m7, Ok tt) -> d_ignore d h true m7 = (m8, Ok tt) ->
  enter (Trelease a) m = (map Call [GetInternalSignal a; SetIgnoreSameDataWrite h false; AsVPIWrite h Release; Read h; Write h v; RefreshComb; AsVPIWrite h NoDelay; SetIgnoreSameDataWrite h true], m8, Ok tt).
Proof.
  intros Ha G I1 M1 Rd W R M2 I2. open. destruct a as [|x a]; [contradiction|]. cbn [fst snd app]. rewrite G. cbn [fst snd app]. rewrite I1. cbn [fst snd app]. rewrite M1. cbn [fst snd app]. rewrite Rd. cbn [fst snd app]. rewrite W. cbn [fst snd app]. rewrite R. cbn [fst snd app]. rewrite M2. cbn [fst snd app]. rewrite I2. reflexivity.
Qed.
(** Whatever command returns, it leaves no signal with the check for equal data switched off; a released signal is left in the mode without
    delay, a forced one in the mode that forces.  Missing: the same for a command that is ended by an exception (see the refutation). *)
Theorem C92_restored_partial c m ev m' h : enter c m = (ev, m', Ok tt) ->
  last_ignore h (calls ev) <> Some false /\ (forall x, last_mode h (calls ev) = Some x -> x = NoDelay /\ (exists a, c = Trelease a) \/ x = Force /\ (exists a, c = Tforce a)).
Proof.
  destruct c as [a|a|a|a|a|a|a]; open; cases; intros E; try discriminate E; injection E as <- <-;
  try rewrite tail_calls;
  unfold last_ignore, last_mode; cbn [calls flat_map app fold_left]; try (destruct (Nat.eqb _ h)); (split; [discriminate|]); intros x X; try discriminate X; injection X as <-; eauto.
Qed.
End Debug.

(** A DUT with the signals "a" (8 bits) and "b": the state is the pair of the values; a write beyond the width raises. *)
Definition S_ := list_ascii_of_string.
Definition dut2 : dut (Z * Z)%type := mk_dut
  (fun n m => ((fst m + n, snd m)%Z, Ok tt)) (fun m => (m, Ok tt)) (fun p n m => (m, Ok [S_ "a"; S_ "b"]))
  (fun s m => (m, Ok (if str_eqb s (S_ "a") then Some 0%nat else if str_eqb s (S_ "b") then Some 1%nat else None))) (fun m => (m, Ok tt))
  (fun h m => (m, Ok 8%Z)) (fun h m => (m, Ok (if Nat.eqb h 0 then fst m else snd m)))
  (fun h v m => if (v <? 256)%Z then ((if Nat.eqb h 0 then (v, snd m) else (fst m, v)), Ok tt) else (m, Exn ValueError))
  (fun h b m => (m, Ok tt)) (fun h x m => (m, Ok tt)).
(** A write that raises leaves the signal with the check switched off, and in the mode that forces. *)
Theorem C92_restored_refuted : exists (d : dut (Z * Z)%type) a m ev m' e h, enter d (Tforce a) m = (ev, m', Exn e) /\ last_ignore h (calls ev) = Some false /\ last_mode h (calls ev) = Some Force.
Proof. exists dut2, (S_ "a 300"), (7, 8)%Z. eexists _, _, _, 0%nat. split; [vm_compute; reflexivity|]. split; vm_compute; reflexivity. Qed.

Example C91_nonvacuous :
  enter dut2 (Tstep (S_ " 1_2 ")) (7, 8)%Z = ([Call (Step 12); Call FlushWaveform], (19, 8)%Z, Ok tt) /\
  enter dut2 (Tstep (S_ "0x10")) (7, 8)%Z = ([Print (BadNumber (S_ "0x10"))], (7, 8)%Z, Ok tt) /\
  enter dut2 (Tset (S_ "b -3")) (7, 8)%Z = ([Call (GetInternalSignal (S_ "b")); Call (Write 1 (-3)); Call RefreshComb], (7, -3)%Z, Ok tt) /\
  enter dut2 (Tprint (S_ "a HEX")) (7, 8)%Z = ([Call (GetInternalSignal (S_ "a")); Call (Width 0); Call (Read 0); Print (Value Hex 8 7)], (7, 8)%Z, Ok tt) /\
  enter dut2 (Tset (S_ "c 1")) (7, 8)%Z = ([Call (GetInternalSignal (S_ "c")); Print (NotFound (S_ "c"))], (7, 8)%Z, Ok tt).
Proof. repeat split; vm_compute; reflexivity. Qed.
Example C91_grammar : numeral (S_ " -1_20") (-120) /\ ~ understood (Tset (S_ "a")) /\ ~ understood (Tstep (S_ "1 2")).
Proof.
  split; [apply py_int_numeral; vm_compute; reflexivity|]. split.
  - cbn [understood]. intros [H|(name & w & r & v & H & _)]; [discriminate|]. apply split_spaced in H. vm_compute in H. discriminate.
  - cbn [understood]. intros [H|(n & H)]; [discriminate|]. apply py_int_numeral in H. vm_compute in H. discriminate.
Qed.
Example C92_nonvacuous : (let '(ev, m, r) := enter dut2 (Tforce (S_ "a 5")) (7, 8)%Z in calls ev = [GetInternalSignal (S_ "a"); SetIgnoreSameDataWrite 0 false; AsVPIWrite 0 Force; Write 0 5; RefreshComb; SetIgnoreSameDataWrite 0 true] /\ m = (5, 8)%Z /\ r = Ok tt) /\
  (let '(ev, m, r) := enter dut2 (Trelease (S_ "a")) (7, 8)%Z in writes (calls ev) = [(0%nat, 7%Z)] /\ m = (7, 8)%Z /\ r = Ok tt).
Proof. split; vm_compute; auto. Qed.
Print Assumptions C91_not_understood.
Print Assumptions C91_looking_only.
Print Assumptions C91_complaint.
Print Assumptions C91_step.
Print Assumptions C91_only_step.
Print Assumptions C91_writes.
Print Assumptions C91_set.
Print Assumptions C91_not_found.
Print Assumptions C91_print.
Print Assumptions C91_list.
Print Assumptions C92_force.
Print Assumptions C92_release.
Print Assumptions C92_restored_partial.
Print Assumptions C92_restored_refuted.
