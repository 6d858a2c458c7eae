(** C102: the triggers of triggers.py in a running test. *)
From Coq Require Import List Bool Arith ZArith Lia.
From Verif Require Import Py Prio_Model Loop_Model Loop_Spec Loop2_Spec Bind_Spec Live_Spec LoopProg_Model LTrig_Model LTrig_Spec Loop_Proofs Loop2_Proofs Loop3_Proofs Loop4_Proofs Loop5_Proofs Loop10_Proofs Loop13_Proofs Loop16_Proofs LTrig_Proofs P_Prim P_Loop P_Loop2 P_Loop4 P_Coro LoopRun_Model LoopRun_Proofs.
Import ListNotations.
Open Scope nat_scope.

Section Thms.
Context {mem : Type} (shuffle : list id -> list id) (dut delayers : mem -> mem).
Notation steps := (steps shuffle dut delayers). Notation step := (step shuffle dut delayers). Notation prog := (@prog mem). Notation state := (@state mem). Notation body := (@body mem).
Notation moments := (moments shuffle dut delayers). Notation first_moment := (first_moment shuffle dut delayers). Notation first_edge := (first_edge shuffle dut delayers).
Implicit Types (s : state).
Context (test : prog) (m0 : mem).

Lemma track_all f t K d x0 s s' : steps (init test m0) s -> runs s t (bindr (waits d (watch f x0)) K) -> steps s s' ->
  exists l x, goes f x0 l x /\
  ((exists y z, moments t (nstep s + d) s (l ++ [y]) s' /\ (forall x', snd (f x (mm y)) <> Ok (Some x')) /\ back shuffle dut delayers t K (told (snd (f x (mm y)))) y (fst (f x (mm y))) z /\ steps z s') \/
   (exists z, moments t (nstep s + d) s l z /\ cancelled_at test t K z /\ steps z s') \/
   (moments t (nstep s + d) s l s' /\ awaiting s' t K /\ seen_all test (nstep s + d) (List.length l) s')).
Proof.
  intros R0 Hr R. apply runs_wrap in Hr as [W [HW Hc]]. assert (R' : steps (init test m0) s') by (eapply steps_trans; eauto).
  destruct (track shuffle dut delayers test m0 f t K W HW x0 _ d s s' R0 Hc eq_refl R) as [X|[l [x [G H]]]].
  - destruct (inner_inside shuffle dut delayers test m0 f t K W HW x0 _ s s' R' X) as [l [x [A [B [C D]]]]]. exists l, x. split; auto.
  - exists l, x. split; auto. destruct H; auto.
Qed.

(** A trigger that waits for something in the memory. *)
Lemma waits_for_it f (holdsb : mem -> bool) t K d s s' : (forall x m, f x m = (m, Ok (if negb (holdsb m) then Some VNone else None))) ->
  steps (init test m0) s -> runs s t (bindr (waits d (watch f VNone)) K) -> steps s s' -> first_moment test t K (nstep s + d) (fun m => holdsb m = true) s s'.
Proof.
  intros Hf R0 Hr R. destruct (track_all f t K d VNone s s' R0 Hr R) as [l [x [G H]]]. exists l. split.
  - clear H. induction G as [|x l x1 y x2 G IH E]; [constructor|]. apply Forall_app. split; auto. constructor; auto. rewrite Hf in E. cbn [snd] in E. destruct (holdsb (mm y)); [discriminate|congruence].
  - destruct H as [[y [z [A [B [C D]]]]]|H]; auto. left. exists y, z. rewrite Hf in B, C. cbn [fst snd] in B, C. split; auto. destruct (holdsb (mm y)) eqn:E; [|now elim (B VNone)]. split; auto.
Qed.

(** [await Value(pin, v, delay)], called in a reachable state [s] of any test: from [delay] cycles after the call on the pin is looked at once in every cycle, and the call comes back in the
    first cycle in which it has the value [v] at that moment, in this cycle and with nothing in between; whatever the other tasks do. *)
Theorem C102_value pin v delay t K s s' : steps (init test m0) s -> runs s t (bindr (value pin v delay) K) -> steps s s' ->
  first_moment test t K (nstep s + Z.to_nat delay) (fun m => pin m = v) s s'.
Proof.
  intros R0 Hr R. destruct (waits_for_it (value_check pin v) (fun m => Z.eqb (pin m) v) t K (Z.to_nat delay) s s') as [l [A B]]; auto. exists l. split.
  - eapply Forall_impl; [|exact A]. intros y N E. apply N. now apply Z.eqb_eq.
  - destruct B as [[y [z [B [C D]]]]|B]; auto. left. exists y, z. split; auto. split; auto. now apply Z.eqb_eq.
Qed.
(** [await AllValid( *pins, delay=delay)]. *)
Theorem C102_all_valid p pins delay t K s s' : steps (init test m0) s -> runs s t (bindr (all_valid (p :: pins) delay) K) -> steps s s' ->
  first_moment test t K (nstep s + Z.to_nat delay) (fun m => forall pin, In pin (p :: pins) -> pin m <> 0%Z) s s'.
Proof.
  intros R0 Hr R. assert (Hr' : runs s t (bindr (waits (Z.to_nat delay) (watch (valid_check (p :: pins)) VNone)) K)) by (unfold all_valid in Hr; destruct (Z.to_nat delay); exact Hr).
  destruct (waits_for_it (valid_check (p :: pins)) (fun m => forallb (fun pin => negb (Z.eqb (pin m) 0)) (p :: pins)) t K (Z.to_nat delay) s s') as [l [A B]]; auto.
  assert (E : forall m, forallb (fun pin => negb (Z.eqb (pin m) 0)) (p :: pins) = true <-> forall pin, In pin (p :: pins) -> pin m <> 0%Z).
  { intros m. rewrite forallb_forall. split; intros H q Hq; specialize (H q Hq); destruct (Z.eqb_spec (q m) 0); cbn in *; auto; discriminate || contradiction. }
  exists l. split.
  - eapply Forall_impl; [|exact A]. intros y N Q. apply N. now apply E.
  - destruct B as [[y [z [B [C D]]]]|B]; auto. left. exists y, z. split; auto. split; auto. now apply E.
Qed.
(** [await AllValid(delay=delay)] without pins: it raises IndexError at once if it has to wait for a cycle first, otherwise it comes back in the cycle of the call. *)
Theorem C102_all_valid_no_pins delay t K s s' : steps (init test m0) s -> runs s t (bindr (all_valid [] delay) K) ->
  ((0 < delay)%Z -> runs s t (K (Exn IndexError))) /\ ((delay <= 0)%Z -> steps s s' -> first_moment test t K (nstep s) (fun _ => True) s s').
Proof.
  intros R0 Hr. split; intros Hd.
  - unfold all_valid in Hr. destruct (Z.to_nat delay) eqn:E; [lia|]. rewrite bindr_unfold in Hr. exact Hr.
  - intros R. assert (E : Z.to_nat delay = 0) by lia. unfold all_valid in Hr. rewrite E in Hr. destruct (waits_for_it (valid_check []) (fun _ => true) t K 0 s s') as [l [A B]]; auto. exists l. rewrite Nat.add_0_r in B. split.
    + eapply Forall_impl; [|exact A]. intros y N _. now apply N.
    + destruct B as [[y [z [B [C D]]]]|B]; auto. left. exists y, z. auto.
Qed.
(** [await Condition(item, func, delay)]: [func] is called once in every cycle from [delay] cycles after the call on, until it gives true or raises; it may change the memory. *)
Theorem C102_condition func delay t K s s' : steps (init test m0) s -> runs s t (bindr (condition func delay) K) -> steps s s' ->
  let n := nstep s + Z.to_nat delay in exists l, Forall (fun y => snd (func (mm y)) = Ok false) l /\
   ((exists y z r, moments t n s (l ++ [y]) s' /\ back shuffle dut delayers t K r y (fst (func (mm y))) z /\ steps z s' /\ match r with Ok v => v = VNone /\ snd (func (mm y)) = Ok true | Exn e => snd (func (mm y)) = Exn e end) \/
    (exists z, moments t n s l z /\ cancelled_at test t K z /\ steps z s') \/
    (moments t n s l s' /\ awaiting s' t K /\ seen_all test n (List.length l) s')).
Proof.
  intros R0 Hr R n. destruct (track_all _ t K _ VNone s s' R0 Hr R) as [l [x [G H]]]. exists l. split.
  - clear H. induction G as [|x l x1 y x2 G IH E]; [constructor|]. apply Forall_app. split; auto. constructor; auto. unfold cond_check in E. destruct (func (mm y)) as [m' [[|]|e]]; cbn [snd negb] in *; congruence.
  - destruct H as [[y [z [A [B [C D]]]]]|H]; auto. left. exists y, z. exists (told (snd (cond_check func x (mm y)))). unfold cond_check in *. destruct (func (mm y)) as [m' [[|]|e]]; cbn [fst snd negb told] in *.
    + auto 6.
    + now elim (B VNone).
    + auto.
Qed.

(** A trigger that waits for an edge. *)
Lemma mom_cons t n s s1 s2 l s' : steps s s1 -> turn s1 t -> nstep s1 = n -> steps s1 s2 -> moments t (Datatypes.S n) s2 l s' -> moments t n s (s1 :: l) s'.
Proof.
  intros A B C D M. induction M as [s' M|l y s' M IH T N R].
  - apply (mo_next shuffle dut delayers t n s [] s1 s'); [now apply mo_nil|auto|cbn; lia|eapply steps_trans; eauto].
  - change (s1 :: l ++ [y]) with ((s1 :: l) ++ [y]). eapply mo_next; eauto. cbn. lia.
Qed.
Lemma nth_last {A} (l : list A) : forall x d a, nth_error (x :: l) (List.length l) = Some a -> a = last (x :: l) d.
Proof. induction l as [|z l IH]; intros x d a H; [cbn in *; congruence|]. exact (IH z d a H). Qed.
Lemma waits_for_edge (f : lval -> mem -> mem * res (option lval)) (pin : mem -> Z) (edgeb : Z -> Z -> bool) t K s s' : (forall a m, f (VInt a) m = (m, Ok (if edgeb a (pin m) then None else Some (VInt (pin m))))) -> (forall a, edgeb a a = false) ->
  steps (init test m0) s -> runs s t (bindr (with_old pin (watch f)) K) -> steps s s' -> first_edge test t K (fun m m' => edgeb (pin m) (pin m') = true) s s'.
Proof.
  intros Hf He R0 Hr R. apply runs_wrap in Hr as [W [HW Hc]]. assert (RR : forall x, steps s x -> steps (init test m0) x) by (intros x; apply steps_trans; auto).
  assert (U : forall p, upto any K p -> forall x, steps s x -> cur x = Some (t, W p) -> awaiting x t K /\ forall n k, seen_all test n k x).
  { intros p UP x Rx Hx. split; [eapply inside_awaits; eauto; left; eexists; split; [exact Hx|]; destruct HW as [->| ->]; eexists; split; eauto|]. intros n k c _ [l0 HS] _. rewrite Hx in HS. destruct HW as [->| ->]; discriminate. }
  assert (U1 : forall x, upto any K (bindr (watch f x) K)) by (intros x; apply upto_watch).
  assert (UO : upto any K (bindr (with_old pin (watch f)) K)) by (unfold with_old, Let; rewrite bindr_unfold; apply upto_op; [exact Logic.I|]; intros [v|e]; cbn [thenv]; [apply U1|rewrite bindr_unfold; apply upto_end]).
  assert (NIL : forall x, steps s x -> awaiting x t K /\ (forall n k, seen_all test n k x) -> first_edge test t K (fun m m' => edgeb (pin m) (pin m') = true) s x).
  { intros x Rx [A B]. exists []. split; [intros y H; discriminate|]. split; [intros i y y' H; destruct i; discriminate|]. right; right. split; [apply mo_nil; auto|]. auto. }
  destruct (steps_first _ _ _ _ _ R) as [->|[fire R1]]; [apply NIL; [apply steps_refl|]; apply (U _ UO); auto using steps_refl|]. assert (Hc0 := Hc). unfold with_old, Let in Hc0. rewrite bindr_unfold in Hc0.
  assert (HS := step_op shuffle dut delayers W fire s t _ _ HW Hc0). cbn [exec_op] in HS. set (s1 := step fire s) in *. assert (S1 : steps s s1) by (apply steps_step, steps_refl).
  assert (Hc1 : cur s1 = Some (t, W (bindr (watch f (VInt (pin (mm s)))) K))) by (rewrite HS; reflexivity). assert (M1 : mm s1 = mm s) by (rewrite HS; reflexivity). assert (N1 : nstep s1 = nstep s) by (rewrite HS; reflexivity).
  destruct (steps_first _ _ _ _ _ R1) as [->|[fire2 R2]]; [apply NIL; auto; exact (U _ (U1 (VInt (pin (mm s)))) _ S1 Hc1)|]. assert (Hc2 := Hc1). rewrite bindr_unfold, watch_unfold in Hc2.
  assert (HS2 := step_op shuffle dut delayers W fire2 s1 t _ _ HW Hc2). cbn [exec_op asked] in HS2. rewrite Hf, M1, He in HS2. set (s2 := step fire2 s1) in *. assert (S2 : steps s1 s2) by (apply steps_step, steps_refl).
  assert (Hc3 : cur s2 = Some (t, W (bindr (waits 1 (watch f (VInt (pin (mm s1))))) K))) by (rewrite HS2, M1; reflexivity). assert (N2 : nstep s2 = nstep s) by (rewrite HS2, <- N1; reflexivity).
  assert (Hr3 : runs s2 t (bindr (waits 1 (watch f (VInt (pin (mm s1))))) K)) by (apply runs_wrap; eauto). assert (T1 : turn s1 t) by (eexists; apply runs_wrap; eauto).
  destruct (track_all f t K 1 _ s2 s' (RR _ (steps_trans _ _ _ _ _ _ S1 S2)) Hr3 R2) as [l [x [G H]]].
  assert (MC : forall l' z, moments t (nstep s2 + 1) s2 l' z -> moments t (nstep s) s (s1 :: l') z) by (intros l' z M; eapply mom_cons; eauto; replace (Datatypes.S (nstep s)) with (nstep s2 + 1) by lia; auto).
  assert (GO : x = VInt (pin (mm (last (s1 :: l) s1))) /\ no_edge (fun m m' => edgeb (pin m) (pin m') = true) (s1 :: l)).
  { clear H Hc3 Hr3. remember (VInt (pin (mm s1))) as x1 eqn:E1. induction G as [x|x l x1 y x2 G IH E]; [split; [auto|intros i y y' A B; destruct i; cbn in B; [discriminate|destruct i; discriminate]]|].
    destruct (IH E1) as [I1 I2]. subst x1. rewrite Hf in E. cbn [snd] in E. destruct (edgeb _ _) eqn:Ee; [discriminate|]. injection E as <-. change (s1 :: l ++ [y]) with ((s1 :: l) ++ [y]). rewrite last_last. split; auto.
    intros i a b Ha Hb. destruct (Nat.lt_ge_cases (Datatypes.S i) (List.length (s1 :: l))) as [L|L].
    - rewrite nth_error_app1 in Ha, Hb by lia. eauto.
    - assert (L2 : Datatypes.S i < List.length ((s1 :: l) ++ [y])) by (apply nth_error_Some; congruence). rewrite app_length in L2. cbn [List.length] in L, L2. assert (i = List.length l) by lia. subst i.
      rewrite nth_error_app2 in Hb by (cbn; lia). cbn [List.length] in Hb. rewrite Nat.sub_diag in Hb. cbn in Hb. injection Hb as <-. rewrite nth_error_app1 in Ha by (cbn; lia).
      apply (nth_last l s1 s1) in Ha. subst a. congruence. }
  destruct GO as [-> NE]. exists (s1 :: l). split; [intros y H0; cbn in H0; congruence|]. split; auto. destruct H as [[y [z [A [B [C D]]]]]|[[z [A [B C]]]|[A [B C]]]].
  - left. exists (removelast (s1 :: l)), (last (s1 :: l) s1), y, z. split; [apply app_removelast_last; discriminate|]. split; [exact (MC _ _ A)|]. rewrite Hf in B, C. cbn [fst snd] in B, C. destruct (edgeb _ _) eqn:Ee; [|now elim (B (VInt (pin (mm y))))]. auto.
  - right; left. eauto.
  - right; right. split; auto. split; auto. cbn [List.length]. replace (nstep s + Datatypes.S (List.length l)) with (nstep s2 + 1 + List.length l) by lia. intros c NT AT NO. specialize (C c NT AT NO). lia.
Qed.
(** [await Change(pin)]: the pin is looked at once in every cycle, beginning with the cycle of the call, and the call comes back in the first cycle in which it differs from what it was one cycle before. *)
Theorem C102_change pin t K s s' : steps (init test m0) s -> runs s t (bindr (change pin) K) -> steps s s' -> first_edge test t K (fun m m' => pin m <> pin m') s s'.
Proof.
  intros R0 Hr R. destruct (waits_for_edge (change_check pin) pin (fun a b => negb (Z.eqb b a)) t K s s') as [l [A [B C]]]; auto.
  - intros a m. unfold change_check. cbn [old_is]. destruct (Z.eqb_spec (pin m) a) as [->|]; reflexivity.
  - intros a. now rewrite Z.eqb_refl.
  - exists l. split; auto. split; [intros i y y' Hy Hy' E; apply (B i y y' Hy Hy'); destruct (Z.eqb_spec (pin (mm y')) (pin (mm y))); cbn; congruence|]. destruct C as [[l0 [x [y [z [C1 [C2 [C3 C4]]]]]]]|C]; auto.
    left. exists l0, x, y, z. split; auto. split; auto. split; auto. intros E. rewrite E, Z.eqb_refl in C3. discriminate.
Qed.
(** [await RisingEdge(pin)]. *)
Theorem C102_rising pin t K s s' : steps (init test m0) s -> runs s t (bindr (rising_edge pin) K) -> steps s s' -> first_edge test t K (fun m m' => pin m = 0%Z /\ pin m' <> 0%Z) s s'.
Proof.
  intros R0 Hr R. assert (E : forall a b, negb (negb (Z.eqb a 0) || Z.eqb b a) = true <-> a = 0%Z /\ b <> 0%Z).
  { intros a b. destruct (Z.eqb_spec a 0), (Z.eqb_spec b a); cbn; split; intros H; try discriminate; try (split; congruence); try reflexivity; destruct H; congruence. }
  destruct (waits_for_edge (rising_check pin) pin (fun a b => negb (negb (Z.eqb a 0) || Z.eqb b a)) t K s s') as [l [A [B C]]]; auto.
  - intros a m. unfold rising_check. cbn [old_is]. destruct (_ || _); reflexivity.
  - intros a. rewrite Z.eqb_refl, orb_true_r. reflexivity.
  - exists l. split; auto. split; [intros i y y' Hy Hy' Q; apply (B i y y' Hy Hy'); now apply E|]. destruct C as [[l0 [x [y [z [C1 [C2 [C3 C4]]]]]]]|C]; auto.
    left. exists l0, x, y, z. split; auto. split; auto. split; auto. now apply E.
Qed.
(** [await FallingEdge(pin)]. *)
Theorem C102_falling pin t K s s' : steps (init test m0) s -> runs s t (bindr (falling_edge pin) K) -> steps s s' -> first_edge test t K (fun m m' => pin m <> 0%Z /\ pin m' = 0%Z) s s'.
Proof.
  intros R0 Hr R. assert (E : forall a b, negb (negb (Z.eqb b 0) || Z.eqb b a) = true <-> a <> 0%Z /\ b = 0%Z).
  { intros a b. destruct (Z.eqb_spec b 0), (Z.eqb_spec b a); cbn; split; intros H; try discriminate; try (split; congruence); try reflexivity; destruct H; congruence. }
  destruct (waits_for_edge (falling_check pin) pin (fun a b => negb (negb (Z.eqb b 0) || Z.eqb b a)) t K s s') as [l [A [B C]]]; auto.
  - intros a m. unfold falling_check. cbn [old_is]. destruct (_ || _); reflexivity.
  - intros a. rewrite Z.eqb_refl, orb_true_r. reflexivity.
  - exists l. split; auto. split; [intros i y y' Hy Hy' Q; apply (B i y y' Hy Hy'); now apply E|]. destruct C as [[l0 [x [y [z [C1 [C2 [C3 C4]]]]]]]|C]; auto.
    left. exists l0, x, y, z. split; auto. split; auto. split; auto. now apply E.
Qed.
End Thms.
Print Assumptions C102_value.
Print Assumptions C102_all_valid.
Print Assumptions C102_all_valid_no_pins.
Print Assumptions C102_condition.
Print Assumptions C102_change.
Print Assumptions C102_rising.
Print Assumptions C102_falling.

(** Two pins: the first counts the cycles modulo 4; the second is driven by another task, to 1 after two cycles and back to 0 after two more, each time after the test has looked at it. *)
Definition tmem : Type := Z * Z.
Definition t_dut (m : tmem) : tmem := (Z.modulo (fst m + 1) 4, snd m).
Definition drive (z : Z) (k : @prog tmem) : @prog tmem := Do (OMem (fun m => ((fst m, z), Ok VNone))) k.
Definition t_other : @prog tmem := bindr (clock_cycles 2) (fun _ => drive 1 (bindr (clock_cycles 2) (fun _ => drive 0 (Ret VNone)))).
Definition t_done (r : res lval) : @prog tmem := Do (OMark (match r with Ok _ => 1 | Exn _ => 2 end)) (Ret VNone).
Definition t_trig (T : @prog tmem) : @prog tmem := Do OStartClock (Do (OCreate t_other) (bindr T t_done)).
Definition T1 (T : @prog tmem) (n : nat) : @state tmem := run ids t_dut (fun c => c) n (init (t_trig T) (0%Z, 0%Z)).
(** The call is made in cycle 0, and comes back in cycle [c]; there is a state in which it waits and the clock is about to advance. *)
Definition serves (T : @prog tmem) (c : nat) : Prop :=
  (exists k, runs (T1 T k) 0 (bindr T t_done) /\ nstep (T1 T k) = 0) /\ (exists k, at_step (T1 T k) 1 /\ nstep (T1 T k) = 1 /\ marks (T1 T k) = []) /\ exists k, marks (T1 T k) = [(0, 1, c)] /\ tdone (T1 T k) = Some false.
Ltac tserve k1 k2 k3 := split; [exists k1; split; [right; vm_compute; reflexivity|vm_compute; reflexivity]|split; [exists k2; split; [eexists; vm_compute; reflexivity|split; vm_compute; reflexivity]|exists k3; split; vm_compute; reflexivity]].
Definition t_func (m : tmem) : tmem * res bool := (m, Ok (Z.eqb (fst m) 2)).
Example C102_nonvacuous : serves (value snd 1 1) 3 /\ serves (all_valid [fst; snd] 1) 3 /\ serves (condition t_func 0) 2 /\ serves (change snd) 3 /\ serves (rising_edge snd) 3 /\ serves (falling_edge snd) 5.
Proof.
  split; [tserve 5 31 53|]. split; [tserve 5 31 53|]. split; [tserve 5 32 39|]. split; [tserve 5 33 55|]. split; [tserve 5 33 55|]. tserve 5 33 84.
Qed.
(** Without pins: with a delay it raises in cycle 0, without one it comes back in cycle 0. *)
Example C102_nonvacuous_no_pins : runs (T1 (all_valid [] 1) 5) 0 (bindr (all_valid [] 1) t_done) /\ marks (T1 (all_valid [] 1) 7) = [(0, 2, 0)] /\
  runs (T1 (all_valid [] 0) 5) 0 (bindr (all_valid [] 0) t_done) /\ marks (T1 (all_valid [] 0) 7) = [(0, 1, 0)].
Proof.
  split; [right; vm_compute; reflexivity|]. split; [vm_compute; reflexivity|]. split; [right; vm_compute; reflexivity|]. vm_compute; reflexivity.
Qed.
