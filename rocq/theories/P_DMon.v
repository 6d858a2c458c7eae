(** C100: models attached and queues started during the run. *)
From Coq Require Import List Bool Arith ZArith Lia.
From Verif Require Import Py Prio_Model Loop_Model Loop_Spec Loop2_Spec LoopProg_Model Loop_Proofs Loop2_Proofs Loop3_Proofs Loop4_Proofs Loop5_Proofs Loop6_Proofs Loop10_Proofs Loop13_Proofs Loop16_Proofs LoopRun_Model LoopRun_Proofs Mon_Model P_Loop P_Loop2 WMon_Model WMon_Spec WMon_Proofs P_WMon Bind_Spec Live_Spec Hook_Spec Prim_Spec Drv_Proofs P_Loop4 P_Coro P_Prim DMon_Model DMon_Spec.
From Verif Require P_Mon P_Comp P_Loop3.
Import ListNotations.
Open Scope nat_scope.

Section Part.
Context {mem : Type}.
Notation prog := (@prog mem).
Lemma partially_bindr n (p : prog) k l p' n' : partially n (bindr p k) l p' n' ->
  (exists p1, partially n p l p1 n' /\ p' = bindr p1 k) \/ (exists l1 l2 r n1, performs n p l1 r n1 /\ partially n1 (k r) l2 p' n' /\ l = l1 ++ l2).
Proof.
  intros P. remember (bindr p k) as q eqn:Eq. revert p Eq. induction P as [n q|n o k0 g r n1 l p' n' E P IH]; intros p Eq.
  - left. exists p. split; [apply pa_here|auto].
  - rewrite bindr_unfold in Eq. destruct p as [v|e|o1 c].
    + right. exists [], (mk_did n o g :: l), (Ok v), n. split; [apply pa_here|]. split; auto. rewrite <- Eq. eapply pa_op; eauto.
    + right. exists [], (mk_did n o g :: l), (Exn e), n. split; [apply pa_here|]. split; auto. rewrite <- Eq. eapply pa_op; eauto.
    + injection Eq as -> ->. destruct (IH (c r) eq_refl) as [[p1 [P1 ->]]|[l1 [l2 [r1 [n2 [P1 [P2 ->]]]]]]].
      * left. exists p1. split; auto. eapply pa_op; eauto.
      * right. exists (mk_did n o1 g :: l1), l2, r1, n2. split; [eapply pa_op; eauto|]. auto.
Qed.
Lemma partially_ret n (v : lval) l (p' : prog) n' : partially n (Ret v) l p' n' -> l = [] /\ p' = Ret v /\ n' = n.
Proof. intros H. inversion H; auto. Qed.
Lemma partially_raise n e l (p' : prog) n' : partially n (Raise e) l p' n' -> l = [] /\ p' = Raise e /\ n' = n.
Proof. intros H. inversion H; auto. Qed.
End Part.

Section Thms.
Context {mem : Type} (shuffle : list id -> list id) (dut delayers : mem -> mem).
Notation steps := (steps shuffle dut delayers). Notation prog := (@prog mem). Notation state := (@state mem).
Notation record := (record shuffle dut delayers). Notation mrecord := (mrecord shuffle dut delayers).
Context (attached : mem -> list nat) (queue_of : mem -> option (id * Z)) (info : nat -> @mon_model mem) (path : lval) (method : prog).
Notation dmonitor := (dmonitor attached queue_of info path method). Notation drounds := (drounds attached queue_of info path method).
Notation after := (after_method attached queue_of). Notation acts := (acts_of info path). Notation refs := (refs attached queue_of).
Implicit Types (s : state).

Lemma acts_refs m v : acts (VList [refs m; v]) = deliveries path (map info (attached m)) (queue_of m) v.
Proof.
  unfold refs. cbn [acts_of]. f_equal.
  - f_equal. induction (attached m) as [|i l IH]; simpl; auto. now rewrite IH.
  - destruct (queue_of m) as [[q z]|]; auto.
Qed.
(** What an operation on the memory gives is computed from the memory of that moment. *)
Definition consistent (L : list (mem * @did mem)) : Prop := forall m d f, In (m, d) L -> d_op d = OMem f -> d_gives d = Some (snd (f m)).
Definition settled (L : list (@did mem)) : Prop := forall d, In d L -> match d_op d with OQPut _ _ => d_gives d = Some (Ok VNone) \/ d_gives d = Some (Exn TypeError) | OQSize _ => (exists z, d_gives d = Some (Ok (VInt z))) \/ d_gives d = Some (Exn TypeError) | _ => True end.
Lemma mrecord_record t s s' L : mrecord t s s' L -> record t s s' (map snd L) /\ consistent L /\ settled (map snd L).
Proof.
  induction 1 as [s|s s1 fire l H [IH1 [IH2 IH3]]]; [split; [apply rec_refl|split; [intros m d f []|intros d []]]|]. rewrite map_app, map_map. cbn [snd]. rewrite map_id. split; [now apply rec_step|]. split.
  - intros m d f Hd Ho. apply in_app_iff in Hd as [Hd|Hd]; [eauto|]. apply in_map_iff in Hd as [d' [E Hd]]. injection E as <- <-. unfold does in Hd. destruct (cur s1) as [[t0 [[| |o k]| | | | | | ]]|]; try contradiction.
    destruct (Nat.eqb t0 t); [|contradiction]. destruct Hd as [<-|[]]. cbn [d_op d_gives] in *. now subst o.
  - intros d Hd. apply in_app_iff in Hd as [Hd|Hd]; [exact (IH3 d Hd)|]. unfold does in Hd. destruct (cur s1) as [[t0 [[| |o k]| | | | | | ]]|]; try contradiction.
    destruct (Nat.eqb t0 t); [|contradiction]. destruct Hd as [<-|[]]. cbn [d_op d_gives] in *. destruct o; auto; cbn [gives]; destruct (Nat.ltb q (List.length (qs s1))); eauto.
Qed.
Lemma queues_fine L : queues_exist L -> settled (map snd L) -> forall d, In d (map snd L) -> fine acts d.
Proof.
  intros Q S0 d Hd v a q _ _. pose proof (S0 d Hd) as H. apply in_map_iff in Hd as [[m d'] [E Hd]]. cbn in E. subst d'. pose proof (Q m d Hd) as X. destruct (d_op d); auto; intros _; destruct H; auto; congruence.
Qed.
(** The method followed by the reading. *)
Lemma after_waits r n lm o k n' : waiting o = true -> ~ partially n (after r) lm (Op o k) n'.
Proof.
  intros W P. destruct r as [v|e]; [|apply partially_raise in P as [_ [X _]]; discriminate].
  assert (C : v = VNone \/ after (Ok v) = Op (read attached queue_of v) (fun r => match r with Ok x => Ret x | Exn e => Raise e end)) by (destruct v; simpl; auto). destruct C as [->|C]; [cbn in P; apply partially_ret in P as [_ [X _]]; discriminate|].
  rewrite C in P. inversion P as [? ? E1 E2|? ? ? ? r ? ? ? ? E P2]; subst; [discriminate|]. destruct r; [apply partially_ret in P2 as [_ [X _]]|apply partially_raise in P2 as [_ [X _]]]; discriminate.
Qed.
Lemma after_ends v n lm r n' : v <> VNone -> performs n (after (Ok v)) lm r n' -> exists g, lm = [mk_did n (read attached queue_of v) g] /\ n' = n /\ forall r', g = Some r' -> r = r'.
Proof.
  intros NV P. unfold performs in P. assert (C : after (Ok v) = Op (read attached queue_of v) (fun r => match r with Ok x => Ret x | Exn e => Raise e end)) by (destruct v; simpl; auto; congruence).
  rewrite C in P. inversion P as [? ? E1 E2|? ? ? g r0 n1 l ? ? E P2]; subst; [destruct r; discriminate|]. destruct E as [_ [E1 [E2 _]]]. pose proof (E1 eq_refl) as ->.
  exists g. destruct r0 as [x|e]; [apply partially_ret in P2 as [-> [X ->]]|apply partially_raise in P2 as [-> [X ->]]]; (split; [reflexivity|]); (split; [reflexivity|]); intros r' Hr; rewrite <- (E2 _ Hr); destruct r; congruence.
Qed.
Lemma both_ok n lm x n1 : performs n (bindr method after) lm (Ok x) n1 ->
  (performs n method lm (Ok VNone) n1 /\ x = VNone) \/
  (exists v l1 g, v <> VNone /\ performs n method l1 (Ok v) n1 /\ lm = l1 ++ [mk_did n1 (read attached queue_of v) g] /\ forall r, g = Some r -> r = Ok x).
Proof.
  intros P. apply partially_bindr in P as [[p1 [P E]]|[l1 [l2 [r [n2 [P1 [P2 ->]]]]]]].
  - left. rewrite bindr_unfold in E. destruct p1 as [v|e|o c]; [|discriminate|discriminate]. destruct v; try discriminate. cbn in E. injection E as ->. split; [exact P|reflexivity].
  - destruct r as [v|e]; [|apply partially_raise in P2 as [_ [X _]]; discriminate].
    assert (V : v = VNone \/ v <> VNone) by (destruct v; auto; right; discriminate). destruct V as [->|NV].
    + cbn in P2. apply partially_ret in P2 as [-> [X ->]]. injection X as ->. rewrite app_nil_r. auto.
    + right. destruct (after_ends v n2 l2 (Ok x) n1 NV P2) as [g [-> [-> E]]]. exists v, l1, g. split; auto. split; auto. split; auto. intros r Hr. symmetry. auto.
Qed.
Lemma both_exn n lm e n1 : performs n (bindr method after) lm (Exn e) n1 ->
  performs n method lm (Exn e) n1 \/ (exists v l1 g, lm = l1 ++ [mk_did n1 (read attached queue_of v) g] /\ forall r, g = Some r -> r = Exn e).
Proof.
  intros P. apply partially_bindr in P as [[p1 [P E]]|[l1 [l2 [r [n2 [P1 [P2 ->]]]]]]].
  - rewrite bindr_unfold in E. destruct p1 as [v|e1|o c]; [destruct v; discriminate| |discriminate]. injection E as <-. left. exact P.
  - destruct r as [v|e1]; [|apply partially_raise in P2 as [-> [X ->]]; injection X as ->; left; rewrite app_nil_r; exact P1].
    assert (V : v = VNone \/ v <> VNone) by (destruct v; auto; right; discriminate). destruct V as [->|NV]; [apply partially_ret in P2 as [_ [X _]]; discriminate|].
    right. destruct (after_ends v n2 l2 (Exn e) n1 NV P2) as [g [-> [-> E]]]. exists v, l1, g. split; auto. intros r Hr. symmetry. auto.
Qed.
Lemma both_waits n lm o k n1 : waiting o = true -> partially n (bindr method after) lm (Op o k) n1 -> exists k', partially n method lm (Op o k') n1.
Proof.
  intros W P. apply partially_bindr in P as [[p1 [P E]]|[l1 [l2 [r [n2 [P1 [P2 ->]]]]]]]; [|exfalso; eapply after_waits; eauto].
  rewrite bindr_unfold in E. destruct p1 as [v|e|o1 c].
  - exfalso. eapply (after_waits (Ok v) n1 [] o k n1 W). rewrite E. apply pa_here.
  - discriminate.
  - injection E as <- _. eauto.
Qed.
Lemma drounds_of n0 vs n l : rounds (bindr method after) acts n0 vs n l -> forall L, l = map snd L -> consistent L -> exists ws, drounds n0 ws n L.
Proof.
  induction 1 as [|vs n l g lm x n1 ld R IH P D]; intros L HL C.
  - symmetry in HL. apply map_eq_nil in HL. subst. exists []. constructor.
  - symmetry in HL. apply map_eq_app in HL as [L1 [L2 [-> [E1 E2]]]]. destruct L2 as [|[m1 d1] L2]; [discriminate|]. cbn in E2. injection E2 as -> E2. apply map_eq_app in E2 as [L3 [L4 [-> [E3 E4]]]].
    destruct (IH L1 (eq_sym E1)) as [ws DR]; [intros m d f Hd; apply C; apply in_app_iff; now left|]. destruct (both_ok _ _ _ _ P) as [[P1 ->]|[v [l1 [g1 [NV [P1 [E5 G]]]]]]].
    + exists ws. cbn [due] in D. assert (X : ld = []) by (inversion D; auto). rewrite X in E4. apply map_eq_nil in E4. subst L4 lm. rewrite app_nil_r. eapply dr_none; eauto.
    + exists (ws ++ [v]). rewrite E5 in E3. apply map_eq_app in E3 as [L5 [L6 [-> [E6 E7]]]]. destruct L6 as [|[m2 d2] [|? ?]]; [discriminate| |discriminate]. cbn in E7. injection E7 as ->. rewrite <- app_assoc. cbn [app].
      assert (Gm : g1 = Some (Ok (VList [refs m2; v]))).
      { apply (C m2 (mk_did n1 (read attached queue_of v) g1) (fun m => (m, Ok (VList [refs m; v])))); [|reflexivity]. apply in_app_iff. right. right. apply in_app_iff. left. apply in_app_iff. right. now left. }
      pose proof (G _ Gm) as X. injection X as <-. rewrite <- E4 in D. change (due acts (VList [refs m2; v])) with (acts (VList [refs m2; v])) in D. rewrite acts_refs in D. subst l1. eapply dr_some; eauto. exists (fun m => (m, Ok (VList [refs m; v]))). auto.
Qed.

(** Whenever the clock task is about to make a step (before the end of a test without cancellation): every value that the method has returned so far was delivered in the cycle of its return,
    to exactly the models attached then and the queue in use then; the monitor waits for the clock event since this cycle, or its method waits in one of its operations, or
    the method has raised an exception. *)
Theorem C100_at_step (test : prog) m t c s s' L : nocancel test -> steps (init test m) s -> cur s = Some (t, BProg dmonitor) -> mrecord t s s' L -> queues_exist L -> at_step s' c -> tdone s' <> Some true ->
  exists vs n l, drounds (nstep s) vs n l /\
    ((exists m1, L = l ++ [(m1, mk_did n (OEvWait 0) None)] /\ nstep s' = n) \/
     (exists m1 g lm o k n1 m2, partially (S n) method (map snd lm) (Op o k) n1 /\ waiting o = true /\ L = l ++ (m1, mk_did n (OEvWait 0) g) :: lm ++ [(m2, mk_did n1 o None)] /\ unfinished s' t /\ (o = OEvWait 0 -> nstep s' = n1)) \/
     (exists m1 g lm e n1, L = l ++ (m1, mk_did n (OEvWait 0) g) :: lm /\ failed s' t e /\ performs (S n) method (map snd lm) (Exn e) n1)).
Proof.
  intros NT R0 Hc G Q AS TD. destruct (mrecord_record _ _ _ _ G) as [G1 [C S0]].
  destruct (at_step_where shuffle dut delayers (bindr method after) acts test m t c s s' (map snd L) NT R0 (queues_fine L Q S0) Hc G1 AS TD) as [vs [n [l [R H]]]].
  assert (X : exists L1 L2, L = L1 ++ L2 /\ l = map snd L1).
  { destruct H as [[E _]|[[g [lm [o [k [n1 [_ [_ [E _]]]]]]]]|[g [lm [e [n1 [E _]]]]]]]; apply map_eq_app in E as [L1 [L2 [-> [E1 E2]]]]; eauto. }
  destruct X as [L1 [L2 [-> ->]]]. rewrite map_app in H. destruct (drounds_of _ _ _ _ R L1 eq_refl) as [ws DR]; [intros m0 d f Hd; apply C; apply in_app_iff; now left|].
  exists ws, n, L1. split; auto. destruct H as [[E N]|[[g [lm [o [k [n1 [P [W [E [U N]]]]]]]]]|[g [lm [e [n1 [E [Fl P]]]]]]]]; apply app_inv_head in E.
  - left. destruct L2 as [|[m1 d] [|? ?]]; [discriminate| |discriminate]. cbn in E. injection E as ->. eauto.
  - right; left. destruct L2 as [|[m1 d] L2]; [discriminate|]. cbn in E. injection E as -> E. apply map_eq_app in E as [L3 [L4 [-> [E1 E2]]]]. destruct L4 as [|[m2 d2] [|? ?]]; [discriminate| |discriminate]. cbn in E2. injection E2 as ->. subst lm.
    destruct (both_waits _ _ _ _ _ W P) as [k' P']. exists m1, g, L3, o, k', n1, m2. auto 10.
  - right; right. destruct L2 as [|[m1 d] L2]; [discriminate|]. cbn in E. injection E as -> <-. destruct (both_exn _ _ _ _ P) as [P1|[v [l1 [g1 [E1 G2]]]]]; [exists m1, g, L2, e, n1; auto|exfalso].
    apply map_eq_app in E1 as [L5 [L6 [-> [E6 E7]]]]. destruct L6 as [|[m2 d2] [|? ?]]; [discriminate| |discriminate]. cbn in E7. injection E7 as ->.
    assert (Gm : g1 = Some (Ok (VList [refs m2; v]))).
    { apply (C m2 (mk_did n1 (read attached queue_of v) g1) (fun m => (m, Ok (VList [refs m; v])))); [|reflexivity]. apply in_app_iff. right. right. apply in_app_iff. right. now left. }
    pose proof (G2 _ Gm). discriminate.
Qed.
End Thms.
Print Assumptions C100_at_step.

(** The memory: number of steps of the DUT, models attached to the monitor, its queue.  The method returns the number of steps made; model 0 has an unbounded monitor port (queue 0). *)
Definition dmem : Type := nat * (list nat * option (id * Z)).
Definition d_att (m : dmem) := fst (snd m).
Definition d_que (m : dmem) := snd (snd m).
Definition d_setq (g : id * Z) (m : dmem) : dmem := (fst m, (d_att m, Some g)).
Definition d_seta (l : list nat) (m : dmem) : dmem := (fst m, (l, d_que m)).
Definition d_dut (m : dmem) : dmem := (S (fst m), snd m).
Definition d_info (i : nat) : @mon_model dmem := mk_mm [] (Some (0, (-1)%Z)) [] None.
Definition d_method : @prog dmem := Op (OMem (fun m => (m, Ok (VInt (Z.of_nat (fst m)))))) (fun r => match r with Ok v => Ret v | Exn e => Raise e end).
Definition d_mon : @prog dmem := dmonitor d_att d_que d_info (VInt 7) d_method.
Definition d_attach (l : list nat) (k : @prog dmem) : @prog dmem := Op (OMem (fun m => (d_seta l m, Ok VNone))) (fun _ => k).
(** The model is attached after one cycle and removed after three; the monitor is started after two cycles, and again after four. *)
Definition t_dmon : @prog dmem :=
  Do OStartClock (Do OQNew (Do (OCreate d_mon) (
    bindr (clock_cycles 1) (fun _ => d_attach [0] (
    bindr (clock_cycles 1) (fun _ => start_monitor d_setq 4 (
    bindr (clock_cycles 1) (fun _ => d_attach [] (
    bindr (clock_cycles 1) (fun _ => start_monitor d_setq 4 (
    bindr (clock_cycles 3) (fun _ => Ret VNone)))))))))))).
Definition stepd := step ids d_dut (fun c : dmem => c) [].
Fixpoint rund (t n : nat) (x : @state dmem * list (dmem * did)) := match n with 0 => x | S n' => rund t n' (stepd (fst x), snd x ++ map (fun d => (mm (fst x), d)) (does t (fst x))) end.
Definition N0 : dmem := (0, ([], None)).
Definition D1 (n : nat) : @state dmem := run ids d_dut (fun c => c) n (init t_dmon N0).
Definition exist_check (L : list (dmem * @did dmem)) : bool :=
  forallb (fun x => match d_op (snd x) with OQPut _ _ | OQSize _ => match d_gives (snd x) with Some (Exn TypeError) => false | _ => true end | _ => true end) L.
Lemma exist_checked L : exist_check L = true -> queues_exist L.
Proof. intros H m d Hd. unfold exist_check in H. rewrite forallb_forall in H. specialize (H _ Hd). cbn in H. destruct (d_op d); auto; intros E; now rewrite E in H. Qed.
Lemma rund_record t n : forall s0 s l, mrecord ids d_dut (fun c => c) t s0 s l -> mrecord ids d_dut (fun c => c) t s0 (fst (rund t n (s, l))) (snd (rund t n (s, l))).
Proof. induction n as [|n IH]; intros s0 s l H; simpl; auto. apply IH. now apply mr_step. Qed.
Lemma nocancel_dmon : nocancel d_mon.
Proof.
  apply nocancel_wmon.
  - apply nocancel_bindr; [apply nc_op; [intros c; discriminate|intros p X; inversion X|]; intros [v|e] Hr; constructor; congruence|]. intros [v|e] Hr; [|constructor; congruence].
    assert (X : nocancel (Op (read d_att d_que v) (fun r => match r with Ok x => Ret x | Exn e => Raise e end))) by (apply nc_op; [intros c; discriminate|intros p X; inversion X|]; intros [w|e] Hr'; constructor; congruence).
    destruct v; [constructor|exact X|exact X|exact X|exact X].
  - intros v. destruct v as [| | | |[|[| | | |[|[| | | |l] [|g [|? ?]]]] [|v [|? ?]]]]; try constructor. cbn [acts_of]. unfold deliveries, P_Mon.calm_acts. apply Forall_app. split.
    + apply Forall_flat_map. apply Forall_forall. intros m Hm. apply in_map_iff in Hm as [i [<- _]]. repeat constructor.
    + destruct (match g with VList [VId q; VInt z] => Some (q, z) | _ => None end) as [[q z]|]; repeat constructor.
  - constructor.
Qed.
Example C100_nonvacuous : nocancel t_dmon /\ exists s s' L, steps ids d_dut (fun c => c) (init t_dmon N0) s /\ cur s = Some (2, BProg d_mon) /\ mrecord ids d_dut (fun c => c) 2 s s' L /\ queues_exist L /\ at_step s' 1 /\ tdone s' = Some false /\
  nstep s = 0 /\ nstep s' = 6 /\ items s' 0 = [VInt 1; VInt 2] /\ items s' 1 = [VInt 2; VInt 3] /\ items s' 2 = [VInt 4; VInt 5; VInt 6].
Proof.
  split.
  - unfold t_dmon, start_monitor, d_attach, Do. repeat first [exact nocancel_dmon | apply nocancel_cycles | apply nocancel_bindr | progress intros | match goal with H : part _ _ |- _ => inversion H; subst; clear H | H : ?r <> Exn CancelledError |- nocancel (match ?r with _ => _ end) => destruct r as [[]|]; [..|constructor; congruence] end | apply nc_ret | apply nc_raise; discriminate | apply nc_op; [first [exact Logic.I|intros ?; discriminate]| |]].
  - exists (D1 12), (fst (rund 2 145 (D1 12, []))), (snd (rund 2 145 (D1 12, []))). split; [apply run_steps|]. split; [vm_compute; reflexivity|]. split; [apply rund_record; constructor|]. split; [apply exist_checked; vm_compute; reflexivity|].
    split; [eexists; vm_compute; reflexivity|]. vm_compute. auto 10.
Qed.


Section Call.
Context {mem : Type} (shuffle : list id -> list id) (dut delayers : mem -> mem) (test : @prog mem) (m : mem) (queue_of : mem -> option (id * Z)).
Notation steps := (steps shuffle dut delayers). Notation step := (step shuffle dut delayers). Notation prog := (@prog mem). Notation state := (@state mem).
Implicit Types (s : state).
(** A call of the monitor method.  If the monitor was never started it raises an error at once.  Otherwise it is tied to the queue [q] that is in use at that moment: when it comes back with a value, this
    is the one item it has taken out of [q]; and if it has not come back when the clock makes a step, then there is nothing in [q] (or the test is over).
    Missing: that the results which the monitor delivers meanwhile go to [q] (they do unless the monitor is started again, [C101_again_refuted]) and that no other task takes them ([C101_served_partial]). *)
Theorem C101_not_started t (K : res lval -> prog) s fire : runs s t (bindr (monitor_call queue_of) K) -> queue_of (mm s) = None -> runs (step fire s) t (K (Exn AttributeError)).
Proof.
  intros Hr Hq. apply runs_wrap in Hr as [W [HW Hc]]. rewrite bindr_unfold in Hc. cbn [monitor_call] in Hc. apply runs_wrap. exists W. split; auto. rewrite (step_op shuffle dut delayers W fire s t _ _ HW Hc). cbn [exec_op]. rewrite Hq. cbn. now rewrite bindr_unfold.
Qed.
Theorem C101_call_partial t q z c (K : res lval -> prog) s fire s' l : tame test -> steps (init test m) s -> runs s t (bindr (monitor_call queue_of) K) -> queue_of (mm s) = Some (q, z) -> q < List.length (qs s) ->
  taken shuffle dut delayers t q (step fire s) s' l -> at_cycle s' c ->
  (exists y r l1 l2, taken shuffle dut delayers t q (step fire s) y l1 /\ taken shuffle dut delayers t q y s' l2 /\ l = l1 ++ l2 /\ runs y t (K r) /\
     match r with Ok v => l1 = [v] | Exn e => l1 = [] /\ e = CancelledError /\ (nocancel test -> test_over y) end) \/
  (awaiting s' t K /\ ((l = [] /\ items s' q = []) \/ cancelling s')).
Proof.
  intros TA R Hr Hq LQ T AC. assert (R1 : steps (init test m) (step fire s)) by now apply steps_step.
  assert (X : runs (step fire s) t (bindr (queue_get q) K) /\ qs (step fire s) = qs s).
  { apply runs_wrap in Hr as [W [HW Hc]]. rewrite bindr_unfold in Hc. cbn [monitor_call] in Hc. rewrite (step_op shuffle dut delayers W fire s t _ _ HW Hc). cbn [exec_op]. rewrite Hq. split; [|reflexivity]. apply runs_wrap. exists W. split; auto. }
  destruct X as [Hr1 EQ]. assert (LQ1 : q < List.length (qs (step fire s))) by now rewrite EQ.
  exact (C96_get_waits shuffle dut delayers test m q t K _ _ _ c TA R1 LQ1 Hr1 T AC).
Qed.
Lemma taken_then t q s s' l : taken shuffle dut delayers t q s s' l -> steps s s'.
Proof. induction 1; [apply steps_refl|]. now apply steps_step. Qed.
Lemma flow_taken t q s s' P G O : flow shuffle dut delayers t q s s' P G O -> taken shuffle dut delayers t q s s' G.
Proof. induction 1; constructor; auto. Qed.
Lemma flow_fifo t q s s' P G : flow shuffle dut delayers t q s s' P G [] -> items s q ++ P = G ++ items s' q.
Proof.
  intros H. remember [] as O eqn:EO. induction H as [|s1 P G O fire H IH]; [apply app_nil_r|]. symmetry in EO. apply eq_sym, app_eq_nil in EO as [-> EO]. rewrite app_assoc, (IH eq_refl), <- !app_assoc. f_equal.
  rewrite (P_Loop3.items_step shuffle dut delayers fire s1 q). f_equal. unfold taken_by. unfold others_take in EO. destruct (cur s1) as [[u b]|] eqn:Hc; [|unfold got_by, looksb, current_op; now rewrite Hc]. destruct (Nat.eqb u t); auto.
Qed.
(** If no other task takes results out of the queue meanwhile: whenever the clock is about to advance, the call has come back with the oldest result that was in the queue at the call or, if it was empty,
    with the first that has been put into it since; it still waits only if there was none and none has been put.  (Exceptions: the call is cancelled.)  That the results of the monitor are put into the
    queue in use in the cycle in which the method returns them is [C100_at_step]. *)
Theorem C101_served_partial t q z c (K : res lval -> prog) s fire s' P G : tame test -> steps (init test m) s -> runs s t (bindr (monitor_call queue_of) K) -> queue_of (mm s) = Some (q, z) -> q < List.length (qs s) ->
  flow shuffle dut delayers t q (step fire s) s' P G [] -> at_cycle s' c -> ~ cancelling s' ->
  (exists y v rest, items s q ++ P = v :: rest /\ steps (step fire s) y /\ steps y s' /\ runs y t (K (Ok v))) \/
  (exists y, steps (step fire s) y /\ steps y s' /\ runs y t (K (Exn CancelledError)) /\ (nocancel test -> test_over y)) \/
  (awaiting s' t K /\ items s q = [] /\ P = []).
Proof.
  intros TA R Hr Hq LQ F AC NC. pose proof (flow_taken _ _ _ _ _ _ _ F) as T. pose proof (flow_fifo _ _ _ _ _ _ F) as FI.
  assert (EI : items (step fire s) q = items s q).
  { apply runs_wrap in Hr as [W [HW Hc]]. rewrite bindr_unfold in Hc. cbn [monitor_call] in Hc. rewrite (step_op shuffle dut delayers W fire s t _ _ HW Hc). cbn [exec_op]. rewrite Hq. reflexivity. }
  rewrite EI in FI. destruct (C101_call_partial t q z c K s fire s' G TA R Hr Hq LQ T AC) as [[y [r [l1 [l2 [T1 [T2 [-> [Hy E]]]]]]]]|[A [[-> B]|B]]]; [|right; right; rewrite B in FI; apply app_eq_nil in FI; tauto|contradiction].
  pose proof (taken_then _ _ _ _ _ T1) as S1. pose proof (taken_then _ _ _ _ _ T2) as S2. destruct r as [v|e].
  - left. subst l1. exists y, v, (l2 ++ items s' q). auto.
  - right; left. destruct E as [-> [-> E]]. exists y. auto.
Qed.
(** [start_monitor] makes a new, empty queue, which is in use from then on; the other queues (also the one that was in use before) keep their items.  It takes no time. *)
Theorem C101_start (set_queue : id * Z -> mem -> mem) t maxsize (k : prog) s f1 f2 : (forall g x, queue_of (set_queue g x) = Some g) -> runs s t (start_monitor set_queue maxsize k) ->
  let s2 := step f2 (step f1 s) in let q := List.length (qs s) in
  runs s2 t k /\ queue_of (mm s2) = Some (q, maxsize) /\ q < List.length (qs s2) /\ items s2 q = [] /\ (forall q', q' < q -> items s2 q' = items s q') /\ nstep s2 = nstep s.
Proof.
  intros L Hr s2 q. apply runs_wrap in Hr as [W [HW Hc]]. unfold start_monitor in Hc. pose proof (step_op shuffle dut delayers W f1 s t _ _ HW Hc) as H1. cbn [exec_op] in H1.
  assert (Hc1 : cur (step f1 s) = Some (t, W (Op (OMem (fun m => (set_queue (q, maxsize) m, Ok VNone))) (fun _ => k)))) by (rewrite H1; reflexivity). pose proof (step_op shuffle dut delayers W f2 _ t _ _ HW Hc1) as H2. cbn [exec_op] in H2. fold s2 in H2.
  assert (Q2 : qs s2 = qs s ++ [mk_queue [] []]) by (rewrite H2, H1; reflexivity). split; [apply runs_wrap; exists W; split; auto; rewrite H2; reflexivity|]. split; [rewrite H2; apply L|]. unfold items. rewrite Q2. split; [rewrite app_length; unfold q; cbn; lia|].
  split; [unfold q; rewrite nth_error_app2, Nat.sub_diag by lia; reflexivity|]. split; [intros q' Hq'; rewrite nth_error_app1; auto|]. rewrite H2, H1. reflexivity.
Qed.
End Call.
(** Not true: a call of the monitor method that waits for a result gets the next one.  The call waits at the queue that was in use when it was made; if the monitor is started again meanwhile, the
    results go to the new queue, and the call is never served: it is still waiting when the run is over, and is cancelled then. *)
Definition t_again : @prog dmem :=
  Do OStartClock (Do (OCreate d_mon) (start_monitor d_setq 4 (Op (OCreate (monitor_call d_que)) (fun _ => bindr sleep0 (fun _ => start_monitor d_setq 4 (bindr (clock_cycles 3) (fun _ => Ret VNone))))))).
Definition A1 (n : nat) : @state dmem := run ids d_dut (fun c => c) n (init t_again N0).
(** The call [3] waits at the queue in use (queue 0); the monitor is started again (queue 1); it delivers its results of the cycles 1, 2 and 3; the call still waits when the clock
    makes the step after cycle 2, and also at the end of the test, when it is cancelled. *)
Lemma A1_split a b : steps ids d_dut (fun c => c) (A1 a) (A1 (a + b)).
Proof. unfold A1. rewrite run_more. apply run_steps. Qed.
Theorem C101_again_refuted : nocancel t_again /\ exists s0 s1 s2 s3, steps ids d_dut (fun c => c) (init t_again N0) s0 /\ cur s0 = Some (3, BProg (monitor_call d_que)) /\ d_que (mm s0) = Some (0, 4%Z) /\
  steps ids d_dut (fun c => c) s0 s1 /\ waits_to_get s1 3 0 /\ d_que (mm s1) = Some (0, 4%Z) /\
  steps ids d_dut (fun c => c) s1 s2 /\ at_cycle s2 1 /\ nstep s2 = 2 /\ waits_to_get s2 3 0 /\ d_que (mm s2) = Some (1, 4%Z) /\ items s2 1 = [VInt 1; VInt 2] /\
  steps ids d_dut (fun c => c) s2 s3 /\ tdone s3 = Some true /\ state_of s3 3 = Some Canc /\ items s3 1 = [VInt 1; VInt 2; VInt 3].
Proof.
  split.
  - unfold t_again, start_monitor, monitor_call, queue_get, sleep0, Let, thenv, Do. repeat first [exact nocancel_dmon | apply nocancel_cycles | apply nocancel_bindr | progress intros | match goal with H : part _ _ |- _ => inversion H; subst; clear H | H : ?r <> Exn CancelledError |- nocancel (match ?r with _ => _ end) => destruct r as [[]|]; [..|constructor; congruence] end | apply nc_ret | apply nc_raise; discriminate | apply nc_op; [first [exact Logic.I|intros x; destruct (d_que x); discriminate|intros ?; discriminate]| |]].
  - assert (W : forall n f, option_map k_wait (tget (A1 n) 3) = Some (Some f) -> option_map f_kind (fget (A1 n) f) = Some (KQueue 0) -> state_of (A1 n) f = Some Pending -> waits_to_get (A1 n) 3 0).
    { intros n f H1 H2 H3. unfold state_of in H3. destruct (fget (A1 n) f) as [fu|] eqn:E; [|discriminate]. destruct (tget (A1 n) 3) as [k|] eqn:E2; [|discriminate]. injection H1 as H1. injection H2 as H2. injection H3 as H3. exists f, fu. split; [exists k; auto|]. auto. }
    exists (A1 16), (A1 (16 + 2)), (A1 (18 + 58)), (A1 (76 + 32)). split; [apply run_steps|]. split; [vm_compute; reflexivity|]. split; [vm_compute; reflexivity|]. split; [apply A1_split|]. split; [apply (W _ 5); vm_compute; reflexivity|]. split; [vm_compute; reflexivity|].
    split; [apply A1_split|]. split; [vm_compute; reflexivity|]. split; [vm_compute; reflexivity|]. split; [apply (W _ 5); vm_compute; reflexivity|]. split; [vm_compute; reflexivity|]. split; [vm_compute; reflexivity|].
    split; [apply A1_split|]. vm_compute. auto.
Qed.
Print Assumptions C101_not_started.
Print Assumptions C101_call_partial.
Print Assumptions C101_served_partial.
Print Assumptions C101_start.
Print Assumptions C101_again_refuted.

(** A test that calls the monitor method before there is a result; another task puts one into the queue after one cycle. *)
Definition t_rest (r : res lval) : @prog dmem := match r with Ok v => bindr (clock_cycles 1) (fun _ => Ret v) | Exn e => Raise e end.
Definition t_call : @prog dmem :=
  Do OStartClock (start_monitor d_setq 4 (Do (OCreate (bindr (clock_cycles 1) (fun _ => queue_put 0 (VInt 9)))) (bindr (monitor_call d_que) t_rest))).
Definition C1 (n : nat) : @state dmem := run ids d_dut (fun c => c) n (init t_call N0).
Lemma taken_C1 t q a n : taken ids d_dut (fun c => c) t q (C1 a) (C1 (a + n)) (flat_map (fun i => taken_by (C1 (a + i)) t q) (seq 0 n)).
Proof.
  induction n as [|n IH]; [rewrite Nat.add_0_r; constructor|]. rewrite Nat.add_succ_r, seq_S, flat_map_app. unfold C1 at 2. rewrite run_last. cbn [flat_map Nat.add]. rewrite app_nil_r. now constructor.
Qed.
Lemma t_call_tame : tame t_call.
Proof.
  unfold t_call, t_rest, start_monitor, monitor_call, queue_get, queue_put, Do, Let. repeat (first [apply all_ret | apply allp_bindr | progress intros | match goal with H : part _ _ |- _ => inversion H; subst; clear H end | match goal with |- allp _ (thenv _ ?r) => destruct r; cbn [thenv] | |- allp _ (match ?r with _ => _ end) => destruct r as [[]|] | |- allp _ (clock_cycles _) => apply P_Comp.tame_cycles end | apply all_op; [exact Logic.I| |] | apply all_raise]).
Qed.
Lemma t_call_nocancel : nocancel t_call.
Proof.
  unfold t_call, t_rest, start_monitor, monitor_call, queue_get, queue_put, Let, thenv, Do. repeat first [match goal with |- nocancel (thenv _ ?r) => unfold thenv end | apply nocancel_cycles | apply nocancel_bindr | progress intros | match goal with H : part _ _ |- _ => inversion H; subst; clear H | H : ?r <> Exn CancelledError |- nocancel (match ?r with _ => _ end) => destruct r as [[]|]; [..|constructor; congruence] end | apply nc_ret | apply nc_raise; discriminate | apply nc_op; [first [exact Logic.I|intros x; destruct (d_que x); discriminate|intros ?; discriminate]| |]].
Qed.
(** The call is made in state 7; it waits when the clock makes its first step, and has come back with the value put by the other task when it makes its second one. *)
Example C101_nonvacuous : let s := C1 7 in let s1 := C1 20 in let s2 := C1 44 in
  tame t_call /\ steps ids d_dut (fun c => c) (init t_call N0) s /\ runs s 0 (bindr (monitor_call d_que) t_rest) /\ d_que (mm s) = Some (0, 4%Z) /\ 0 < List.length (qs s) /\
  taken ids d_dut (fun c => c) 0 0 (step ids d_dut (fun c => c) [] s) s1 [] /\ at_cycle s1 1 /\ items s1 0 = [] /\ taken ids d_dut (fun c => c) 0 0 (step ids d_dut (fun c => c) [] s) s2 [VInt 9] /\ at_cycle s2 1.
Proof.
  intros s s1 s2. assert (E : step ids d_dut (fun c => c) [] s = C1 8) by (unfold s, C1; rewrite <- run_last; reflexivity).
  assert (E1 : flat_map (fun i => taken_by (C1 (8 + i)) 0 0) (seq 0 12) = []) by (vm_compute; reflexivity). assert (E2 : flat_map (fun i => taken_by (C1 (8 + i)) 0 0) (seq 0 36) = [VInt 9]) by (vm_compute; reflexivity).
  split; [exact t_call_tame|]. split; [apply run_steps|]. split; [right; vm_compute; reflexivity|]. split; [vm_compute; reflexivity|]. split; [vm_compute; auto|]. rewrite E.
  split; [rewrite <- E1; exact (taken_C1 0 0 8 12)|]. split; [vm_compute; reflexivity|]. split; [vm_compute; reflexivity|]. split; [rewrite <- E2; exact (taken_C1 0 0 8 36)|]. vm_compute; reflexivity.
Qed.
(** The same execution: the value put by the other task is the first one put since the call, and only the call takes values out of the queue. *)
Lemma flow_C1 t q a n : flow ids d_dut (fun c => c) t q (C1 a) (C1 (a + n)) (flat_map (fun i => put_by (C1 (a + i)) q) (seq 0 n)) (flat_map (fun i => taken_by (C1 (a + i)) t q) (seq 0 n)) (flat_map (fun i => others_take (C1 (a + i)) t q) (seq 0 n)).
Proof.
  induction n as [|n IH]; [rewrite Nat.add_0_r; constructor|]. rewrite Nat.add_succ_r, seq_S, !flat_map_app. unfold C1 at 2. rewrite run_last. cbn [flat_map Nat.add]. rewrite !app_nil_r. now constructor.
Qed.
Example C101_served_nonvacuous : let s := C1 7 in let s1 := C1 20 in let s2 := C1 44 in
  tame t_call /\ steps ids d_dut (fun c => c) (init t_call N0) s /\ runs s 0 (bindr (monitor_call d_que) t_rest) /\ d_que (mm s) = Some (0, 4%Z) /\ 0 < List.length (qs s) /\
  flow ids d_dut (fun c => c) 0 0 (step ids d_dut (fun c => c) [] s) s1 [] [] [] /\ at_cycle s1 1 /\ ~ cancelling s1 /\ flow ids d_dut (fun c => c) 0 0 (step ids d_dut (fun c => c) [] s) s2 [VInt 9] [VInt 9] [] /\ at_cycle s2 1 /\ ~ cancelling s2.
Proof.
  intros s s1 s2. assert (E : step ids d_dut (fun c => c) [] s = C1 8) by (unfold s, C1; rewrite <- run_last; reflexivity).
  assert (F1 : flow ids d_dut (fun c => c) 0 0 (C1 8) (C1 (8 + 12)) [] [] []).
  { pose proof (flow_C1 0 0 8 12) as H. assert (E1 : flat_map (fun i => put_by (C1 (8 + i)) 0) (seq 0 12) = []) by (vm_compute; reflexivity). assert (E2 : flat_map (fun i => taken_by (C1 (8 + i)) 0 0) (seq 0 12) = []) by (vm_compute; reflexivity).
    assert (E3 : flat_map (fun i => others_take (C1 (8 + i)) 0 0) (seq 0 12) = []) by (vm_compute; reflexivity). now rewrite E1, E2, E3 in H. }
  assert (F2 : flow ids d_dut (fun c => c) 0 0 (C1 8) (C1 (8 + 36)) [VInt 9] [VInt 9] []).
  { pose proof (flow_C1 0 0 8 36) as H. assert (E1 : flat_map (fun i => put_by (C1 (8 + i)) 0) (seq 0 36) = [VInt 9]) by (vm_compute; reflexivity). assert (E2 : flat_map (fun i => taken_by (C1 (8 + i)) 0 0) (seq 0 36) = [VInt 9]) by (vm_compute; reflexivity).
    assert (E3 : flat_map (fun i => others_take (C1 (8 + i)) 0 0) (seq 0 36) = []) by (vm_compute; reflexivity). now rewrite E1, E2, E3 in H. }
  split; [exact t_call_tame|]. split; [apply run_steps|]. split; [right; vm_compute; reflexivity|]. split; [vm_compute; reflexivity|]. split; [vm_compute; auto|]. rewrite E.
  assert (NCC : forall n, tdone (C1 n) <> Some true -> ~ cancelling (C1 n)) by (intros n TD [t [f [_ X]]]; apply TD; exact (canc_tdone ids d_dut (fun c => c) t_call N0 (C1 n) f t_call_nocancel (run_steps _ _ _ _ _) X)).
  split; [exact F1|]. split; [vm_compute; reflexivity|]. split; [apply NCC; vm_compute; discriminate|]. split; [exact F2|]. split; [vm_compute; reflexivity|]. apply NCC; vm_compute; discriminate.
Qed.
(** The hypotheses of [C101_start] are met: the test starts its monitor for the second time when a first queue is in use and has an item. *)
Definition t_last : @prog dmem := bindr (clock_cycles 3) (fun _ => Ret VNone).
Definition t_twice : @prog dmem := start_monitor d_setq 4 (Op (OQPut 0 (VInt 5)) (fun _ => start_monitor d_setq 4 t_last)).
Definition T2 (n : nat) : @state dmem := run ids d_dut (fun c => c) n (init t_twice N0).
Example C101_start_nonvacuous : (forall g x, d_que (d_setq g x) = Some g) /\ let s := T2 6 in steps ids d_dut (fun c => c) (init t_twice N0) s /\ runs s 0 (start_monitor d_setq 4 t_last) /\ d_que (mm s) = Some (0, 4%Z) /\ items s 0 = [VInt 5].
Proof.
  split; [reflexivity|]. intros s. split; [apply run_steps|]. split; [right; vm_compute; reflexivity|]. vm_compute. auto.
Qed.
Example C101_not_started_nonvacuous : exists s : @state dmem, runs s 0 (bindr (monitor_call d_que) t_rest) /\ d_que (mm s) = None /\ steps ids d_dut (fun c => c) (init (bindr (monitor_call d_que) t_rest) N0) s.
Proof. exists (run ids d_dut (fun c => c) 3 (init (bindr (monitor_call d_que) t_rest) N0)). split; [right; vm_compute; reflexivity|]. split; [vm_compute; reflexivity|]. apply run_steps. Qed.
