(** C89: what a task does follows its coroutine; monitors whose method waits. *)
From Coq Require Import List Bool Arith ZArith Lia.
From Verif Require Import Py Prio_Model Loop_Model Loop_Spec Loop2_Spec LoopProg_Model Loop_Proofs Loop2_Proofs Loop3_Proofs Loop4_Proofs Loop5_Proofs Loop6_Proofs Loop7_Proofs Loop9_Proofs Loop10_Proofs Loop13_Proofs Loop16_Proofs LoopRun_Model LoopRun_Proofs Mon_Model P_Loop P_Loop2 WMon_Model WMon_Spec WMon_Proofs.
From Verif Require P_Mon.
Import ListNotations.
Open Scope nat_scope.

Section Thms.
Context {mem : Type} (shuffle : list id -> list id) (dut delayers : mem -> mem).
Notation steps := (steps shuffle dut delayers). Notation step := (step shuffle dut delayers). Notation prog := (@prog mem). Notation state := (@state mem). Notation body := (@body mem).
Notation record := (record shuffle dut delayers).
Implicit Types (s : state).

(** A task about to execute the coroutine [p].  Whatever else goes on: what it has begun to do since then are operations of [p], in the
    order of [p], each going on with the outcome of the one before; an operation that does not wait ends in its cycle, a wait for the
    clock event in the next one.  Now the task is about to do the rest [p'], or is inside the last operation begun, or is over. *)
Theorem C89_in_order (test : prog) m t p s s' L : steps (init test m) s -> cur s = Some (t, BProg p) -> record t s s' L ->
  exists l p' n, partially (nstep s) p l p' n /\
    ((L = l /\ cur s' = Some (t, BProg p') /\ nstep s' = n) \/
     (exists o k, p' = Op o k /\ waiting o = true /\ L = l ++ [mk_did n o None] /\ unfinished s' t /\ n <= nstep s' /\
        (o = OEvWait 0 -> clock_wait test s' t n)) \/
     (L = l /\ n <= nstep s' /\ ((exists v, p' = Ret v /\ (returned s' t v \/ state_of s' t = Some Canc)) \/ exists e, p' = Raise e /\ failed s' t e))).
Proof.
  intros R0 Hc G. assert (R1 : steps (init test m) s') by (eapply steps_trans; [exact R0|eapply record_steps; eauto]).
  destruct (where_track shuffle dut delayers test m t p s s' L R0 Hc G) as [l [p' [n [P H]]]]. exists l, p', n. split; auto. destruct H as [H|[[o [k [-> [-> M]]]]|[-> [N H]]]]; auto.
  - right; left. exists o, k. split; auto. split; [apply M|]. split; auto. destruct (mid_live shuffle dut delayers test m s' t n o k R1 M) as [A B]. split; auto. split; auto. intros ->. exact (mid_clock shuffle dut delayers test m s' t n k R1 M).
Qed.

Context (method : prog) (acts : lval -> list (@action mem)).
Notation wmon := (wmon method acts). Notation wmonitor := (wmonitor method acts). Notation rounds := (rounds method acts).
Definition waiting_free (p : prog) : Prop := exists o k, p = Op o k /\ waiting o = false.
Lemma delivers_some n (a : list (@action mem)) : exists l, delivers n a l.
Proof.
  induction a as [|[q v|h z|q z v] a [l IH]]; [exists []; constructor|eexists; apply (dv_put _ _ _ None); eauto|eexists; apply (dv_hook _ _ _ None); eauto|].
  eexists. apply (dv_full _ _ _ _ z); eauto. lia.
Qed.
(** The cases of [C89_monitor], if the queues the deliveries name exist when they are used. *)
Lemma monitor_where (test : prog) m t s s' L : steps (init test m) s -> (forall d, In d L -> fine acts d) -> cur s = Some (t, BProg wmonitor) -> record t s s' L ->
  exists vs n l, rounds (nstep s) vs n l /\
    ((L = l /\ (exists p, cur s' = Some (t, BProg p)) /\ nstep s' = n) \/
     (L = l ++ [mk_did n (OEvWait 0) None] /\ clock_wait test s' t n) \/
     (exists g lm p n1, partially (S n) method lm p n1 /\
        ((L = l ++ mk_did n (OEvWait 0) g :: lm /\ (exists q, cur s' = Some (t, BProg q)) /\ nstep s' = n1) \/
         (exists o k, p = Op o k /\ waiting o = true /\ L = l ++ mk_did n (OEvWait 0) g :: lm ++ [mk_did n1 o None] /\ unfinished s' t /\ n1 <= nstep s' /\
           (o = OEvWait 0 -> clock_wait test s' t n1)))) \/
     (exists g lm v ld ld', performs (S n) method lm (Ok v) (nstep s') /\ delivers (nstep s') (due acts v) (ld ++ ld') /\ L = l ++ mk_did n (OEvWait 0) g :: lm ++ ld /\ exists p, cur s' = Some (t, BProg p)) \/
     (exists g lm e, L = l ++ mk_did n (OEvWait 0) g :: lm /\ (cur s' = Some (t, BProg (Raise e)) \/ failed s' t e) /\
        ((exists n1, n1 <= nstep s' /\ performs (S n) method lm (Exn e) n1) \/ (lm = [] /\ e = CancelledError /\ (nocancel test -> tdone s' = Some true))))).
Proof.
  intros R0 F Hc G. assert (R1 : steps (init test m) s') by (eapply steps_trans; [exact R0|eapply record_steps; eauto]).
  destruct (where_track shuffle dut delayers test m t wmonitor s s' L R0 Hc G) as [l0 [p' [n' [P H]]]].
  assert (F0 : forall d, In d l0 -> fine acts d) by (intros d Hd; apply F; destruct H as [[-> _]|[[o [k [_ [-> _]]]]|[-> _]]]; auto; apply in_app_iff; now left).
  pose proof (wmonitor_stage method acts (nstep s) l0 p' n' P F0) as S0. clear P F F0. rename l0 into L0.
  assert (TD : forall e, cur s' = Some (t, BProg (Raise e)) \/ failed s' t e -> e = CancelledError -> nocancel test -> tdone s' = Some true).
  { intros e X -> NT. destruct X as [X|[X|[X _]]]; [| |exact (canc_tdone shuffle dut delayers test m s' t NT R1 X)].
    - destruct (reach_nc _ _ _ _ _ _ NT R1) as [_ [_ [_ [_ [Y|Y]]]]]; auto. exfalso. pose proof (n_cur _ Y _ _ X) as Z. inversion Z; congruence.
    - destruct (reach_nc _ _ _ _ _ _ NT R1) as [_ [_ [_ [_ [Y|Y]]]]]; auto. exfalso. unfold state_of in X. destruct (fget s' t) as [fu|] eqn:E; [|discriminate]. simpl in X. injection X as X. destruct (n_ok _ Y _ _ E) as [[Z1 Z2] _]. apply Z2. exact X. }
  assert (NG : forall o k, p' = Op o k -> ~ Gone t p' s') by (intros o k -> [[v [X _]]|[e [X _]]]; discriminate).
  destruct S0 as [vs R Hp|vs n l g lm p R HL P NR Hp|vs n l g lm v ld sent todo R HL P Hd D NT Hp|vs n l g lm v ld sent todo R HL P Hd D Hp|vs n l g lm v ld sent todo q z w mm R HL P Hd D Hm Hp|vs n l g R HL Hp].
  - exists vs, n', L0. split; auto. rewrite (wmon_unfold method acts) in Hp. cbn [arrived] in Hp. destruct H as [[-> [Hc' N]]|[[o [k [Ho [-> M]]]]|[-> [N X]]]]; [left; eauto| |exfalso; exact (NG _ _ Hp X)].
    right; left. rewrite Hp in Ho. injection Ho as <- <-. split; auto. exact (mid_clock shuffle dut delayers test m s' t n' _ R1 M).
  - exists vs, n, l. split; auto. destruct H as [[-> [Hc' N]]|[[o [k [Ho [-> M]]]]|[-> [N X]]]].
    + right; right; left. exists g, lm, p, n'. split; auto. left. eauto.
    + right; right; left. exists g, lm, p, n'. split; auto. right. rewrite (wmon_unfold method acts) in Hp. destruct p as [v|e|o1 k1]; [now exfalso; apply (NR v)|cbn [arrived] in Hp; congruence|].
      cbn [arrived] in Hp. rewrite Hp in Ho. injection Ho as <- <-. exists o1, k1. split; auto. split; [apply M|]. split; [rewrite HL, <- app_assoc; reflexivity|]. destruct (mid_live shuffle dut delayers test m s' t n' _ _ R1 M) as [A B]. split; auto. split; auto.
      intros ->. exact (mid_clock shuffle dut delayers test m s' t n' _ R1 M).
    + right; right; right; right. rewrite (wmon_unfold method acts) in Hp. destruct p as [v|e|o1 k1]; cbn [arrived] in Hp; [now exfalso; apply (NR v)| |exfalso; exact (NG _ _ Hp X)]. destruct X as [[v [X _]]|[e' [X Y]]]; [congruence|]. assert (e' = e) by congruence. subst e'.
      exists g, lm, e. split; auto. split; auto. left. exists n'. split; [exact N|exact P].
  - exists vs, n, l. split; auto. assert (Hp2 : waiting_free p').
    { unfold waiting_free. subst p'. rewrite (wmon_unfold method acts). cbn [arrived]. destruct todo as [|[q w|h z|q z w] todo]; [congruence| | |]; eauto. }
    destruct H as [[-> [Hc' N]]|[[o [k [Ho [-> M]]]]|[-> [N X]]]].
    + right; right; right; left. destruct (delivers_some n' todo) as [ld' D']. exists g, lm, v, ld, ld'. subst n'. split; auto. split; [rewrite Hd; now apply delivers_app|]. split; eauto.
    + exfalso. destruct Hp2 as [o' [k' [E W]]]. rewrite Ho in E. injection E as <- <-. destruct M as [M _]. congruence.
    + exfalso. destruct Hp2 as [o' [k' [E W]]]. exact (NG _ _ E X).
  - exists vs, n, l. split; auto. destruct H as [[-> [Hc' N]]|[[o [k [Ho [-> M]]]]|[-> [N X]]]].
    + right; right; right; left. destruct (delivers_some n' todo) as [ld' D']. exists g, lm, v, ld, (mk_did n' (OFlag true) None :: ld'). subst n'. split; auto.
      split; [rewrite Hd; change (mk_did (nstep s') (OFlag true) None :: ld') with ([mk_did (nstep s') (OFlag true) None] ++ ld'); rewrite app_assoc; now apply delivers_app|]. split; eauto.
    + exfalso. rewrite Hp in Ho. injection Ho as <- <-. destruct M as [M _]. discriminate.
    + exfalso. exact (NG _ _ Hp X).
  - exists vs, n, l. split; auto. destruct H as [[-> [Hc' N]]|[[o [k [Ho [-> M]]]]|[-> [N X]]]].
    + right; right; right; left. destruct (delivers_some n' todo) as [ld' D']. exists g, lm, v, (ld ++ [mk_did n' (OQSize q) (Some (Ok (VInt mm)))]), (mk_did n' (OQPut q w) (Some (Ok VNone)) :: mk_did n' (OFlag true) None :: ld'). subst n'. split; auto.
      split; [rewrite Hd, <- app_assoc; apply delivers_app; auto; simpl; now apply dv_queue|]. split; eauto.
    + exfalso. rewrite Hp in Ho. injection Ho as <- <-. destruct M as [M _]. discriminate.
    + exfalso. exact (NG _ _ Hp X).
  - exists vs, n, l. split; auto. right; right; right; right. exists g, [], CancelledError. destruct H as [[-> [Hc' N]]|[[o [k [Ho [-> M]]]]|[-> [N X]]]]; [| |].
    + rewrite Hp in Hc'. split; auto. split; auto. right. split; auto. split; auto. apply (TD CancelledError); auto.
    + congruence.
    + destruct X as [[v [X _]]|[e' [X Y]]]; [congruence|]. assert (e' = CancelledError) by congruence. subst e'. split; auto. split; auto. right. split; auto. split; auto. apply (TD CancelledError); auto.
Qed.
(** A task that starts to run [__monitor_forever] of a monitor with any method, the ports of its models being queues that exist.  Whatever
    else goes on, it has made complete rounds with the results [vs] of the method so far: from the cycle [n] in which a result was
    delivered it waited for the next clock event, began the method in the cycle [n + 1], and delivered its result in the cycle in
    which it returned.  And now it
    - is about to begin the next round, or waits for the clock event;
    - or is inside the method that was begun in cycle [n + 1], everything before having been delivered;
    - or is delivering, in the cycle in which the method returned;
    - or has stopped, because the method raised an exception or because it was cancelled while it waited for the clock event. *)
Theorem C89_monitor (test : prog) m t s s' L : steps (init test m) s -> P_Mon.ports_ok acts s -> cur s = Some (t, BProg wmonitor) -> record t s s' L ->
  exists vs n l, rounds (nstep s) vs n l /\
    ((L = l /\ (exists p, cur s' = Some (t, BProg p)) /\ nstep s' = n) \/
     (L = l ++ [mk_did n (OEvWait 0) None] /\ clock_wait test s' t n) \/
     (exists g lm p n1, partially (S n) method lm p n1 /\
        ((L = l ++ mk_did n (OEvWait 0) g :: lm /\ (exists q, cur s' = Some (t, BProg q)) /\ nstep s' = n1) \/
         (exists o k, p = Op o k /\ waiting o = true /\ L = l ++ mk_did n (OEvWait 0) g :: lm ++ [mk_did n1 o None] /\ unfinished s' t /\ n1 <= nstep s' /\
           (o = OEvWait 0 -> clock_wait test s' t n1)))) \/
     (exists g lm v ld ld', performs (S n) method lm (Ok v) (nstep s') /\ delivers (nstep s') (due acts v) (ld ++ ld') /\ L = l ++ mk_did n (OEvWait 0) g :: lm ++ ld /\ exists p, cur s' = Some (t, BProg p)) \/
     (exists g lm e, L = l ++ mk_did n (OEvWait 0) g :: lm /\ (cur s' = Some (t, BProg (Raise e)) \/ failed s' t e) /\
        ((exists n1, n1 <= nstep s' /\ performs (S n) method lm (Exn e) n1) \/ (lm = [] /\ e = CancelledError /\ (nocancel test -> tdone s' = Some true))))).
Proof. intros R0 PO Hc G. exact (monitor_where test m t s s' L R0 (proj1 (record_fine shuffle dut delayers acts t s s' L PO G)) Hc G). Qed.
(** The cases of [C89_at_step], likewise. *)
Lemma at_step_where (test : prog) m t c s s' L : nocancel test -> steps (init test m) s -> (forall d, In d L -> fine acts d) -> cur s = Some (t, BProg wmonitor) -> record t s s' L -> at_step s' c -> tdone s' <> Some true ->
  exists vs n l, rounds (nstep s) vs n l /\
    ((L = l ++ [mk_did n (OEvWait 0) None] /\ nstep s' = n) \/
     (exists g lm o k n1, partially (S n) method lm (Op o k) n1 /\ waiting o = true /\ L = l ++ mk_did n (OEvWait 0) g :: lm ++ [mk_did n1 o None] /\ unfinished s' t /\ (o = OEvWait 0 -> nstep s' = n1)) \/
     (exists g lm e n1, L = l ++ mk_did n (OEvWait 0) g :: lm /\ failed s' t e /\ performs (S n) method lm (Exn e) n1)).
Proof.
  intros NT R0 PO Hc G AS TD. destruct (monitor_where test m t s s' L R0 PO Hc G) as [vs [n [l [R H]]]]. pose proof AS as [l0 HS].
  assert (NC : forall p, cur s' <> Some (t, BProg p)) by (intros p X; rewrite HS in X; discriminate).
  assert (W : forall n, clock_wait test s' t n -> nstep s' = n) by (intros n2 [_ [_ [[_ X]|X]]]; [eauto|exfalso; auto]).
  exists vs, n, l. split; auto. destruct H as [[_ [[p X] _]]|[[HL HW]|[[g [lm [p [n1 [P [[_ [[q X] _]]|[o [k [-> [Wo [HL [U [N HW]]]]]]]]]]]]]|[[g [lm [v [ld [ld' [_ [_ [_ [p X]]]]]]]]]|[g [lm [e [HL [[X|X] H]]]]]]]]];
    try (exfalso; exact (NC _ X)).
  - left. split; auto.
  - right; left. exists g, lm, o, k, n1. auto 10.
  - right; right. destruct H as [[n1 [N P]]|[_ [_ Y]]]; [|exfalso; auto]. exists g, lm, e, n1. auto.
Qed.
(** Whenever the clock task is about to make a step (before the end of a test without cancellation): all results of the method so far have
    been delivered, each in the cycle in which the method returned it; the monitor waits for the clock event since this cycle, or the
    method waits in one of its operations, or it has raised an exception. *)
Theorem C89_at_step (test : prog) m t c s s' L : nocancel test -> steps (init test m) s -> P_Mon.ports_ok acts s -> cur s = Some (t, BProg wmonitor) -> record t s s' L -> at_step s' c -> tdone s' <> Some true ->
  exists vs n l, rounds (nstep s) vs n l /\
    ((L = l ++ [mk_did n (OEvWait 0) None] /\ nstep s' = n) \/
     (exists g lm o k n1, partially (S n) method lm (Op o k) n1 /\ waiting o = true /\ L = l ++ mk_did n (OEvWait 0) g :: lm ++ [mk_did n1 o None] /\ unfinished s' t /\ (o = OEvWait 0 -> nstep s' = n1)) \/
     (exists g lm e n1, L = l ++ mk_did n (OEvWait 0) g :: lm /\ failed s' t e /\ performs (S n) method lm (Exn e) n1)).
Proof. intros NT R0 PO Hc G. exact (at_step_where test m t c s s' L NT R0 (proj1 (record_fine shuffle dut delayers acts t s s' L PO G)) Hc G). Qed.
End Thms.
Print Assumptions C89_in_order.
Print Assumptions C89_monitor.
Print Assumptions C89_at_step.

(** * A method that waits for clock events *)
Section Stride.
Context {mem : Type} (f : mem -> mem * res lval) (acts : lval -> list (@action mem)).
Notation prog := (@prog mem).
(** A monitor method that waits for [k] clock events and then reads the DUT. *)
Fixpoint sampling (k : nat) : prog :=
  match k with
  | 0 => Op (OMem f) (fun r => match r with Ok v => Ret v | Exn e => Raise e end)
  | S k' => Op (OEvWait 0) (fun r => match r with Ok _ => sampling k' | Exn e => Raise e end)
  end.
(** The readings: cycle and value. *)
Definition readings (l : list (@did mem)) : list (nat * option (res lval)) := flat_map (fun d => match d_op d with OMem _ => [(d_at d, d_gives d)] | _ => [] end) l.
Lemma readings_app l1 l2 : readings (l1 ++ l2) = readings l1 ++ readings l2. Proof. apply flat_map_app. Qed.
Lemma delivers_readings n (a : list (@action mem)) l : delivers n a l -> readings l = [].
Proof. induction 1; simpl; auto. Qed.
Lemma sampling_performs k : forall n l v n1, performs n (sampling k) l (Ok v) n1 -> n1 = n + k /\ exists g, readings l = [(n1, g)] /\ (forall r, g = Some r -> r = Ok v).
Proof.
  unfold performs. induction k as [|k IH]; intros n l v n1 P; inversion P as [|? o k0 g r n2 l2 p' n3 E P2]; subst; clear P.
  - destruct E as [_ [E1 [E2 _]]]. pose proof (E1 eq_refl) as ->. destruct r as [w|e]; inversion P2; subst. split; [lia|]. exists g. split; [reflexivity|]. intros r Hr. now rewrite (E2 _ Hr).
  - destruct E as [_ [_ [_ E]]]. destruct (E eq_refl) as [[w [-> ->]]| ->]; [|inversion P2]. destruct (IH _ _ _ _ P2) as [-> [g' [E1 E2]]]. split; [lia|]. exists g'. split; [exact E1|exact E2].
Qed.
(** Such a monitor reads the DUT in every (k+1)-th cycle only, exactly once, and the values it has read are the results that were delivered:
    what happens in the cycles between is not seen. *)
Theorem C89_stride k n0 vs n l : rounds (sampling k) acts n0 vs n l ->
  n = n0 + List.length vs * S k /\ map fst (readings l) = map (fun i => n0 + S i * S k) (seq 0 (List.length vs)) /\
  Forall2 (fun x v => forall r, snd x = Some r -> r = Ok v) (readings l) vs.
Proof.
  induction 1 as [|vs n l g lm v n1 ld R IH P D]; [simpl; auto|]. destruct IH as [-> [E1 E2]]. destruct (sampling_performs k _ _ _ _ P) as [-> [g' [Er Eg]]].
  rewrite readings_app. change (readings (mk_did (n0 + List.length vs * S k) (OEvWait 0) g :: lm ++ ld)) with (readings (lm ++ ld)). rewrite readings_app, (delivers_readings _ _ _ D), app_nil_r, Er, app_length, map_app, E1. cbn [List.length].
  split; [lia|]. split.
  - rewrite Nat.add_1_r, seq_S, map_app. simpl. f_equal. f_equal. lia.
  - apply Forall2_app; auto.
Qed.
End Stride.
Print Assumptions C89_stride.

(** The monitor of P_Mon.v (port 0 of an agent, monitor port 1, a hook, queue 2 behind the method), with a method that waits for one clock
    event and then returns the number of steps made. *)
Definition count1 (c : nat) : nat * res lval := (c, Ok (VInt (Z.of_nat c))).
Definition t_wmon : @prog nat := Do OStartClock (Do OQNew (Do OQNew (Do OQNew (Do (OCreate (wmonitor (sampling count1 1) P_Mon.acts1)) (bindr (clock_cycles 7) (fun _ => Ret VNone)))))).
Fixpoint runr (t n : nat) (x : @state nat * list did) : @state nat * list did := match n with 0 => x | S n' => runr t n' (step ids Nat.succ (fun c => c) [] (fst x), snd x ++ does t (fst x)) end.
Lemma runr_record t n : forall s0 s l, record ids Nat.succ (fun c => c) t s0 s l -> record ids Nat.succ (fun c => c) t s0 (fst (runr t n (s, l))) (snd (runr t n (s, l))).
Proof. induction n as [|n IH]; intros s0 s l H; simpl; auto. apply IH. now apply rec_step. Qed.
CoFixpoint nocancel_wmon {mem} (method : @prog mem) acts x (Hm : nocancel method) (Ha : forall v, P_Mon.calm_acts (acts v)) (Hx : match x with InMethod p => nocancel p | ToDeliver todo => P_Mon.calm_acts todo end) : nocancel (wmon method acts x).
Proof.
  rewrite wmon_unfold. assert (Hy : match arrived acts x with InMethod p => nocancel p | ToDeliver todo => P_Mon.calm_acts todo end) by (destruct x as [[v|e|o k]|todo]; simpl; auto; destruct v; simpl; auto; constructor).
  destruct (arrived acts x) as [[v|e|o k]|[|[q v|h z|q z v] rest]].
  - constructor.
  - inversion Hy; subst. now constructor.
  - inversion Hy; subst. apply nc_op; [assumption|assumption|]. intros r Hr. apply nocancel_wmon; auto.
  - apply nc_op; [exact I|intros p X; inversion X|]. intros [v|e] Hr; simpl; [|constructor; congruence]. apply nocancel_wmon; auto.
  - apply nc_op; [exact I|intros p X; inversion X|]. intros [w|e] Hr; simpl; [|constructor; congruence]. apply nc_op; [exact I|intros p X; inversion X|]. intros r _. apply nocancel_wmon; auto. exact (Forall_inv_tail Hy).
  - apply nc_op; [exact I|intros p X; inversion X; subst; exact (Forall_inv Hy)|]. intros r Hr. apply nocancel_wmon; auto. exact (Forall_inv_tail Hy).
  - apply nc_op; [exact I|intros p X; inversion X|]. intros [w|e] Hr; simpl; [|constructor; congruence]. destruct w as [|b|n|n|l]; try (constructor; discriminate). destruct (z <=? n)%Z; [apply nocancel_wmon; auto; exact (Forall_inv_tail Hy)|].
    apply nc_op; [exact I|intros p X; inversion X|]. intros [w|e] Hr'; simpl; [|constructor; congruence]. apply nc_op; [exact I|intros p X; inversion X|]. intros r _. apply nocancel_wmon; auto. exact (Forall_inv_tail Hy).
Defined.
Definition W1 (n : nat) : @state nat := run ids Nat.succ (fun c => c) n (init t_wmon 0).
Example C89_nonvacuous : nocancel t_wmon /\ exists s s1 s2 L1 L2, steps ids Nat.succ (fun c => c) (init t_wmon 0) s /\ P_Mon.ports_ok P_Mon.acts1 s /\ cur s = Some (2, BProg (wmonitor (sampling count1 1) P_Mon.acts1)) /\
  record ids Nat.succ (fun c => c) 2 s s1 L1 /\ record ids Nat.succ (fun c => c) 2 s s2 L2 /\ at_step s1 1 /\ at_step s2 1 /\ tdone s1 = Some false /\ tdone s2 = Some false /\ nstep s = 0 /\ nstep s1 = 5 /\ nstep s2 = 6 /\
  readings L1 = [(2, Some (Ok (VInt 2))); (4, Some (Ok (VInt 4)))] /\ readings L2 = [(2, Some (Ok (VInt 2))); (4, Some (Ok (VInt 4))); (6, Some (Ok (VInt 6)))] /\ items s2 1 = [VInt 2] /\ items s2 2 = [VInt 2].
Proof.
  split.
  - assert (X : nocancel (wmonitor (sampling count1 1) P_Mon.acts1)).
    { apply nocancel_wmon; [|intros v; repeat constructor; unfold Do; prog_tac|constructor]. cbn [sampling]. apply nc_op; [exact Logic.I|intros p X; inversion X|]. intros [v|e] Hr; [|constructor; congruence]. apply nc_op; [intros c; discriminate|intros p X; inversion X|]. intros [w|e] Hr'; constructor. congruence. }
    unfold t_wmon. repeat first [exact X | apply nocancel_cycles | apply nocancel_bindr | progress intros | match goal with H : part _ _ |- _ => inversion H; subst; clear H end | apply nc_ret | apply nc_op; [exact Logic.I| |]].
  - exists (W1 14), (fst (runr 2 101 (W1 14, []))), (fst (runr 2 127 (W1 14, []))), (snd (runr 2 101 (W1 14, []))), (snd (runr 2 127 (W1 14, []))). split; [apply run_steps|].
    split; [intros v a q Ha Hq; replace (List.length (qs (W1 14))) with 3 by (vm_compute; reflexivity); unfold P_Mon.acts1, deliveries in Ha; simpl in Ha; destruct Ha as [<-|[<-|[<-|[<-|[]]]]]; simpl in Hq; intuition lia|].
    split; [vm_compute; reflexivity|]. split; [apply runr_record; constructor|]. split; [apply runr_record; constructor|]. split; [eexists; vm_compute; reflexivity|]. split; [eexists; vm_compute; reflexivity|]. vm_compute. auto 20.
Qed.
