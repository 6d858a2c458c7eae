(** C108: monitors are called before anything else is done in a cycle. *)
From Coq Require Import List Bool Arith ZArith Lia.
From Verif Require Import Py Prio_Model Loop_Model Loop_Spec Loop2_Spec LoopProg_Model First_Spec Loop_Proofs Loop2_Proofs Loop3_Proofs Loop4_Proofs Loop8_Proofs Loop9_Proofs Loop10_Proofs Loop13_Proofs LoopRun_Model LoopRun_Proofs First_Proofs MainEnv_Model Mon_Model Mon_Spec P_Loop P_Coro P_Mon.
Import ListNotations.
Open Scope nat_scope.

Section Thms.
Context {mem : Type} (shuffle : list id -> list id) (dut delayers : mem -> mem).
Notation steps := (steps shuffle dut delayers). Notation step := (step shuffle dut delayers). Notation prog := (@prog mem). Notation state := (@state mem). Notation body := (@body mem).
Notation log := (log shuffle dut delayers). Notation along := (along shuffle dut delayers). Notation together := (together shuffle dut delayers).
Implicit Types (s : state).

Lemma asleep_at s t : Wf s -> asleep s t -> exists f, At Pending s t f.
Proof. intros W [U [f X]]. exists f. now apply asleep_slp. Qed.
Lemma ahead_out s t u : All s -> Srt s -> t <> u -> Ahead t u s -> (forall b, cur s = Some (u, b) -> asleep s t) /\ (asleep s t -> asleep s u -> ahead s t u).
Proof.
  intros A SR Hn H. pose proof (v_wf _ (proj1 A)) as W. split.
  - intros b Hc. destruct H as [f g T U Lt|f g EA T U B|b' g EA Hc' U|f g EA T U|f b' T Hc']; try (now apply slp_asleep in T); [|congruence]. destruct U as [v U]. exfalso. exact (proj1 U _ Hc).
  - intros HT HU. destruct (asleep_at _ _ W HT) as [f0 T0]. destruct (asleep_at _ _ W HU) as [g0 U0]. destruct H as [f g T U Lt|f g EA [v T] U B|b' g EA Hc' U|f g EA T [v U]|f b' T Hc'].
    + split; [apply HT|]. split; [apply HU|]. destruct (v_zero _ (proj1 A)) as [ws Z]. destruct (sorted_split f g _ (SR _ Z) (slp_in _ _ _ _ A T Z) (slp_in _ _ _ _ A U Z) Lt) as [l1 [l2 [l3 E]]]. cbn [e_waiters] in E. subst ws.
      assert (Q : forall x h, At Pending s x h -> asleep_on s x h).
      { intros x h [_ [cbs [k [m [fu [E [Ef [Kf Sf]]]]]]]]. split; [|exists fu; auto]. exists (mk_task k (Some h) m). unfold tget, fget. rewrite E. auto. }
      exists f, g, l1, l2, l3, false, true. auto.
    + destruct (at_fun _ _ _ _ _ _ T T0). discriminate.
    + exfalso. exact (proj1 T0 _ Hc').
    + destruct (at_fun _ _ _ _ _ _ U U0). discriminate.
    + exfalso. exact (proj1 U0 _ Hc').
Qed.
(** Two tasks that wait for nothing but the clock, [t] having begun to wait before [u]: in every later cycle [t] is resumed and begins to wait again before [u] is resumed, as long as
    neither is cancelled.  So whenever [u] runs, [t] has done what it does in this cycle, and when both wait again, [t] is again ahead. *)
Theorem C108_stays_ahead_partial (test : prog) m t u s s' : steps (init test m) s -> t <> u -> ahead s t u -> along (fun x => clocked x t /\ clocked x u) s s' -> clock s' <> Some t -> clock s' <> Some u ->
  (forall b, cur s' = Some (u, b) -> asleep s' t) /\ (asleep s' t -> asleep s' u -> ahead s' t u).
Proof.
  intros R Hn H AL HT HU. pose proof (reach_all _ _ _ _ _ _ R) as A. pose proof (reach_srt _ _ _ _ _ _ R) as SR. destruct (ahead_along _ _ _ s s' t u A SR Hn HT HU (ahead_begin s t u A SR H) AL) as [A' [SR' H']]. now apply ahead_out.
Qed.
(** Two tasks of which [t] was created first, both before the clock has done anything: the same, from their first run on. *)
Theorem C108_created_first_partial (test : prog) m t u s s' bt bu : steps (init test m) s -> t <> u -> clock_fresh s -> scheduled_first s t u -> together t u s bt bu s' -> clock s' <> Some t -> clock s' <> Some u ->
  (forall b, cur s' = Some (u, b) -> asleep s' t) /\ (asleep s' t -> asleep s' u -> ahead s' t u).
Proof.
  intros R Hn CF SF TG HT HU. pose proof (reach_all _ _ _ _ _ _ R) as A. pose proof (reach_srt _ _ _ _ _ _ R) as SR. destruct (begin_together _ _ _ s s' t u bt bu A SR Hn HT HU (begin_new s t u A CF SF) TG) as [A' [SR' H']].
  pose proof (v_wf _ (proj1 A')) as W'.
  assert (NS : Sch s' u -> (forall b, cur s' = Some (u, b) -> asleep s' t) /\ (asleep s' t -> asleep s' u -> ahead s' t u)).
  { intros [Hc [[cbs [k [mu E]]] _]]. split; [intros b X; now destruct (Hc b)|]. intros _ X. destruct (asleep_at _ _ W' X) as [f [_ [c2 [k2 [m2 [fu [E2 _]]]]]]]. rewrite E in E2. discriminate. }
  destruct H' as [EA T U B|b EA Hc U|f EA T U|H']; try (now apply NS). now apply ahead_out.
Qed.

Section Monitor.
Context (method : mem -> mem * res lval) (acts : lval -> list (@action mem)).
Notation monitor := (monitor method acts).
(** When a monitor waits for the clock, its method has been called in every cycle since it began, the current one included. *)
Lemma asleep_called (test : prog) m t s s' L : steps (init test m) s -> ports_ok acts s -> cur s = Some (t, BProg monitor) -> log t s s' L -> asleep s' t ->
  calls L = seq (S (nstep s)) (nstep s' - nstep s).
Proof.
  intros R0 PO Hc G AS. pose proof (phase_track shuffle dut delayers method acts test m t s s' L R0 PO Hc G) as H. assert (R1 : steps (init test m) s') by (eapply steps_trans; [exact R0|eapply log_steps; eauto]).
  pose proof (reach_all _ _ _ _ _ _ R1) as A. destruct (asleep_at _ _ (v_wf _ (proj1 A)) AS) as [f0 T0].
  assert (SN : forall (a : list (@action mem)) l, sends a l -> calls l = []) by (induction 1; auto).
  assert (C1 : forall n r l, cycle acts n r l -> calls l = [n]) by (intros n r l [|e|v l0 _ S0]; auto; pose proof (SN _ _ S0) as E1; unfold calls in *; simpl; now rewrite E1).
  assert (CY : forall rs L, cycles acts (nstep s) rs L -> calls L = seq (S (nstep s)) (List.length rs)).
  { induction 1 as [|rs l r l1 C E1 C2]; auto. pose proof (C1 _ _ _ C2) as E3. unfold calls in *. rewrite flat_map_app, E1, E3, app_length. simpl. rewrite Nat.add_1_r, seq_S. simpl. rewrite Nat.add_succ_r. reflexivity. }
  destruct H as [rs C NE Hc' N|rs C NE H|rs C NE Hc' N|rs L0 v sent l todo p C NE Hv Ha Hs HL Hc' Hp N|rs L0 v sent l q z w n todo C NE Hv Ha Hs Hz HL Hc' N|rs e C NE HE H]; try (exfalso; exact (proj1 T0 _ Hc')).
  - rewrite (CY _ _ C). f_equal. destruct H as [[f [fu [cbs [mu [Hx [E [Ef [Kf Ph]]]]]]]]|[f [r [H1 H2]]]]; [|exfalso; exact (proj1 T0 _ H1)]. destruct T0 as [_ [c2 [k2 [m2 [u2 [E2 [Ef2 [_ S2]]]]]]]]. rewrite E in E2. injection E2 as _ _ <- _. rewrite Ef in Ef2. injection Ef2 as <-.
    destruct Ph as [[_ N]|[[P _]|P]]; [lia|congruence|congruence].
  - exfalso. destruct T0 as [Hx [c2 [k2 [m2 [u2 [E2 _]]]]]]. destruct H as [H|[H|H]]; [exact (Hx _ H)| |]; unfold state_of, fget in H; rewrite E2 in H; discriminate.
Qed.
(** A monitor that waits ahead of another task that waits for nothing but the clock: whenever that task runs, the monitor's method has been called in every cycle since the monitor began, and in
    the current one. *)
Theorem C108_monitor_first_partial (test : prog) m t u s0 s s' L b : steps (init test m) s0 -> ports_ok acts s0 -> cur s0 = Some (t, BProg monitor) -> log t s0 s' L ->
  steps (init test m) s -> t <> u -> ahead s t u -> along (fun x => clocked x t /\ clocked x u) s s' -> clock s' <> Some t -> clock s' <> Some u -> cur s' = Some (u, b) ->
  calls L = seq (S (nstep s0)) (nstep s' - nstep s0).
Proof.
  intros R0 PO Hc G R Hn H AL HT HU Hu. eapply asleep_called; eauto. eapply C108_stays_ahead_partial; eauto.
Qed.
(** Likewise for a monitor created before the other task and before the clock has done anything, as when env_handle creates the environment and the test is started after that. *)
Theorem C108_env_first_partial (test : prog) m t u s0 s s' bt bu L b : steps (init test m) s0 -> ports_ok acts s0 -> cur s0 = Some (t, BProg monitor) -> log t s0 s' L ->
  steps (init test m) s -> t <> u -> clock_fresh s -> scheduled_first s t u -> together t u s bt bu s' -> clock s' <> Some t -> clock s' <> Some u -> cur s' = Some (u, b) ->
  calls L = seq (S (nstep s0)) (nstep s' - nstep s0).
Proof.
  intros R0 PO Hc G R Hn CF SF TG HT HU Hu. eapply asleep_called; eauto. eapply (C108_created_first_partial test m t u s s'); eauto.
Qed.
End Monitor.
End Thms.
Print Assumptions C108_stays_ahead_partial.
Print Assumptions C108_created_first_partial.
Print Assumptions C108_monitor_first_partial.
Print Assumptions C108_env_first_partial.

(** The memory: the number of the cycle and who did something in which cycle ([true]: the monitor's method). *)
Definition note (b : bool) (x : nat * list (bool * nat)) : (nat * list (bool * nat)) * res lval := ((fst x, snd x ++ [(b, fst x)]), Ok VNone).
Definition tick (x : nat * list (bool * nat)) : nat * list (bool * nat) := (S (fst x), snd x).
Definition same (x : nat * list (bool * nat)) := x.
Definition watch := monitor (note true) (fun _ => @nil (@action (nat * list (bool * nat)))).
Definition drive (p : @prog (nat * list (bool * nat))) : prog := Do (OMem (note false)) (Do (OEvWait 0) p).
(** The test starts the clock and creates the environment itself, then drives. *)
Definition by_itself : prog := Do OStartClock (Do (OCreate watch) (drive (drive (drive (Ret VNone))))).
(** env_handle does that, the test drives. *)
Definition by_env : prog := main_env (Do OStartClock (Do (OCreate watch) (Ret VNone))) (fun _ => drive (drive (drive (Ret VNone)))).
Definition fi (p : prog) n : @state (nat * list (bool * nat)) := run ids tick same n (init p (0, [])).

(** A test that creates its environment itself is resumed before the monitor in every cycle: in cycles 1 and 2 it does something to the circuit while the monitor (task 2) is still in the wait for
    the clock in which it was when the cycle began, its method not yet called in that cycle. *)
Theorem C108_refuted : exists s1 s2, steps ids tick same (init by_itself (0, [])) s1 /\ steps ids tick same s1 s2 /\
  mm s1 = (1, [(false, 0); (false, 1)]) /\ inside_wait s1 2 0 /\ mm s2 = (2, [(false, 0); (false, 1); (true, 1); (false, 2)]) /\ inside_wait s2 2 0.
Proof.
  exists (fi by_itself 25), (fi by_itself 40). split; [apply run_steps|]. split; [unfold fi; change 40 with (25 + 15); rewrite run_more; apply run_steps|].
  split; [vm_compute; reflexivity|]. split.
  - left. eexists _, _. split; [eexists; split; vm_compute; reflexivity|]. split; vm_compute; reflexivity.
  - split; [vm_compute; reflexivity|]. left. eexists _, _. split; [eexists; split; vm_compute; reflexivity|]. split; vm_compute; reflexivity.
Qed.
Print Assumptions C108_refuted.

(** * Examples *)
Definition clockedb {mem} (s : @state mem) (t : id) : bool :=
  is_cur s t || (existsb (Nat.eqb t) (live s) &&
    match tget s t with
    | Some k => match k_wait k with
                | Some f => match fget s f with Some fu => match f_kind fu, f_st fu with KEv 0, Canc => false | KEv 0, _ => true | _, _ => false end | None => false end
                | None => false end
    | None => false end).
Lemma clockedb_ok {mem} (s : @state mem) t : clockedb s t = true -> clocked s t.
Proof.
  unfold clockedb, is_cur. intros H. apply orb_true_iff in H. destruct H as [H|H].
  - left. destruct (cur s) as [[x b]|]; [|discriminate]. apply Nat.eqb_eq in H. subst. eauto.
  - right. apply andb_true_iff in H. destruct H as [H1 H]. apply existsb_exists in H1. destruct H1 as [x [H1 H2]]. apply Nat.eqb_eq in H2. subst x. split; [exact H1|].
    destruct (tget s t) as [k|] eqn:T; [|discriminate]. destruct (k_wait k) as [f|] eqn:K; [|discriminate]. destruct (fget s f) as [fu|] eqn:F; [|discriminate].
    exists f, fu. split; [exists k; auto|]. split; auto. destruct (f_kind fu) as [[|e]| | | | |]; try discriminate. split; auto. destruct (f_st fu); discriminate.
Qed.
Fixpoint alongb (n : nat) (t u : id) (s : @state (nat * list (bool * nat))) : bool :=
  clockedb s t && clockedb s u && match n with 0 => true | S n' => alongb n' t u (step ids tick same [] s) end.
Lemma alongb_ok n t u : forall s s0, along ids tick same (fun x => clocked x t /\ clocked x u) s0 s -> alongb n t u s = true -> along ids tick same (fun x => clocked x t /\ clocked x u) s0 (run ids tick same n s).
Proof.
  induction n as [|n IH]; intros s s0 AL H; [exact AL|]. cbn [run]. cbn [alongb] in H. apply andb_true_iff in H. destruct H as [_ H]. apply IH; auto. apply al_step; auto.
  destruct n; cbn [alongb] in H; apply andb_true_iff in H; destruct H as [H _]; apply andb_true_iff in H; destruct H; split; now apply clockedb_ok.
Qed.
Definition on_timeb {mem} (b : bool) (s : @state mem) (t : id) : bool := if b then clockedb s t else existsb (fun h => match h with HStep x => Nat.eqb t x | _ => false end) (ready s).
Lemma on_timeb_ok {mem} b (s : @state mem) t : on_timeb b s t = true -> on_time b s t.
Proof. destruct b; simpl; [apply clockedb_ok|]. intros H. apply existsb_exists in H. destruct H as [h [H1 H2]]. destruct h; try discriminate. apply Nat.eqb_eq in H2. now subst. Qed.
Fixpoint togetherb (n : nat) (t u : id) (bt bu : bool) (s : @state (nat * list (bool * nat))) : option (bool * bool) :=
  match n with
  | 0 => Some (bt, bu)
  | S n' => let s' := step ids tick same [] s in let bt' := bt || is_cur s' t in let bu' := bu || is_cur s' u in
            if on_timeb bt' s' t && on_timeb bu' s' u then togetherb n' t u bt' bu' s' else None
  end.
Lemma togetherb_ok n t u : forall bt bu s s0 x y, together ids tick same t u s0 bt bu s -> togetherb n t u bt bu s = Some (x, y) -> together ids tick same t u s0 x y (run ids tick same n s).
Proof.
  induction n as [|n IH]; intros bt bu s s0 x y H E; [cbn in E; injection E as <- <-; exact H|]. cbn [run]. cbn [togetherb] in E. cbv zeta in E. destruct (on_timeb _ _ t && _) eqn:Q in E; [|discriminate]. apply andb_true_iff in Q. destruct Q as [Q1 Q2].
  eapply IH; [|exact E]. apply to_step; auto using on_timeb_ok.
Qed.
(** The environment is created by env_handle: task 2 is the monitor, task 3 the test.  In state 6 neither has begun; in state 16 both wait for the clock; in state 46 the test acts in cycle 2. *)
Example C108_nonvacuous :
  clock_fresh (fi by_env 6) /\ scheduled_first (fi by_env 6) 2 3 /\ together ids tick same 2 3 (fi by_env 6) true true (fi by_env 46) /\
  ahead (fi by_env 16) 2 3 /\ along ids tick same (fun x => clocked x 2 /\ clocked x 3) (fi by_env 16) (fi by_env 46) /\ clock (fi by_env 46) = Some 1 /\
  (exists b, cur (fi by_env 46) = Some (3, b)) /\ cur (fi by_env 12) = Some (2, BProg watch) /\ mm (fi by_env 46) = (2, [(false, 0); (true, 1); (false, 1); (true, 2); (false, 2)]).
Proof.
  split.
  { intros c Hc. assert (X : c = 1) by (vm_compute in Hc; congruence). subst c. split; [intros b Y; vm_compute in Y; discriminate Y|]. eexists. split; vm_compute; reflexivity. }
  split. { split; [vm_compute; auto|]. split; [vm_compute; auto 10|]. exists [HStep 1], [], []. vm_compute. reflexivity. }
  split. { unfold fi. change 46 with (6 + 40). rewrite run_more. eapply togetherb_ok; [apply to_refl|]. vm_compute. reflexivity. }
  split. { split; [vm_compute; auto 10|]. split; [vm_compute; auto 10|]. exists 4, 5, [], [], [], false, true. split; [|split; [|vm_compute; reflexivity]]; (split; [eexists; split; vm_compute; reflexivity|eexists; split; [vm_compute; reflexivity|split; vm_compute; reflexivity]]). }
  split. { unfold fi. change 46 with (16 + 30). rewrite run_more. apply alongb_ok; [|vm_compute; reflexivity]. apply al_refl. split; apply clockedb_ok; vm_compute; reflexivity. }
  split; [vm_compute; reflexivity|]. split; [eexists; vm_compute; reflexivity|]. split; vm_compute; reflexivity.
Qed.
