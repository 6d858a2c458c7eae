(** C71: exit='any' when groups raise an exception. *)
From Coq Require Import List String Bool Arith ZArith Lia.
From Verif Require Import Py Prio_Model Loop_Model Loop_Spec Loop2_Spec LoopProg_Model Loop_Proofs Loop2_Proofs Loop3_Proofs Loop4_Proofs Loop9_Proofs Loop10_Proofs Loop13_Proofs Bind_Spec Loop16_Proofs Loop17_Proofs LoopRun_Model LoopRun_Proofs P_Loop P_Loop2 P_Loop4 Drv_Model Exec_Model Exec_Spec Exec_Proofs P_Exec Test_Proofs.
Import ListNotations.
Open Scope nat_scope.

Section Thms.
Context {mem : Type} (shuffle : list id -> list id) (dut delayers : mem -> mem) (store : dict lval -> mem -> mem).
Notation steps := (steps shuffle dut delayers). Notation prog := (@prog mem). Notation state := (@state mem).
Implicit Types (s : state).

(** The task of every group has ended by an exception. *)
Definition all_failed s (ids : list id) : Prop := forall i, In i ids -> exists x, state_of s i = Some (Finished (Exn x)).

(** exit='any', the event [e] of the executor being set by no coroutine of the groups and by no other task. When all groups have failed the block has not
    ended, except by cancellation: the task is about to wait for the event or waits for it, now and in every later state [s'']. If the program cancels nothing,
    cancellation happens only after the test has ended. *)
Theorem C71_all_failed (test : prog) m (cs : coros) e ev K s s' s'' t : steps (init test m) s -> (forall g a, In g cs -> In a (snd g) -> leaves e (a_coro a)) -> cs <> [] ->
  e <> 0 -> nth_error (evs s) e = Some ev -> e_priv ev = false ->
  (forall x i b, steps s x -> cur x = Some (i, b) -> current_op x = Some (OEvSet e) -> In i (seq (List.length (futs s)) (List.length cs))) ->
  runs s t (execute store "any" e cs K) -> steps s s' -> all_failed s' (seq (List.length (futs s)) (List.length cs)) -> steps s' s'' ->
  (exists s1, steps s s1 /\ steps s1 s'' /\ runs s1 t (K (seq (List.length (futs s)) (List.length cs)) (Exn CancelledError)) /\ (nocancel test -> tdone s1 = Some true)) \/
  still_creating s'' t (groups cs (Some e)) \/ (exists k, runs s'' t (Op (OEvWait e) k)) \/ (inside_wait s'' t e /\ unfinished s'' t).
Proof.
  intros R0 HL NE He Ee Pe RELY Hr R AF R'. assert (R2 : steps s s'') by exact (steps_trans _ _ _ _ _ _ R R'). assert (WF' : Wf s') by (destruct (reach_linked _ _ _ _ _ _ (steps_trans _ _ _ _ _ _ R0 R)); auto).
  assert (AF2 : all_failed s'' (seq (List.length (futs s)) (List.length cs))). { intros i Hi. destruct (AF i Hi) as [x X]. exists x. eapply state_of_done; eauto. discriminate. }
  destruct (C37_any shuffle dut delayers store test m cs e ev K s s'' t R0 HL NE He Ee Pe RELY Hr R2) as [[s1 [j [g [vs [A [B [C [D [E F]]]]]]]]]|[X|[X|X]]]; auto.
  - exfalso. assert (Lj : j < List.length cs) by (apply nth_error_Some; congruence). destruct (AF2 (List.length (futs s) + j)) as [x X]; [apply in_seq; lia|]. exact (E s'' x B X).
  - exfalso. subst s''. assert (L : 0 < List.length cs) by (destruct cs; [congruence|simpl; lia]). destruct (AF2 (List.length (futs s))) as [x X]; [apply in_seq; lia|].
    unfold state_of, fget in X. assert (N : nth_error (futs s) (List.length (futs s)) = None) by (apply nth_error_None; lia). rewrite N in X. discriminate.
Qed.
(** If the test itself leaves such a block and the program cancels nothing, the test never gets past it: run() does not return. *)
Theorem C71_test_hangs (test : prog) m (cs : coros) e ev K s s' s'' t : nocancel test -> steps (init test m) s -> (forall g a, In g cs -> In a (snd g) -> leaves e (a_coro a)) -> cs <> [] ->
  e <> 0 -> nth_error (evs s) e = Some ev -> e_priv ev = false ->
  (forall x i b, steps s x -> cur x = Some (i, b) -> current_op x = Some (OEvSet e) -> In i (seq (List.length (futs s)) (List.length cs))) ->
  cur s = Some (t, BTest (execute store "any" e cs K)) -> steps s s' -> all_failed s' (seq (List.length (futs s)) (List.length cs)) -> steps s' s'' ->
  still_creating s'' t (groups cs (Some e)) \/ (exists k, runs s'' t (Op (OEvWait e) k)) \/ (inside_wait s'' t e /\ unfinished s'' t).
Proof.
  intros NT R0 HL NE He Ee Pe RELY Hc R AF R'. assert (R2 : steps s s'') by exact (steps_trans _ _ _ _ _ _ R R'). assert (WF' : Wf s') by (destruct (reach_linked _ _ _ _ _ _ (steps_trans _ _ _ _ _ _ R0 R)); auto).
  assert (AF2 : all_failed s'' (seq (List.length (futs s)) (List.length cs))). { intros i Hi. destruct (AF i Hi) as [x X]. exists x. eapply state_of_done; eauto. discriminate. }
  destruct (any_track shuffle dut delayers store BTest test m cs e ev K s s'' t (or_intror eq_refl) R0 HL NE He Ee Pe RELY Hc R2) as [[s1 [j [g [vs [A [B [C [D [E F]]]]]]]]]|[[s1 [A [B [C D]]]]|[X|X]]]; auto.
  - exfalso. assert (Lj : j < List.length cs) by (apply nth_error_Some; congruence). destruct (AF2 (List.length (futs s) + j)) as [x X]; [apply in_seq; lia|]. exact (E s'' x B X).
  - exfalso. exact (proj2 (test_running shuffle dut delayers test m s1 t _ (steps_trans _ _ _ _ _ _ R0 A) C) (D NT)).
  - exfalso. subst s''. assert (L : 0 < List.length cs) by (destruct cs; [congruence|simpl; lia]). destruct (AF2 (List.length (futs s))) as [x X]; [apply in_seq; lia|].
    unfold state_of, fget in X. assert (N : nth_error (futs s) (List.length (futs s)) = None) by (apply nth_error_None; lia). rewrite N in X. discriminate.
Qed.
End Thms.
Print Assumptions C71_all_failed.
Print Assumptions C71_test_hangs.

(** Two groups that raise; the test starts the clock, leaves the block and, if that ends, returns. *)
Definition bads : @coros xworld := add_all [mk_request (user "bad1" bad) None None None; mk_request (user "bad2" (bindr (clock_cycles 1) (fun _ => bad))) None None None].
Definition x_hang : @prog xworld := Op OStartClock (fun _ => Op OEvNew (fun _ => execute xstore "any" 1 bads (fun _ r => match r with Ok _ => Ret VNone | Exn e => Raise e end))).
Definition hat n := run ids xkeep xkeep n (init x_hang xw0).
Lemma bad_leaves : forall p, p = bad \/ p = bindr (clock_cycles 1) (fun _ => bad) -> allp (fun o => o <> OEvSet 1) p.
Proof.
  intros p [-> | ->]; [apply all_raise|]. cbn [clock_cycles]. unfold Let. rewrite !bindr_unfold. apply all_op; [discriminate|intros p X; inversion X|]. intros [v|e]; rewrite bindr_unfold; apply all_raise.
Qed.
Lemma bads_leave : forall g a, In g bads -> In a (snd g) -> leaves 1 (a_coro a).
Proof. intros g a. cbn. intros [<-|[<-|[]]] [<-|[]] K; apply upto_bindr_all, bad_leaves; auto. Qed.
(** Nothing in the test sets the event, or cancels anything. *)
Lemma group_bad e g : In g (groups bads (Some e)) -> g = Raise (UserExn 7) \/ exists k, g = Op (OEvWait 0) k /\ forall r, exists x, x <> CancelledError /\ k r = Raise x.
Proof.
  cbn. intros [<-|[<-|[]]]; [left; rewrite bindr_unfold; reflexivity|right]. eexists. split; [cbn [clock_cycles]; unfold Let; rewrite !bindr_unfold; reflexivity|].
  intros [v|x]; cbn beta; cbn [thenv]; rewrite !bindr_unfold; eexists; (split; [|reflexivity]); discriminate.
Qed.
Lemma hang_sets : allp (fun o => o <> OEvSet 1) x_hang.
Proof.
  assert (G : forall g, In g (groups bads (Some 1)) -> allp (fun o => o <> OEvSet 1) g).
  { intros g Hg. apply group_bad in Hg as [->|[k [-> H]]]; [apply all_raise|]. apply all_op; [discriminate|intros p X; inversion X|]. intros r. destruct (H r) as [x [_ ->]]. apply all_raise. }
  assert (CA : forall l is J X, (forall g, In g l -> allp (fun o => o <> OEvSet 1) g) -> (forall is, allp (fun o => o <> OEvSet 1) (J is)) -> (forall r, allp (fun o => o <> OEvSet 1) (X r)) -> allp (fun o => o <> OEvSet 1) (@create_all xworld l is J X)).
  { induction l as [|g l IH]; intros is J X H1 H2 H3; cbn [create_all]; auto. apply all_op; [discriminate|intros p Y; inversion Y; subst; apply H1; now left|]. intros [v|e]; auto. destruct v; auto. apply IH; auto. intros g0 H. apply H1. now right. }
  unfold x_hang. apply all_op; [discriminate|intros p X; inversion X|]. intros _. apply all_op; [discriminate|intros p X; inversion X|]. intros _. cbn [execute String.eqb Ascii.eqb Bool.eqb]. unfold exit_any.
  apply all_op; [discriminate|intros p X; inversion X|]. intros [v|e]; [|apply all_raise]. apply CA; auto; [|intros [v0|e]; constructor].
  intros is. apply all_op; [discriminate|intros p X; inversion X|]. intros [v0|e]; [|apply all_raise]. apply all_op; [discriminate|intros p X; inversion X|]. intros _. apply all_ret.
Qed.
Lemma hang_nocancel : nocancel x_hang.
Proof.
  assert (NO : forall o k, match o with OCancel _ | OMem _ => False | _ => True end -> (forall p, part o p -> nocancel p) -> (forall r, r <> Exn CancelledError -> nocancel (k r)) -> nocancel (mem := xworld) (Op o k)) by (intros o k; destruct o; try contradiction; intros _; apply nc_op; exact I).
  assert (G : forall g, In g (groups bads (Some 1)) -> nocancel g).
  { intros g Hg. apply group_bad in Hg as [->|[k [-> H]]]; [apply nc_raise; discriminate|]. apply NO; [exact I|intros p X; inversion X|]. intros r _. destruct (H r) as [x [N ->]]. now apply nc_raise. }
  assert (CA : forall l is J X, (forall g, In g l -> nocancel g) -> (forall is, nocancel (J is)) -> (forall r, r <> Exn CancelledError -> nocancel (X r)) -> nocancel (@create_all xworld l is J X)).
  { induction l as [|g l IH]; intros is J X H1 H2 H3; cbn [create_all]; auto. apply NO; [exact I|intros p Y; inversion Y; subst; apply H1; now left|]. intros [v|e] HR; auto. destruct v; try (apply H3; discriminate). apply IH; auto. intros g0 H. apply H1. now right. }
  assert (RE : forall e, @Exn lval e <> Exn CancelledError -> nocancel (mem := xworld) (Raise e)) by (intros e N; apply nc_raise; congruence).
  unfold x_hang. apply NO; [exact I|intros p X; inversion X|]. intros _ _. apply NO; [exact I|intros p X; inversion X|]. intros _ _. cbn [execute String.eqb Ascii.eqb Bool.eqb]. unfold exit_any.
  apply NO; [exact I|intros p X; inversion X|]. intros [v|e] HR; auto. apply CA; auto; [|intros [v0|e] HQ; auto; apply nc_ret].
  intros is. apply NO; [exact I|intros p X; inversion X|]. intros [v0|e] HQ; auto. apply NO; [exact I|intros p X; inversion X|]. intros _ _. apply nc_ret.
Qed.
(** The event is never set. *)
Lemma hang_rely : forall x i b, steps ids xkeep xkeep (hat 5) x -> cur x = Some (i, b) -> current_op x = Some (OEvSet 1) -> In i [2; 3].
Proof.
  intros x i b R Hc Ho. exfalso. assert (R1 : steps ids xkeep xkeep (init x_hang xw0) (hat 5)) by apply run_steps. assert (R0 : steps ids xkeep xkeep (init x_hang xw0) x) by (generalize dependent (hat 5); intros s R R1; exact (steps_trans _ _ _ _ _ _ R1 R)).
  assert (G := reach_good ids xkeep xkeep (fun o => o <> OEvSet 1) (fun _ _ => True) (fun _ _ _ _ => I) (fun _ _ _ _ _ => I) x_hang xw0 x hang_sets R0). pose proof (g_cur _ _ _ G _ _ Hc) as Gb. unfold current_op in Ho. rewrite Hc in Ho.
  destruct b as [[v|e|o kk]|[v|e|o kk] ev todo sb|c|e f r kk|q f [v|e] kk|test|[v|e|o kk]]; try discriminate; injection Ho as ->.
  - inversion Gb; subst. congruence.
  - destruct Gb as [[Gb _] _]. inversion Gb; subst. congruence.
  - inversion Gb; subst. congruence.
Qed.
(** The claim "the block ends when all groups have ended" is false: both groups have ended, each by its exception, and the test waits for ever; the clock goes on. *)
Theorem C71_refuted : exists s s', steps ids xkeep xkeep (init x_hang xw0) s /\ runs s 0 (execute xstore "any" 1 bads (fun _ r => match r with Ok _ => Ret VNone | Exn e => Raise e end)) /\
  steps ids xkeep xkeep s s' /\ seq (List.length (futs s)) (List.length bads) = [2; 3] /\ all_failed s' [2; 3] /\
  forall s'', steps ids xkeep xkeep s' s'' -> still_creating s'' 0 (groups bads (Some 1)) \/ (exists k, runs s'' 0 (Op (OEvWait 1) k)) \/ (inside_wait s'' 0 1 /\ unfinished s'' 0).
Proof.
  assert (AF : all_failed (run ids xkeep xkeep 23 (hat 5)) [2; 3]) by (intros i [<-|[<-|[]]]; exists (UserExn 7); vm_compute; reflexivity).
  exists (hat 5), (run ids xkeep xkeep 23 (hat 5)). split; [apply run_steps|]. split; [right; vm_compute; reflexivity|]. split; [apply run_steps|]. split; [vm_compute; reflexivity|]. split; [exact AF|]. intros s'' R.
  assert (E1 : exists ev, nth_error (evs (hat 5)) 1 = Some ev /\ e_priv ev = false) by (eexists; vm_compute; split; reflexivity). destruct E1 as [ev [E1 E2]].
  assert (LN : seq (List.length (futs (hat 5))) (List.length bads) = [2; 3]) by (vm_compute; reflexivity).
  assert (HC : cur (hat 5) = Some (0, BTest (execute xstore "any" 1 bads (fun _ r => match r with Ok _ => Ret VNone | Exn e => Raise e end)))) by (vm_compute; reflexivity).
  assert (R1 : steps ids xkeep xkeep (init x_hang xw0) (hat 5)) by apply run_steps. assert (R2 : steps ids xkeep xkeep (hat 5) (run ids xkeep xkeep 23 (hat 5))) by apply run_steps.
  pose proof hang_rely as RL. rewrite <- LN in RL, AF. generalize dependent (run ids xkeep xkeep 23 (hat 5)). generalize dependent (hat 5). intros s E1 LN HC R1 RL s' AF R R2.
  exact (C71_test_hangs ids xkeep xkeep xstore x_hang xw0 bads 1 ev _ s s' s'' 0 hang_nocancel R1 bads_leave ltac:(discriminate) ltac:(discriminate) E1 E2 RL HC R2 AF R).
Qed.
Print Assumptions C71_refuted.
(** The test has not come to its end after six clock steps. *)
Example C71_nonvacuous : nstep (hat 61) = 6 /\ inside_wait (hat 61) 0 1 /\ unfinished (hat 61) 0.
Proof. split; [vm_compute; reflexivity|]. split; [left; exists 4; eexists; split; [eexists; split; vm_compute; reflexivity|]; split; vm_compute; reflexivity|unfold unfinished; vm_compute; auto]. Qed.
