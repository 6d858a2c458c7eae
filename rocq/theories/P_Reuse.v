(** C110: an executor object used for a second block. *)
From Coq Require Import List String Bool Arith ZArith Lia.
From Verif Require Import Py Prio_Model Loop_Model Loop_Spec Loop2_Spec LoopProg_Model Loop_Proofs Loop2_Proofs Loop3_Proofs Loop4_Proofs Loop9_Proofs Loop10_Proofs Loop13_Proofs Bind_Spec Loop16_Proofs Loop17_Proofs Loop19_Proofs Loop23_Proofs Comp_Proofs LoopRun_Model LoopRun_Proofs P_Loop P_Loop2 P_Loop4 Drv_Model Exec_Model Exec_Spec Exec_Proofs P_Exec Test_Proofs Block_Model Block_Spec P_Block Reuse_Model.
Import ListNotations.
Open Scope nat_scope.

Section Groups.
Context {mem : Type}.
Notation request := (@request mem).
(** The group [k] has a coroutine of the first block, in which the calls [rs1] were made. *)
Definition old (rs1 : list request) (k : string) : Prop := exists r, In r rs1 /\ key_of r = k /\ accepted r = true.
(** The groups the second block executes: the keys of the first block, then the new ones, in the order of their first use; each consists of the coroutines of
    the first block, which have run, followed by those added in the second. *)
Definition regrouped (rs1 rs2 : list request) : @coros mem :=
  map (fun k => (k, map used_added (group_of k rs1) ++ group_of k rs2)) (firsts (map key_of rs1 ++ map key_of rs2)).

(** A request that has the effect on the groups that [r] had, with a used coroutine. *)
Definition again (r : request) : request := mk_request (used_coro (r_coro r)) (if accepted r then None else Some 100%Z) None (Some (key_of r)).
Lemma again_ok r : accepted (again r) = accepted r.
Proof. unfold accepted at 1, again. cbn [r_prio r_order r_coro c_drv used_coro]. now destruct (accepted r). Qed.
Lemma again_keys rs : map key_of (map again rs) = map key_of rs.
Proof. rewrite map_map. now apply map_ext. Qed.
Lemma again_group k rs : group_of k (map again rs) = map used_added (group_of k rs).
Proof.
  unfold group_of. rewrite map_map. induction rs as [|r rs IH]; auto. cbn [map filter]. rewrite again_ok. change (key_of (again r)) with (key_of r).
  destruct (String.eqb (key_of r) k && accepted r) eqn:E; auto. cbn [map]. rewrite IH. f_equal. apply andb_true_iff in E as [_ E]. unfold again, recorded, used_added. cbn [r_coro r_order r_prio a_coro]. now rewrite E.
Qed.
Lemma used_grouped rs : used (grouped rs) = add_all (map again rs).
Proof. rewrite grouped_all. unfold used, grouped. rewrite map_map, again_keys. apply map_ext. intros k. cbn [fst snd]. now rewrite again_group. Qed.
Lemma again_grouped rs1 rs2 : grouped (map again rs1 ++ rs2) = regrouped rs1 rs2.
Proof.
  unfold grouped, regrouped. rewrite map_app, again_keys. apply map_ext. intros k. f_equal. rewrite <- again_group. unfold group_of. now rewrite filter_app, map_app.
Qed.
Lemma old_raises rs1 rs2 i g ce : nth_error (regrouped rs1 rs2) i = Some g -> old rs1 (fst g) -> seq_all (snd g) [] ce = Raise AttributeError.
Proof.
  intros H [r [Hr [Hk Ha]]]. apply nth_error_In in H. apply in_map_iff in H as [k [<- _]]. cbn [fst snd] in *. destruct (group_of k rs1) as [|a l] eqn:E; [|reflexivity]. exfalso.
  assert (X : In (recorded r) (group_of k rs1)) by (apply in_map, filter_In; split; auto; now rewrite Ha, Hk, String.eqb_refl). now rewrite E in X.
Qed.
Lemma old_key rs1 rs2 r : In r rs1 -> accepted r = true -> exists i g, nth_error (regrouped rs1 rs2) i = Some g /\ old rs1 (fst g).
Proof.
  intros Hr Ha. assert (X : In (key_of r) (firsts (map key_of rs1 ++ map key_of rs2))) by (apply firsts_In, in_or_app; left; now apply in_map).
  apply (in_map (fun k => (k, map used_added (group_of k rs1) ++ group_of k rs2))) in X. apply In_nth_error in X as [i X]. exists i. eexists. split; [exact X|]. exists r. auto.
Qed.
End Groups.

Lemma nth_firstn {A} (l : list A) : forall n j, j < n -> nth_error (firstn n l) j = nth_error l j.
Proof. induction l as [|x l IH]; intros [|n] [|j] H; auto; try lia. cbn [firstn nth_error]. apply IH. lia. Qed.
Section Thms.
Context {mem : Type} (shuffle : list id -> list id) (dut delayers : mem -> mem) (store : dict lval -> mem -> mem).
Notation steps := (steps shuffle dut delayers). Notation step := (step shuffle dut delayers). Notation prog := (@prog mem). Notation state := (@state mem).
Notation request := (@request mem). Notation block := (@block mem). Notation made_between := (made_between shuffle dut delayers).
Implicit Types (s : state).

(** A task whose coroutine raises [e] at once. *)
Definition raising (test : prog) t e s : Prop :=
  (Susp t (start (BProg (Raise e))) None s /\ nothrow t (coreof s)) \/ cur s = Some (t, BProg (Raise e)) \/
  (cur s = Some (t, BProg (Raise CancelledError)) /\ (nocancel test -> tdone s = Some true)) \/ state_of s t = Some (Finished (Exn e)) \/ (state_of s t = Some Canc /\ (e = CancelledError \/ (nocancel test -> tdone s = Some true))).
Lemma raising_step test m t e fire s : steps (init test m) s -> raising test t e s -> raising test t e (step fire s).
Proof.
  intros R H. destruct (reach_linked _ _ _ _ _ _ R) as [WF _]. assert (R1 : steps s (step fire s)) by (apply steps_step, steps_refl).
  assert (TD : tdone s = Some true -> tdone (step fire s) = Some true) by (intros D; exact (steps_tdone shuffle dut delayers test m s (step fire s) R D R1)).
  destruct H as [[SU NT]|[Hc|[[Hc D]|[H|[H D]]]]].
  - destruct (susp_step0 shuffle dut delayers fire t _ s WF SU NT) as [X|[_ [Y [Z|[Z [tk [T M]]]]]]]; [now left|right; now left|right; right; left]. split; [exact Z|]. intros NC. rewrite Y. exact (must_tdone _ _ _ _ _ _ _ _ NC R T M).
  - destruct (cur_task s t _ WF Hc) as [cbs [k0 [w [mu Et]]]]. assert (HS : step fire s = finish s t (Exn e)) by (unfold Loop_Model.step; now rewrite Hc). pose proof (finish_at s t (Exn e) cbs k0 w mu Et) as X. rewrite <- HS in X.
    right; right; right. destruct e; auto.
  - destruct (cur_task s t _ WF Hc) as [cbs [k0 [w [mu Et]]]]. assert (HS : step fire s = finish s t (Exn CancelledError)) by (unfold Loop_Model.step; now rewrite Hc). pose proof (finish_at s t (Exn CancelledError) cbs k0 w mu Et) as X. rewrite <- HS in X.
    right; right; right; right. split; auto.
  - right; right; right; left. eapply state_of_done; eauto. discriminate.
  - right; right; right; right. split; [eapply state_of_done; eauto; discriminate|]. destruct D as [D|D]; auto.
Qed.
Lemma raising_steps test m t e s s' : steps (init test m) s -> raising test t e s -> steps s s' -> raising test t e s'.
Proof. intros R0 H R. induction R as [s|s s1 fire R IH]; auto. apply raising_step with (m := m); auto. exact (steps_trans _ _ _ _ _ _ R0 R). Qed.
Lemma raising_made test m s s' e i : steps (init test m) s -> made_between s s' (Raise e) i -> i < List.length (futs s') -> raising test i e s'.
Proof.
  intros R0 [s1 [R1 [R2 [Ho ->]]]] L. destruct (steps_first _ _ _ _ _ R2) as [->|[fire R3]]; [lia|]. assert (R01 : steps (init test m) s1) by exact (steps_trans _ _ _ _ _ _ R0 R1). destruct (reach_linked _ _ _ _ _ _ R01) as [WF _].
  assert (X : exists t b, cur s1 = Some (t, b) /\ exists kk, step fire s1 = exec_op s1 t (OCreate (Raise e)) kk).
  { unfold current_op in Ho. destruct (cur s1) as [[t b]|] eqn:Hc; [|discriminate]. exists t, b. split; auto. unfold Loop_Model.step. rewrite Hc.
    destruct b as [[v0|x|o kk]|[v0|x|o kk] ev todo sb|c|x g r kk|q g r kk|test0|[v0|x|o kk]]; try discriminate; injection Ho as ->; cbn [exec_body]; eauto. }
  destruct X as [t [b [Hc [kk HS]]]]. apply (raising_steps test m _ _ (step fire s1)); auto; [now apply steps_step|]. left.
  destruct (cur_task s1 t b WF Hc) as [cbs [k0 [w [m0 Et]]]]. assert (Lt : t < List.length (futs s1)) by (apply nth_error_Some; unfold fget in Et; congruence). split; [split|].
  - intros b' X. rewrite HS in X. cbn in X. injection X as X _. lia.
  - rewrite HS, futs_create. exists [], false. rewrite nth_error_app2, Nat.sub_diag by lia. reflexivity.
  - intros x Y. rewrite HS in Y. cbn [exec_op coreof fst snd ready go set_cur spawn push set_ready falloc set_futs] in Y. apply in_app_or in Y as [Y|[Y|[]]]; [|discriminate]. destruct (handle_live _ (proj1 WF) _ _ Y eq_refl) as [? [? [? [? Z]]]]. cbn [snd coreof] in Z.
    assert (List.length (futs s1) < List.length (futs s1)) by (apply nth_error_Some; congruence). lia.
Qed.
Lemma raising_not test m t e s v : steps (init test m) s -> raising test t e s -> ~ returned s t v.
Proof.
  intros R H X. unfold returned in X. destruct (reach_linked _ _ _ _ _ _ R) as [WF _]. destruct H as [[[_ [cbs [mu E]]] _]|[Hc|[[Hc _]|[H|[H _]]]]]; try congruence.
  - unfold state_of, fget in X. rewrite E in X. discriminate.
  - destruct (cur_task s t _ WF Hc) as [? [? [? [? E]]]]. unfold state_of in X. rewrite E in X. discriminate.
  - destruct (cur_task s t _ WF Hc) as [? [? [? [? E]]]]. unfold state_of in X. rewrite E in X. discriminate.
Qed.
Lemma raising_fails test m t e x s : steps (init test m) s -> raising test t e s -> failed s t x -> x = e \/ (x = CancelledError /\ (nocancel test -> tdone s = Some true)).
Proof.
  intros R H X. destruct (reach_linked _ _ _ _ _ _ R) as [WF _]. destruct H as [[[_ [cbs [mu E]]] _]|[Hc|[[Hc _]|[H|[H D]]]]].
  - exfalso. destruct X as [X|[X _]]; unfold state_of, fget in X; rewrite E in X; discriminate.
  - exfalso. destruct (cur_task s t _ WF Hc) as [? [? [? [? E]]]]. destruct X as [X|[X _]]; unfold state_of in X; rewrite E in X; discriminate.
  - exfalso. destruct (cur_task s t _ WF Hc) as [? [? [? [? E]]]]. destruct X as [X|[X _]]; unfold state_of in X; rewrite E in X; discriminate.
  - destruct X as [X|[X _]]; [left|]; congruence.
  - destruct X as [X|[X ->]]; [congruence|]. destruct D as [->|D]; auto.
Qed.

(** The second block of an executor with exit='all' whose first block has been executed completely, at least one call of it having been accepted.  In every later
    state its body is being executed, or it has ended in [s1], having made the calls [rs2], and:
    - the exception of some group [i] leaves the block; no group before [i] has a coroutine of the first block; if group [i] has one, the exception is AttributeError
      (or the group was cancelled), even if every coroutine given to the executor in the second block would return;
    - or the block was cancelled, or the tasks of the groups are being created or awaited.
    So the block never ends normally, whatever was given to the executor in it. *)
Theorem C110_second_block (test : prog) m e (rs1 : list request) (b : block) K s s' t : steps (init test m) s -> (exists r, In r rs1 /\ accepted r = true) ->
  runs s t (second_block store e (grouped rs1) b K) -> steps s s' ->
  (exists rs2 o k, trail b rs2 (Does o k) /\ awaiting s' t (fun r => body_run (k r) (regrouped rs1 rs2) (after_block store "all" e K))) \/
  exists s1 rs2 b' out, steps s s1 /\ steps s1 s' /\ trail b rs2 b' /\ ended b' = Some out /\
   let cs := regrouped rs1 rs2 in let js := seq (List.length (futs s1)) (List.length cs) in
   ((exists s2 i g x, steps s1 s2 /\ steps s2 s' /\ runs s2 t (K [] (Exn x)) /\ nth_error cs i = Some g /\ failed s2 (List.length (futs s1) + i) x /\
       (forall j g', j < i -> nth_error cs j = Some g' -> ~ old rs1 (fst g')) /\
       (old rs1 (fst g) -> x = AttributeError \/ (x = CancelledError /\ (nocancel test -> tdone s2 = Some true)))) \/
    (exists s2, steps s1 s2 /\ steps s2 s' /\ runs s2 t (K [] (Exn CancelledError)) /\ (nocancel test -> tdone s2 = Some true)) \/
    still_creating s' t (groups cs None) \/ still_awaiting s' t js).
Proof.
  intros R0 [r [Hr Ha]] Hb R. unfold second_block in Hb. rewrite used_grouped in Hb. destruct (reach_linked _ _ _ _ _ _ R0) as [WF _].
  destruct (body_track shuffle dut delayers b (map again rs1) _ s s' t WF Hb R) as [[rs2 [o [k [A B]]]]|[s1 [rs2 [b' [out [A [B [C [D E]]]]]]]]]; [left; exists rs2, o, k; split; auto; rewrite again_grouped in B; exact B|right].
  rewrite again_grouped in E. exists s1, rs2, b', out. split; auto. split; auto. split; auto. split; auto. cbv zeta. set (cs := regrouped rs1 rs2) in *.
  assert (R01 : steps (init test m) s1) by exact (steps_trans _ _ _ _ _ _ R0 A). apply runs_wrap in E as [W [HW Hc]]. unfold execute in Hc. cbn [String.eqb Ascii.eqb Bool.eqb] in Hc. unfold exit_all in Hc.
  assert (GR : forall s2 j g, steps s1 s2 -> Forall2 (made_between s1 s2) (groups cs None) (seq (List.length (futs s1)) (List.length (groups cs None))) -> nth_error cs j = Some g -> old rs1 (fst g) ->
             List.length (futs s1) + j < List.length (futs s2) -> raising test (List.length (futs s1) + j) AttributeError s2).
  { intros s2 j g R2 F Hg HO L. apply (raising_made test m s1); auto. rewrite <- (old_raises rs1 rs2 j g None Hg HO). assert (J : j < List.length cs) by (apply nth_error_Some; congruence).
    assert (X1 : nth_error (groups cs None) j = Some (seq_all (snd g) [] None)) by (unfold groups; rewrite nth_error_map, Hg; reflexivity).
    revert X1. generalize (seq_all (snd g) [] None). revert F. generalize (List.length (futs s1)). generalize (groups cs None). clear. intros l n F. revert j. remember (seq n (List.length l)) as js eqn:EJ. revert n EJ. induction F as [|p i l1 l2 H F IH]; intros n EJ [|j] q Hq; try discriminate.
    - cbn in EJ. injection EJ as -> _. injection Hq as ->. now rewrite Nat.add_0_r.
    - cbn in EJ, Hq. injection EJ as _ EJ. replace (n + S j) with (S n + j) by lia. now apply IH. }
  assert (NR : forall s2 l vs j g, steps s1 s2 -> Forall2 (made_between s1 s2) (groups cs None) (seq (List.length (futs s1)) (List.length (groups cs None))) -> nth_error cs j = Some g -> old rs1 (fst g) ->
             Forall2 (returned s2) (firstn l (seq (List.length (futs s1)) (List.length cs))) vs -> l <= j).
  { intros s2 l vs j g R2 F Hg HO FR. destruct (Nat.le_gt_cases l j) as [?|Q]; auto. exfalso. assert (J : j < List.length cs) by (apply nth_error_Some; congruence).
    assert (X : exists v, returned s2 (List.length (futs s1) + j) v).
    { assert (Y : nth_error (firstn l (seq (List.length (futs s1)) (List.length cs))) j = Some (List.length (futs s1) + j)).
      { rewrite nth_firstn by exact Q. rewrite nth_error_nth' with (d := 0) by now rewrite seq_length. now rewrite seq_nth. }
      revert Y. generalize (List.length (futs s1) + j). clear - FR. intros z. revert j. induction FR as [|i v l1 l2 H FR IH]; intros [|j] Y; try discriminate; [injection Y as ->; eauto|]. exact (IH j Y). }
    destruct X as [v X]. assert (L : List.length (futs s1) + j < List.length (futs s2)) by (unfold returned, state_of, fget in X; apply nth_error_Some; destruct (nth_error (futs s2) (List.length (futs s1) + j)); discriminate).
    exact (raising_not test m _ _ _ v (steps_trans _ _ _ _ _ _ R01 R2) (GR s2 j g R2 F Hg HO L) X). }
  destruct (gather_track shuffle dut delayers test m W _ _ s1 s' t HW R01 Hc B) as [[s2 [vs [X1 [X2 [X3 [X4 X5]]]]]]|[[s2 [i [x [vs [X1 [X2 [X3 [X4 [X5 [X6 X7]]]]]]]]]]|[[s2 [X1 [X2 [X3 X4]]]]|[[i [X1 X2]]|[i [vs [X1 [X2 [X3 X4]]]]]]]]].
  - exfalso. destruct (old_key rs1 rs2 r Hr Ha) as [j [g [Hg HO]]]. assert (J : j < List.length cs) by (apply nth_error_Some; unfold cs; congruence). pose proof X5 as X6. rewrite <- (firstn_all (seq _ _)), seq_length, groups_len in X6.
    pose proof (NR s2 _ vs j g X1 X4 Hg HO X6). lia.
  - left. rewrite groups_len in X4. destruct (nth_error cs i) as [g|] eqn:Hg; [|apply nth_error_None in Hg; lia]. exists s2, i, g, x. split; auto. split; auto. split; [apply runs_wrap; eauto|]. split; auto. split; auto. split.
    + intros j g' Hj Hg' HO. rewrite groups_len in X6. pose proof (NR s2 _ vs j g' X1 X5 Hg' HO X6). lia.
    + intros HO. assert (L : List.length (futs s1) + i < List.length (futs s2)) by (destruct X7 as [X7|[X7 _]]; unfold state_of, fget in X7; apply nth_error_Some; destruct (nth_error (futs s2) (List.length (futs s1) + i)); discriminate).
      exact (raising_fails test m _ _ _ _ (steps_trans _ _ _ _ _ _ R01 X1) (GR s2 i g X1 X5 Hg HO L) X7).
  - right; left. exists s2. split; auto. split; auto. split; [apply runs_wrap; eauto|exact X4].
  - right; right; left. rewrite groups_len in X1. eexists i, _, _, _. split; [rewrite groups_len; exact X1|]. apply runs_wrap. exists W. split; [exact HW|exact X2].
  - right; right; right. rewrite groups_len in X1, X4. eexists i, vs, _. rewrite seq_length. split; [exact X1|]. destruct X4 as [X4|X4]; [left; apply runs_wrap; exists W; split; [exact HW|exact X4]|right]. rewrite seq_nth by exact X1. exact X4.
Qed.
End Thms.
Print Assumptions C110_second_block.

(** Two blocks with one executor: the first gives it a coroutine, the second, a clock cycle later, another one for a group of its own. *)
Definition re_one : @block xworld := Calls (user "a" (work 1 2)) None None None (fun _ => Done).
Definition re_two : @block xworld := Calls (user "b" (work 2 1)) None None None (fun _ => Done).
Definition re_between (k : res lval -> @prog xworld) : @prog xworld := Op (OMark 7) (fun _ => Op (OEvWait 0) k).
Definition re_test : @prog xworld := Op OStartClock (fun _ => two_blocks xstore re_one re_two bl_after bl_after re_between).
Definition re_at n := run ids xkeep xkeep n (init re_test xw0).
Definition re_calls1 : list (@request xworld) := [mk_request (user "a" (work 1 2)) None None None].
Definition re_calls2 : list (@request xworld) := [mk_request (user "b" (work 2 1)) None None None].
Lemma re_trails : trail re_one re_calls1 Done /\ trail re_two re_calls2 Done.
Proof. split; apply trail_call, trail_here. Qed.
(** The claim "an executor can be used for another block" is false: the first block ends normally, its coroutine having been executed; the second block, which is
    given another coroutine that returns, raises AttributeError, in the cycle in which it is left, and get_results() still gives the results of the first block. *)
Theorem C110_refuted : exists s1 s s', steps ids xkeep xkeep (init re_test xw0) s1 /\ current_op s1 = Some (OMark 7) /\ x_log (mm s1) = [1] /\ x_res (mm s1) = [("a"%string, VInt 1%Z)] /\
  steps ids xkeep xkeep s1 s /\ runs s 0 (second_block xstore 1 (grouped re_calls1) re_two bl_after) /\ trail re_one re_calls1 Done /\ trail re_two re_calls2 Done /\
  steps ids xkeep xkeep s s' /\ runs s' 0 (bl_after [] (Exn AttributeError)) /\ nstep s' = nstep s /\ x_log (mm s') = [1] /\ x_res (mm s') = [("a"%string, VInt 1%Z)].
Proof.
  exists (re_at 41), (run ids xkeep xkeep 11 (re_at 41)), (run ids xkeep xkeep 16 (run ids xkeep xkeep 11 (re_at 41))). split; [apply run_steps|]. split; [vm_compute; reflexivity|]. split; [vm_compute; reflexivity|]. split; [vm_compute; reflexivity|].
  split; [apply run_steps|]. split; [right; vm_compute; reflexivity|]. split; [apply re_trails|]. split; [apply re_trails|]. split; [apply run_steps|]. split; [right; vm_compute; reflexivity|]. split; vm_compute; auto.
Qed.
Print Assumptions C110_refuted.
Example C110_nonvacuous : let s := re_at 52 in steps ids xkeep xkeep (init re_test xw0) s /\ (exists r, In r re_calls1 /\ accepted r = true) /\ runs s 0 (second_block xstore 1 (grouped re_calls1) re_two bl_after) /\
  map fst (regrouped re_calls1 re_calls2) = ["a"%string; "b"%string] /\ old re_calls1 "a" /\ ~ old re_calls1 "b".
Proof.
  intros s. split; [apply run_steps|]. split; [eexists; split; [now left|reflexivity]|]. split; [right; vm_compute; reflexivity|]. split; [reflexivity|]. split; [eexists; split; [now left|split; reflexivity]|]. intros [r [[<-|[]] [H _]]]. discriminate.
Qed.
