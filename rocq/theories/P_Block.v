(** C97, C98, C99: the block of an executor. *)
From Coq Require Import List String Bool Arith ZArith Lia.
From Verif Require Import Py Prio_Model Loop_Model Loop_Spec Loop2_Spec LoopProg_Model Loop_Proofs Loop2_Proofs Loop3_Proofs Loop4_Proofs Loop9_Proofs Loop10_Proofs Loop13_Proofs Bind_Spec Loop16_Proofs Loop17_Proofs Loop19_Proofs LoopRun_Model LoopRun_Proofs P_Loop P_Loop2 P_Loop4 Drv_Model Exec_Model Exec_Spec Exec_Proofs P_Exec Test_Proofs Block_Model Block_Spec.
Import ListNotations.
Open Scope nat_scope.

Section Thms.
Context {mem : Type} (shuffle : list id -> list id) (dut delayers : mem -> mem) (store : dict lval -> mem -> mem).
Notation steps := (steps shuffle dut delayers). Notation step := (step shuffle dut delayers). Notation prog := (@prog mem). Notation state := (@state mem).
Notation request := (@request mem). Notation block := (@block mem).
Implicit Types (s : state).

Lemma add_all_snoc (rs : list request) c p o g : add_all (rs ++ [mk_request c p o g]) = fst (add (add_all rs) c p o g).
Proof. unfold add_all. now rewrite fold_left_app. Qed.
Lemma grouped_all (rs : list request) : add_all rs = grouped rs.
Proof. apply C36_groups. Qed.

Lemma body_track (b : block) : forall rs0 (K : coros -> res lval -> prog) s s' t, Wf s -> runs s t (body_run b (add_all rs0) K) -> steps s s' ->
  (exists rs o k, trail b rs (Does o k) /\ awaiting s' t (fun r => body_run (k r) (grouped (rs0 ++ rs)) K)) \/
  (exists s1 rs b' out, steps s s1 /\ steps s1 s' /\ trail b rs b' /\ ended b' = Some out /\ runs s1 t (K (grouped (rs0 ++ rs)) out)).
Proof.
  induction b as [|x|c p o g k IH|o k IH]; intros rs0 K s s' t WF Hc R; cbn [body_run] in Hc.
  - right. exists s, [], Done, (Ok VNone). split; [apply steps_refl|]. split; auto. split; [constructor|]. split; auto. now rewrite app_nil_r, <- grouped_all.
  - right. exists s, [], (Fails x), (Exn x). split; [apply steps_refl|]. split; auto. split; [constructor|]. split; auto. now rewrite app_nil_r, <- grouped_all.
  - pose proof (C36_rejected (add_all rs0) (mk_request c p o g)) as X. cbn [r_coro r_prio r_order r_group] in X. pose proof (add_all_snoc rs0 c p o g) as Y.
    destruct (add (add_all rs0) c p o g) as [cs1 r]. cbn [fst snd] in *. change (r = answer (mk_request c p o g)) in X. subst r cs1.
    destruct (IH _ (rs0 ++ [mk_request c p o g]) K s s' t WF Hc R) as [[rs [o1 [k1 [A B]]]]|[s1 [rs [b' [out [A [B [C [D E]]]]]]]]].
    + left. exists (mk_request c p o g :: rs), o1, k1. split; [now constructor|]. now rewrite <- app_assoc in B.
    + right. exists s1, (mk_request c p o g :: rs), b', out. rewrite <- app_assoc in E. split; auto. split; auto. split; [now constructor|]. auto.
  - assert (IN : Inside any t (fun r => body_run (k r) (add_all rs0) K) s).
    { apply runs_wrap in Hc as [W [HW Hc]]. left. eexists. split; [exact Hc|]. apply leads_before. exists (Op o (fun r => body_run (k r) (add_all rs0) K)). split; [apply upto_op; [exact Logic.I|intros r; apply (upto_end _ (fun r => body_run (k r) (add_all rs0) K))]|]. destruct HW as [-> | ->]; auto. }
    destruct (inside_track shuffle dut delayers any s s' t _ WF IN R) as [X|[s1 [r [A [B C]]]]].
    + left. exists [], o, k. split; [constructor|]. rewrite app_nil_r, <- grouped_all. apply inside_awaiting; auto. exact (steps_wf shuffle dut delayers _ _ WF R).
    + destruct (IH r rs0 K s1 s' t (steps_wf shuffle dut delayers _ _ WF A) C B) as [[rs [o1 [k1 [D E]]]]|[s2 [rs [b' [out [D [E [F G]]]]]]]].
      * left. exists rs, o1, k1. split; auto. now apply trail_op with (x := r).
      * right. exists s2, rs, b', out. split; [exact (steps_trans _ _ _ _ _ _ A D)|]. split; auto. split; auto. now apply trail_op with (x := r).
Qed.

(** The body is still being executed, having made the calls [rs]. *)
Definition in_body s t (b : block) (K : coros -> res lval -> prog) : Prop := exists rs o k, trail b rs (Does o k) /\ awaiting s t (fun r => body_run (k r) (grouped rs) K).
(** What follows the body: the groups are executed; then what comes after the block gets the outcome of the body, unless the execution raised. *)
Definition after_block exit e (K : list id -> res lval -> prog) (cs : coros) (out : res lval) : prog := execute store exit e cs (fun ids x => K ids (match x with Ok _ => out | Exn y => Exn y end)).

(** A block, from its beginning in [s]: in every later state its body is being executed, or it has ended, normally or by an exception [out], and from then on
    the groups of all calls that were made are executed as for a block that ended normally. *)
Theorem C97_left (test : prog) m exit (b : block) K s s' t : steps (init test m) s -> runs s t (with_executor store exit b K) -> steps s s' ->
  let e := List.length (evs s) in
  s' = s \/ in_body s' t b (after_block exit e K) \/
  exists s1 rs b' out, steps s s1 /\ steps s1 s' /\ trail b rs b' /\ ended b' = Some out /\ runs s1 t (after_block exit e K (grouped rs) out).
Proof.
  intros R0 Hr R e. destruct (reach_linked _ _ _ _ _ _ R0) as [WF _]. apply runs_wrap in Hr as [W [HW Hc]]. unfold with_executor in Hc.
  destruct (steps_first _ _ _ _ _ R) as [->|[fire R1]]; [now left|right]. assert (HS := step_op shuffle dut delayers W fire s t _ _ HW Hc). cbn [exec_op] in HS.
  assert (RS : steps s (step fire s)) by (apply steps_step, steps_refl).
  assert (Hc1 : runs (step fire s) t (body_run b (add_all []) (after_block exit e K))) by (apply runs_wrap; exists W; split; [exact HW|rewrite HS; reflexivity]).
  destruct (body_track b [] _ _ s' t (steps_wf shuffle dut delayers _ _ WF RS) Hc1 R1) as [X|[s1 [rs [b' [out [A [B C]]]]]]]; [now left|right].
  exists s1, rs, b', out. split; [exact (steps_trans _ _ _ _ _ _ RS A)|]. auto.
Qed.

Lemma grouped_awaitable (b b' : block) rs : gives_coroutines b -> trail b rs b' -> all_awaitable (grouped rs).
Proof.
  intros G T g a Hg Ha. apply in_map_iff in Hg as [k [<- _]]. cbn [snd] in Ha. unfold group_of in Ha. apply in_map_iff in Ha as [r [<- Hr]]. apply filter_In in Hr as [Hr _]. exact (G rs b' r T Hr).
Qed.
Lemma grouped_nodup (rs : list request) : NoDup (dkeys (grouped rs)).
Proof. rewrite <- grouped_all. apply groups_nodup. Qed.

(** exit='all', in every later state [s']: the body is being executed, or it has ended with [out] in [s1] and the groups are being executed from [s1] on:
    - all of them have been executed completely; then the block ends with [out], so that an exception of the body is raised after everything given to the executor has been executed;
    - or one has failed and its exception leaves the block, in place of [out];
    - or the block has been cancelled;
    - or it is creating or awaiting the tasks of the groups. *)
Theorem C97_all (test : prog) m (b : block) K s s' t : steps (init test m) s -> gives_coroutines b -> runs s t (with_executor store "all" b K) -> steps s s' ->
  s' = s \/ in_body s' t b (after_block "all" (List.length (evs s)) K) \/
  exists s1 rs b' out, steps s s1 /\ steps s1 s' /\ trail b rs b' /\ ended b' = Some out /\
   let cs := grouped rs in let js := seq (List.length (futs s1)) (List.length cs) in
   ((exists s2 vss, steps s1 s2 /\ steps s2 s' /\ List.length cs = List.length vss /\ Forall2 (fun g x => group_ran shuffle dut delayers s1 s2 g (fst x) (snd x)) cs (combine js vss) /\
       (s' = s2 \/ exists fire, steps (step fire s2) s' /\ runs (step fire s2) t (K [] out))) \/
    (exists s2 i x, steps s1 s2 /\ steps s2 s' /\ runs s2 t (K [] (Exn x)) /\ i < List.length cs /\ failed s2 (List.length (futs s1) + i) x) \/
    (exists s2, steps s1 s2 /\ steps s2 s' /\ runs s2 t (K [] (Exn CancelledError)) /\ (nocancel test -> tdone s2 = Some true)) \/
    still_creating s' t (groups cs None) \/ still_awaiting s' t js).
Proof.
  intros R0 G Hr R. destruct (C97_left test m "all" b K s s' t R0 Hr R) as [X|[X|[s1 [rs [b' [out [A [B [C [D E]]]]]]]]]]; auto.
  right; right. exists s1, rs, b', out. split; auto. split; auto. split; auto. split; auto. cbv zeta.
  exact (C37_all shuffle dut delayers store test m (grouped rs) (List.length (evs s)) (fun ids x => K ids (match x with Ok _ => out | Exn y => Exn y end)) s1 s' t (steps_trans _ _ _ _ _ _ R0 A) (grouped_awaitable b b' rs G C) (grouped_nodup rs) E B).
Qed.
(** exit='none', in every later state: the body is being executed, or it has ended with [out] and the tasks of the groups are being created, or the block has ended
    with [out], all tasks of the groups having been created, in no clock step. *)
Theorem C97_none (test : prog) m (b : block) K s s' t : steps (init test m) s -> runs s t (with_executor store "none" b K) -> steps s s' ->
  s' = s \/ in_body s' t b (after_block "none" (List.length (evs s)) K) \/
  exists s1 rs b' out, steps s s1 /\ steps s1 s' /\ trail b rs b' /\ ended b' = Some out /\
   let cs := grouped rs in
   ((exists s2, steps s1 s2 /\ steps s2 s' /\ runs s2 t (K (seq (List.length (futs s1)) (List.length cs)) out) /\ nstep s2 = nstep s1 /\ mm s2 = mm s1 /\
       forall i g, nth_error cs i = Some g -> made_between shuffle dut delayers s1 s2 (seq_all (snd g) [] None) (List.length (futs s1) + i)) \/
    still_creating s' t (groups cs None)).
Proof.
  intros R0 Hr R. destruct (C97_left test m "none" b K s s' t R0 Hr R) as [X|[X|[s1 [rs [b' [out [A [B [C [D E]]]]]]]]]]; auto.
  right; right. exists s1, rs, b', out. split; auto. split; auto. split; auto. split; auto. cbv zeta.
  destruct (C37_none shuffle dut delayers store test m (grouped rs) (List.length (evs s)) (fun ids x => K ids (match x with Ok _ => out | Exn y => Exn y end)) s1 s' t (steps_trans _ _ _ _ _ _ R0 A) E B) as [[s2 [X1 [X2 [X3 [X4 [X5 X6]]]]]]|X]; auto.
  left. exists s2. split; auto. split; auto. split; [exact X3|]. split; auto. split; auto. intros i g Hg. exact (proj1 (X6 i g Hg)).
Qed.
(** Any other exit: the block raises ValueError and nothing is executed, whatever the body did. *)
Theorem C97_invalid (test : prog) m exit (b : block) K s s' t : exit <> "all"%string -> exit <> "none"%string -> exit <> "any"%string ->
  steps (init test m) s -> runs s t (with_executor store exit b K) -> steps s s' ->
  s' = s \/ in_body s' t b (after_block exit (List.length (evs s)) K) \/
  exists s1 rs b' out, steps s s1 /\ steps s1 s' /\ trail b rs b' /\ ended b' = Some out /\ runs s1 t (K [] (Exn ValueError)).
Proof.
  intros N1 N2 N3 R0 Hr R. destruct (C97_left test m exit b K s s' t R0 Hr R) as [X|[X|[s1 [rs [b' [out [A [B [C [D E]]]]]]]]]]; auto.
  right; right. exists s1, rs, b', out. split; auto. split; auto. split; auto. split; auto. unfold after_block in E. rewrite C37_invalid in E by auto. exact E.
Qed.

Lemma filter_none {A} (f : A -> bool) l : (forall x, In x l -> f x = false) -> filter f l = [].
Proof. induction l as [|a l IH]; intros H; simpl; auto. rewrite (H a) by (now left). apply IH. intros x Hx. apply H. now right. Qed.
(** A rejected call adds no coroutine to any group, and keeps the order of the groups; all it can add is a group without coroutines, the last one. *)
Theorem C98_no_coroutine_partial (rs : list request) r : accepted r = false ->
  (forall k, group_of k (rs ++ [r]) = group_of k rs) /\
  (grouped (rs ++ [r]) = grouped rs \/ grouped (rs ++ [r]) = grouped rs ++ [(key_of r, [])] /\ ~ In (key_of r) (map key_of rs)).
Proof.
  intros A. assert (G : forall k, group_of k (rs ++ [r]) = group_of k rs).
  { intros k. unfold group_of. rewrite filter_app. cbn [filter]. rewrite A, andb_false_r, app_nil_r. reflexivity. }
  split; auto. unfold grouped. rewrite map_app. cbn [map]. rewrite firsts_snoc. rewrite (map_ext (fun k => (k, group_of k (rs ++ [r]))) (fun k => (k, group_of k rs)) (fun k => f_equal _ (G k))). destruct (smem (key_of r) (map key_of rs)) eqn:E; [now left|right].
  assert (N : ~ In (key_of r) (map key_of rs)) by (intros X; apply smem_iff in X; congruence). split; auto. rewrite map_app. cbn [map]. f_equal. f_equal. f_equal.
  unfold group_of. rewrite filter_none; auto. intros x Hx. destruct (String.eqb_spec (key_of x) (key_of r)) as [X|X]; auto. exfalso. apply N. rewrite <- X. now apply in_map.
Qed.

(** A block in which nothing was added, exit='all': it ends in one step of the machine, without a clock step, and the results are the empty dictionary. *)
Theorem C99_all e K s t fire : runs s t (execute store "all" e [] K) ->
  runs (step fire s) t (K [] (Ok VNone)) /\ mm (step fire s) = store [] (mm s) /\ nstep (step fire s) = nstep s /\ futs (step fire s) = futs s.
Proof.
  intros Hr. apply runs_wrap in Hr as [W [HW Hc]]. change (execute store "all" e [] K) with (keep_results store [] (VList []) (K [])) in Hc. unfold keep_results in Hc.
  assert (HS := step_op shuffle dut delayers W fire s t _ _ HW Hc). cbn [exec_op set_results] in HS. rewrite HS. split; [apply runs_wrap; exists W; split; [exact HW|reflexivity]|]. auto.
Qed.
(** exit='none': it has ended. *)
Theorem C99_none e (K : list id -> res lval -> prog) : execute store "none" e [] K = K [] (Ok VNone).
Proof. reflexivity. Qed.
Lemma empty_track W (test : prog) m e ev K s s' t : wrap W -> steps (init test m) s -> e <> 0 -> nth_error (evs s) e = Some ev -> e_priv ev = false ->
  (forall x, steps s x -> current_op x <> Some (OEvSet e)) -> cur s = Some (t, W (execute store "any" e [] K)) -> steps s s' ->
  (exists s1, steps s s1 /\ steps s1 s' /\ cur s1 = Some (t, W (K [] (Exn CancelledError))) /\ (nocancel test -> tdone s1 = Some true)) \/
  s' = s \/ (exists k, runs s' t (Op (OEvWait e) k)) \/ (inside_wait s' t e /\ unfinished s' t).
Proof.
  intros HW R0 He Ee Pe RELY Hc R. destruct (reach_linked _ _ _ _ _ _ R0) as [WF _].
  unfold execute in Hc. cbn [String.eqb Ascii.eqb Bool.eqb] in Hc. unfold exit_any in Hc.
  destruct (steps_first _ _ _ _ _ R) as [->|[fire R1]]; [right; now left|]. assert (HS := step_op shuffle dut delayers W fire s t _ _ HW Hc). cbn [exec_op] in HS. rewrite Ee, Pe in HS.
  assert (RS : steps s (step fire s)) by (apply steps_step, steps_refl).
  assert (E1 : nth_error (evs (step fire s)) e = Some (mk_event false (e_waiters ev) false)).
  { rewrite HS. unfold ev_clear. rewrite Ee. cbn [evs go set_cur eput set_evs]. rewrite (put_nth_get _ _ _ _ e Ee), Nat.eqb_refl, Pe. reflexivity. }
  set (s1 := step fire s) in *. assert (Hc1 : cur s1 = Some (t, W (Op (OEvWait e) (fun r => match r with Ok _ => Op (OFlag true) (fun _ => K [] (Ok VNone)) | Exn x => K [] (Exn x) end)))) by (rewrite HS; reflexivity).
  assert (R01 : steps (init test m) s1) by exact (steps_trans _ _ _ _ _ _ R0 RS). destruct (reach_linked _ _ _ _ _ _ R01) as [WF1 _].
  destruct (wait_set shuffle dut delayers W s1 s' t e _ _ HW WF1 Hc1 E1 eq_refl R1) as [->|[X|[[s3 [X1 [X2 [X3 [y [Y1 [Y2 Y3]]]]]]]|[s3 [X1 [X2 [X3 X4]]]]]]]; auto.
  - right; right; left. eexists. apply runs_wrap. eauto.
  - exfalso. assert (R0y : steps (init test m) y) by exact (steps_trans _ _ _ _ _ _ R01 Y1). destruct (nonpriv_steps shuffle dut delayers s1 y e _ E1 eq_refl Y1) as [evy [Ey Py]].
    exact (RELY y (steps_trans _ _ _ _ _ _ RS Y1) (sets_op shuffle dut delayers test m y e evy R0y Y3 He Ey Py)).
  - left. exists s3. split; [exact (steps_trans _ _ _ _ _ _ RS X1)|]. split; auto. split; [exact X3|]. intros NT. exact (cancelled_ended shuffle dut delayers test m s1 s3 t NT R01 X4).
Qed.
(** exit='any', the event [e] of the executor being set by nobody: the block never ends, except by cancellation. *)
Theorem C99_any_waits (test : prog) m e ev K s s' t : steps (init test m) s -> e <> 0 -> nth_error (evs s) e = Some ev -> e_priv ev = false ->
  (forall x, steps s x -> current_op x <> Some (OEvSet e)) -> runs s t (execute store "any" e [] K) -> steps s s' ->
  (exists s1, steps s s1 /\ steps s1 s' /\ runs s1 t (K [] (Exn CancelledError)) /\ (nocancel test -> tdone s1 = Some true)) \/
  s' = s \/ (exists k, runs s' t (Op (OEvWait e) k)) \/ (inside_wait s' t e /\ unfinished s' t).
Proof.
  intros R0 He Ee Pe RELY Hr R. apply runs_wrap in Hr as [W [HW Hc]]. destruct (empty_track W test m e ev K s s' t HW R0 He Ee Pe RELY Hc R) as [[s1 [A [B [C D]]]]|X]; auto.
  left. exists s1. split; auto. split; auto. split; [apply runs_wrap; eauto|exact D].
Qed.
(** If the test itself leaves such a block and the program cancels nothing, the test never gets past it: run() does not return. *)
Theorem C99_any_hangs (test : prog) m e ev K s s' t : nocancel test -> steps (init test m) s -> e <> 0 -> nth_error (evs s) e = Some ev -> e_priv ev = false ->
  (forall x, steps s x -> current_op x <> Some (OEvSet e)) -> cur s = Some (t, BTest (execute store "any" e [] K)) -> steps s s' ->
  s' = s \/ (exists k, runs s' t (Op (OEvWait e) k)) \/ (inside_wait s' t e /\ unfinished s' t).
Proof.
  intros NT R0 He Ee Pe RELY Hc R. destruct (empty_track BTest test m e ev K s s' t (or_intror eq_refl) R0 He Ee Pe RELY Hc R) as [[s1 [A [B [C D]]]]|X]; auto.
  exfalso. exact (proj2 (test_running shuffle dut delayers test m s1 t _ (steps_trans _ _ _ _ _ _ R0 A) C) (D NT)).
Qed.
End Thms.
Print Assumptions C97_left.
Print Assumptions C97_all.
Print Assumptions C97_none.
Print Assumptions C97_invalid.
Print Assumptions C98_no_coroutine_partial.
Print Assumptions C99_all.
Print Assumptions C99_none.
Print Assumptions C99_any_waits.
Print Assumptions C99_any_hangs.

(** The body gives a coroutine to the executor, waits for a clock cycle, gives it another with an invalid priority, and raises the AssertionError it gets. *)
Definition bl_body : @block xworld :=
  Calls (user "a" (work 1 2)) None None None (fun _ => Does (OEvWait 0) (fun _ => Calls (user "b" (work 2 1)) (Some 4%Z) None None (fun r => match r with Ok _ => Done | Exn x => Fails x end))).
Definition bl_after (_ : list id) (r : res lval) : @prog xworld := match r with Ok v => Op (OMark 1) (fun _ => Ret v) | Exn x => Op (OMark 2) (fun _ => Raise x) end.
Definition bl_test (exit : string) (b : @block xworld) : @prog xworld := Op OStartClock (fun _ => with_executor xstore exit b bl_after).
Definition bl_at exit b n := run ids xkeep xkeep n (init (bl_test exit b) xw0).
Lemma bl_gives : gives_coroutines bl_body.
Proof.
  intros rs b' r T Hr K. unfold bl_body in T.
  repeat (match goal with H : trail _ _ _ |- _ => cbn in H; inversion H; clear H; subst end; try contradiction; try (destruct Hr as [<-|Hr]; [apply upto_bindr|])).
Qed.
Lemma bl_trail : exists rs, trail bl_body rs (Fails AssertionError) /\ map (fun r => c_name (r_coro r)) rs = ["a"%string; "b"%string] /\ map accepted rs = [true; false] /\ map fst (grouped rs) = ["a"%string; "b"%string].
Proof. eexists. split; [unfold bl_body; apply trail_call, (trail_op _ _ (Ok VNone)), trail_call, trail_here|]. split; [reflexivity|]. split; reflexivity. Qed.
(** The exception comes out of the block after the coroutine that had been added was executed, two clock cycles later. *)
Example C97_nonvacuous : let s := bl_at "all" bl_body 4 in let s1 := run ids xkeep xkeep 55 s in steps ids xkeep xkeep (init (bl_test "all" bl_body) xw0) s /\ gives_coroutines bl_body /\
  runs s 0 (with_executor xstore "all" bl_body bl_after) /\ steps ids xkeep xkeep s s1 /\ runs s1 0 (bl_after [] (Exn AssertionError)) /\ x_log (mm s1) = [1] /\ nstep s = 0 /\ nstep s1 = 3.
Proof.
  intros s s1. split; [apply run_steps|]. split; [apply bl_gives|]. split; [right; vm_compute; reflexivity|]. split; [apply run_steps|]. split; [right; vm_compute; reflexivity|]. repeat split; vm_compute; reflexivity.
Qed.
Example C97_nonvacuous_body : exists rs o k, trail bl_body rs (Does o k) /\ map (fun r => c_name (r_coro r)) rs = ["a"%string].
Proof. eexists _, _, _. split; [unfold bl_body; apply trail_call, trail_here|reflexivity]. Qed.
(** With 'none' it comes out in the cycle in which it was raised, the coroutine not having been executed yet. *)
Example C97_nonvacuous_none : let s := bl_at "none" bl_body 4 in exists n, runs s 0 (with_executor xstore "none" bl_body bl_after) /\ runs (bl_at "none" bl_body n) 0 (bl_after [3; 4] (Exn AssertionError)) /\ nstep (bl_at "none" bl_body n) = 1 /\
  x_log (mm (bl_at "none" bl_body n)) = [] /\ unfinished (bl_at "none" bl_body n) 3.
Proof. intros s. exists 22. split; [right; vm_compute; reflexivity|]. split; [right; vm_compute; reflexivity|]. split; [vm_compute; reflexivity|]. split; [vm_compute; reflexivity|unfold unfinished; vm_compute; auto]. Qed.
(** If a group fails, its exception comes out instead of that of the body. *)
Definition bl_two : @block xworld := Calls (user "bad" bad) None None None (fun _ => Fails (UserExn 3)).
Example C97_replaced : exists n, runs (bl_at "all" bl_two 4) 0 (with_executor xstore "all" bl_two bl_after) /\ runs (bl_at "all" bl_two n) 0 (bl_after [] (Exn (UserExn 7))).
Proof. exists 18. split; right; vm_compute; reflexivity. Qed.

(** A body that ignores that its second call is rejected. *)
Definition bl_ignore : @block xworld := Calls (user "a" (work 1 2)) None None None (fun _ => Calls (user "b" (work 2 1)) (Some 4%Z) None None (fun _ => Done)).
Definition bl_rejected : @request xworld := mk_request (user "b" (work 2 1)) (Some 4%Z) None None.
Lemma bl_ignored : exists r, trail bl_ignore [r; bl_rejected] Done /\ accepted r = true /\ accepted bl_rejected = false.
Proof. eexists. split; [unfold bl_ignore; apply trail_call, trail_call, trail_here|]. split; reflexivity. Qed.
(** The claim "a rejected call leaves no trace" is false: get_results() has an entry for it. *)
Theorem C98_results_refuted : exists s s', steps ids xkeep xkeep (init (bl_test "all" bl_ignore) xw0) s /\ runs s 0 (with_executor xstore "all" bl_ignore bl_after) /\ steps ids xkeep xkeep s s' /\
  runs s' 0 (bl_after [] (Ok VNone)) /\ (exists r, trail bl_ignore [r; bl_rejected] Done /\ accepted r = true /\ key_of r <> key_of bl_rejected) /\ accepted bl_rejected = false /\
  dget (x_res (mm s')) (key_of bl_rejected) = Some (VList []).
Proof.
  set (s := bl_at "all" bl_ignore 4). exists s, (run ids xkeep xkeep 41 s). split; [apply run_steps|]. split; [right; vm_compute; reflexivity|]. split; [apply run_steps|]. split; [right; vm_compute; reflexivity|].
  split; [destruct bl_ignored as [r [A [B C]]]; exists r; split; auto; split; auto; inversion A; subst; discriminate|]. split; vm_compute; reflexivity.
Qed.
(** And with exit='any' the block ends because of it, although no coroutine given to the executor has been executed. *)
Theorem C98_any_refuted : exists s s', steps ids xkeep xkeep (init (bl_test "any" bl_ignore) xw0) s /\ runs s 0 (with_executor xstore "any" bl_ignore bl_after) /\ steps ids xkeep xkeep s s' /\
  (exists js, runs s' 0 (bl_after js (Ok VNone)) /\ js = [2; 3]) /\ accepted bl_rejected = false /\ unfinished s' 2 /\ x_log (mm s') = [] /\ nstep s' = 0.
Proof.
  set (s := bl_at "any" bl_ignore 4). exists s, (run ids xkeep xkeep 21 s). split; [apply run_steps|]. split; [right; vm_compute; reflexivity|]. split; [apply run_steps|]. split; [exists [2; 3]; split; [right; vm_compute; reflexivity|reflexivity]|].
  split; [reflexivity|]. split; [unfold unfinished; vm_compute; auto|]. split; vm_compute; reflexivity.
Qed.
Print Assumptions C98_results_refuted.
Print Assumptions C98_any_refuted.

(** The claim "a block in which nothing was added ends at once" is false for exit='any': the test waits for ever. *)
Definition bl_empty : @prog xworld := bl_test "any" Done.
Lemma empty_sets : allp (fun o => o <> OEvSet 1) bl_empty.
Proof.
  unfold bl_empty, bl_test, with_executor. apply all_op; [discriminate|intros p X; inversion X|]. intros _. apply all_op; [discriminate|intros p X; inversion X|].
  assert (A : forall js r, allp (fun o => o <> OEvSet 1) (bl_after js r)) by (intros js [v|x]; cbn [bl_after]; (apply all_op; [discriminate|intros p X; inversion X|]); intros _; constructor).
  intros [v|x]; auto. destruct v; auto. cbn [body_run execute String.eqb Ascii.eqb Bool.eqb]. unfold exit_any.
  apply all_op; [discriminate|intros p X; inversion X|]. intros [v|x]; auto. cbn [groups map create_all]. apply all_op; [discriminate|intros p X; inversion X|]. intros [v0|x]; auto. apply all_op; [discriminate|intros p X; inversion X|]. intros _. apply A.
Qed.
Lemma empty_nocancel : nocancel bl_empty.
Proof.
  assert (NO : forall o k, match o with OCancel _ | OMem _ => False | _ => True end -> (forall p, part o p -> nocancel p) -> (forall r, r <> Exn CancelledError -> nocancel (k r)) -> nocancel (mem := xworld) (Op o k)) by (intros o k; destruct o; try contradiction; intros _; apply nc_op; exact Logic.I).
  assert (A : forall js r, r <> Exn CancelledError -> nocancel (bl_after js r)) by (intros js [v|x] N; cbn [bl_after]; (apply NO; [exact Logic.I|intros p X; inversion X|]); intros _ _; constructor; congruence).
  unfold bl_empty, bl_test, with_executor. apply NO; [exact Logic.I|intros p X; inversion X|]. intros _ _. apply NO; [exact Logic.I|intros p X; inversion X|].
  intros [v|x] HR; [|apply A; congruence]. destruct v; try (apply A; discriminate). cbn [body_run execute String.eqb Ascii.eqb Bool.eqb]. unfold exit_any.
  apply NO; [exact Logic.I|intros p X; inversion X|]. intros [v|x] HQ; [|apply A; cbn; congruence]. cbn [groups map create_all]. apply NO; [exact Logic.I|intros p X; inversion X|]. intros [v0|x] HQ'; [|apply A; cbn; congruence].
  apply NO; [exact Logic.I|intros p X; inversion X|]. intros _ _. apply A. discriminate.
Qed.
Lemma empty_rely s : steps ids xkeep xkeep (init bl_empty xw0) s -> forall x, steps ids xkeep xkeep s x -> current_op x <> Some (OEvSet 1).
Proof.
  intros R0 x R Ho. assert (G := reach_good ids xkeep xkeep (fun o => o <> OEvSet 1) (fun _ _ => True) (fun _ _ _ _ => Logic.I) (fun _ _ _ _ _ => Logic.I) bl_empty xw0 x empty_sets (steps_trans _ _ _ _ _ _ R0 R)).
  unfold current_op in Ho. destruct (cur x) as [[i b]|] eqn:Hc; [|discriminate]. pose proof (g_cur _ _ _ G _ _ Hc) as Gb.
  destruct b as [[v|e|o kk]|[v|e|o kk] ev todo sb|c|e f r kk|q f [v|e] kk|test|[v|e|o kk]]; try discriminate; injection Ho as ->.
  - inversion Gb; subst. congruence.
  - destruct Gb as [[Gb _] _]. inversion Gb; subst. congruence.
  - inversion Gb; subst. congruence.
Qed.
Theorem C99_any_refuted : exists s, steps ids xkeep xkeep (init bl_empty xw0) s /\ runs s 0 (execute xstore "any" 1 [] (fun js x => bl_after js (leaving (Ok VNone) x))) /\
  forall s', steps ids xkeep xkeep s s' -> s' = s \/ (exists k, runs s' 0 (Op (OEvWait 1) k)) \/ (inside_wait s' 0 1 /\ unfinished s' 0).
Proof.
  set (s := bl_at "any" Done 5). assert (R0 : steps ids xkeep xkeep (init bl_empty xw0) s) by apply run_steps.
  assert (Hc : cur s = Some (0, BTest (execute xstore "any" 1 [] (fun js x => bl_after js (leaving (Ok VNone) x))))) by (vm_compute; reflexivity).
  assert (E1 : exists ev, nth_error (evs s) 1 = Some ev /\ e_priv ev = false) by (eexists; vm_compute; split; reflexivity). destruct E1 as [ev [E1 E2]].
  exists s. split; auto. split; [right; exact Hc|]. generalize dependent s. intros s R0 Hc E1 s' R.
  exact (C99_any_hangs ids xkeep xkeep xstore bl_empty xw0 1 ev _ s s' 0 empty_nocancel R0 ltac:(discriminate) E1 E2 (empty_rely s R0) Hc R).
Qed.
Print Assumptions C99_any_refuted.
(** After six clock steps the test still waits. *)
Example C99_nonvacuous : exists n, nstep (bl_at "any" Done n) = 6 /\ inside_wait (bl_at "any" Done n) 0 1 /\ unfinished (bl_at "any" Done n) 0.
Proof. exists 58. split; [vm_compute; reflexivity|]. split; [left; exists 2; eexists; split; [eexists; split; vm_compute; reflexivity|]; split; vm_compute; reflexivity|unfold unfinished; vm_compute; auto]. Qed.
Example C99_nonvacuous_all : runs (bl_at "all" Done 5) 0 (execute xstore "all" 1 [] (fun js x => bl_after js (leaving (Ok VNone) x))) /\ runs (bl_at "all" Done 6) 0 (bl_after [] (Ok VNone)).
Proof. split; right; vm_compute; reflexivity. Qed.
