(** C36, C37: the executor. *)
From Coq Require Import List String Bool Arith ZArith Lia.
From Verif Require Import Py Prio_Model Loop_Model Loop_Spec Loop2_Spec LoopProg_Model Loop_Proofs Loop2_Proofs Loop3_Proofs Loop4_Proofs Loop9_Proofs Loop10_Proofs Loop13_Proofs Loop14_Proofs Loop15_Proofs Bind_Spec Loop16_Proofs Loop17_Proofs Loop18_Proofs Loop19_Proofs LoopRun_Model LoopRun_Proofs P_Loop P_Loop2 P_Loop3 P_Loop4 Drv_Model Exec_Model Exec_Spec Exec_Proofs.
Import ListNotations.
Open Scope nat_scope.

Section Record.
Context {mem : Type}.
Notation request := (@request mem).

(** What a sequence of calls records. *)
Definition add_all (rs : list request) : @coros mem := fold_left (fun cs r => fst (add cs (r_coro r) (r_prio r) (r_order r) (r_group r))) rs [].
Lemma key_of_group (r : request) : group_key (r_coro r) (r_group r) = key_of r.
Proof. unfold group_key, key_of. destruct (r_group r), (c_drv (r_coro r)) as [[a d]|]; reflexivity. Qed.
Lemma accepted_ok (r : request) : accepted r = prio_ok (r_coro r) (r_prio r) && order_ok (r_coro r) (r_order r).
Proof.
  unfold accepted, prio_ok, order_ok, has_driver. destruct (r_prio r) as [z|], (r_order r) as [o|], (c_drv (r_coro r)); rewrite ?andb_true_r, ?andb_false_r; auto.
Qed.
Lemma norm_recorded (r : request) : mk_added (r_coro r) (norm_order (r_order r)) (r_prio r) = recorded r.
Proof. unfold recorded, norm_order. destruct (r_order r) as [o|]; auto. destruct (String.eqb o "parallel"); auto. Qed.

Lemma firsts_In x l : In x (firsts l) <-> In x l.
Proof.
  induction l as [|y l IH]; simpl; [tauto|]. rewrite filter_In, IH. destruct (String.eqb_spec y x) as [->|N]; simpl; split; intros H; auto; [tauto|]. destruct H as [->|H]; tauto.
Qed.
Lemma firsts_nodup l : NoDup (firsts l).
Proof.
  induction l as [|y l IH]; simpl; constructor; [|apply NoDup_filter; auto]. rewrite filter_In, String.eqb_refl. intros [_ X]. discriminate.
Qed.
Lemma firsts_snoc l x : firsts (l ++ [x]) = if smem x l then firsts l else firsts l ++ [x].
Proof.
  induction l as [|y l IH]; simpl; auto. rewrite IH. rewrite (String.eqb_sym x y). destruct (String.eqb_spec y x) as [->|N]; simpl.
  - destruct (smem x l); auto. rewrite filter_app. simpl. rewrite String.eqb_refl. simpl. now rewrite app_nil_r.
  - destruct (smem x l); auto. rewrite filter_app. simpl. apply String.eqb_neq in N. now rewrite N.
Qed.
Lemma smem_iff x l : smem x l = true <-> In x l.
Proof. induction l as [|y l IH]; simpl; [split; [discriminate|contradiction]|]. rewrite orb_true_iff, String.eqb_eq, IH. split; intros [H|H]; auto. Qed.

Definition tabulate {A : Type} (f : string -> A) (ks : list string) : dict A := map (fun k => (k, f k)) ks.
Lemma dget_tab {A} (f : string -> A) ks k : dget (tabulate f ks) k = if smem k ks then Some (f k) else None.
Proof. induction ks as [|x ks IH]; simpl; auto. destruct (String.eqb_spec k x) as [->|N]; auto. Qed.
Lemma dset_tab_new {A} (f : string -> A) ks k v : smem k ks = false -> dset (tabulate f ks) k v = tabulate f ks ++ [(k, v)].
Proof. induction ks as [|x ks IH]; simpl; auto. destruct (String.eqb_spec k x) as [->|N]; simpl; [discriminate|]. intros H. now rewrite IH. Qed.
Lemma tab_ext {A} (f g : string -> A) ks : (forall k, In k ks -> f k = g k) -> tabulate f ks = tabulate g ks.
Proof. intros H. apply map_ext_in. intros k Hk. now rewrite H. Qed.
Lemma dset_tab {A} (f : string -> A) ks k v : NoDup ks -> smem k ks = true -> dset (tabulate f ks) k v = tabulate (fun x => if String.eqb x k then v else f x) ks.
Proof.
  induction ks as [|x ks IH]; simpl; [discriminate|]. intros N. apply NoDup_cons_iff in N as [N1 N2]. rewrite (String.eqb_sym x k). destruct (String.eqb_spec k x) as [->|Ne]; simpl.
  - intros _. f_equal. apply tab_ext. intros y Hy. destruct (String.eqb_spec y x) as [->|]; auto. contradiction.
  - intros H. now rewrite IH.
Qed.

(** After any sequence of calls the groups are, in the order of their first use, the keys named by the calls; each contains the accepted calls of its
    key, in the order of the calls. *)
Theorem C36_groups (rs : list request) : add_all rs = map (fun k => (k, group_of k rs)) (firsts (map key_of rs)).
Proof.
  change (add_all rs = tabulate (fun k => group_of k rs) (firsts (map key_of rs))). unfold add_all. induction rs as [|r rs IH] using rev_ind; auto.
  rewrite fold_left_app, IH. cbn [fold_left]. rewrite map_app. cbn [map]. rewrite firsts_snoc. unfold add, coros. cbv zeta. rewrite key_of_group. set (ks := firsts (map key_of rs)) in *. set (k := key_of r).
  assert (ND : NoDup ks) by apply firsts_nodup. assert (MM : smem k (map key_of rs) = smem k ks).
  { destruct (smem k ks) eqn:E; [apply smem_iff, firsts_In, smem_iff; auto|]. destruct (smem k (map key_of rs)) eqn:E'; auto. apply smem_iff, firsts_In, smem_iff in E'. unfold ks in E. congruence. }
  set (f := fun x => group_of x rs) in *. set (ks' := if smem k (map key_of rs) then ks else ks ++ [k]).
  assert (GO : forall x, group_of x (rs ++ [r]) = f x ++ if String.eqb k x && accepted r then [recorded r] else []).
  { intros x. unfold f, group_of. rewrite filter_app, map_app. cbn [filter]. fold k. destruct (String.eqb k x && accepted r); reflexivity. }
  assert (FN : smem k ks = false -> f k = []).
  { intros H. unfold f, group_of. enough (X : filter (fun r0 => String.eqb (key_of r0) k && accepted r0) rs = []) by now rewrite X. rewrite <- MM in H. clear - H. clearbody k. induction rs as [|a rs IH]; simpl in *; auto.
    apply orb_false_iff in H as [H1 H2]. rewrite String.eqb_sym in H1. rewrite H1. simpl. auto. }
  assert (C1 : (if dmem (tabulate f ks) k then tabulate f ks else dset (tabulate f ks) k []) = tabulate f ks').
  { unfold dmem. rewrite dget_tab. unfold ks'. rewrite MM. destruct (smem k ks) eqn:E; auto. rewrite dset_tab_new by auto. unfold tabulate. rewrite map_app. cbn [map]. now rewrite (FN eq_refl). }
  rewrite C1. assert (ND' : NoDup ks'). { unfold ks', ks. rewrite <- firsts_snoc. apply firsts_nodup. } assert (MK : smem k ks' = true). { unfold ks'. rewrite MM. destruct (smem k ks) eqn:E; auto. apply smem_iff, in_or_app. right. now left. }
  pose proof (accepted_ok r) as AO. destruct (prio_ok (r_coro r) (r_prio r)); [destruct (order_ok (r_coro r) (r_order r))|]; cbn [negb fst andb] in *.
  - rewrite dget_tab, MK, dset_tab by auto. apply tab_ext. intros x Hx. rewrite GO, AO, andb_true_r, norm_recorded, (String.eqb_sym k x). destruct (String.eqb_spec x k) as [->|]; auto. now rewrite app_nil_r.
  - apply tab_ext. intros x Hx. now rewrite GO, AO, andb_false_r, app_nil_r.
  - apply tab_ext. intros x Hx. now rewrite GO, AO, andb_false_r, app_nil_r.
Qed.
(** A call raises AssertionError exactly if it is not accepted. *)
Theorem C36_rejected cs (r : request) : snd (add cs (r_coro r) (r_prio r) (r_order r) (r_group r)) = if accepted r then Ok tt else Exn AssertionError.
Proof. rewrite accepted_ok. unfold add. destruct (prio_ok (r_coro r) (r_prio r)), (order_ok (r_coro r) (r_order r)); reflexivity. Qed.
(** The dictionary of results. *)
Lemma dset_new {V} (d : dict V) k v : ~ In k (dkeys d) -> dset d k v = d ++ [(k, v)].
Proof. induction d as [|[x y] d IH]; simpl; auto. intros H. destruct (String.eqb_spec k x) as [->|N]; [tauto|]. rewrite IH; tauto. Qed.
Lemma set_results_spec : forall (cs : @coros mem) vss pre d, NoDup (dkeys d ++ dkeys cs) -> Forall2 (fun g vs => List.length (snd g) = List.length vs) cs vss ->
  set_results cs (pre ++ map VList vss) (List.length pre) d = Ok (d ++ combine (dkeys cs) (map report vss)).
Proof.
  induction cs as [|[k l] cs IH]; intros vss pre d ND F; inversion F as [|g vs cs' vss' HL F' E1 E2]; subst; simpl; [now rewrite app_nil_r|]. cbn [snd] in HL.
  rewrite nth_error_app2, Nat.sub_diag by lia. cbn [nth_error]. assert (NK : ~ In k (dkeys d)). { cbn [dkeys map fst] in ND. apply NoDup_remove_2 in ND. intros X. apply ND, in_or_app. now left. }
  assert (ST : forall v, v = report vs -> set_results cs (pre ++ VList vs :: map VList vss') (Datatypes.S (List.length pre)) (dset d k v) = Ok (d ++ (k, report vs) :: combine (dkeys cs) (map report vss'))).
  { intros v ->. rewrite dset_new by auto. specialize (IH vss' (pre ++ [VList vs]) (d ++ [(k, report vs)])). rewrite app_length in IH. cbn [List.length] in IH. rewrite Nat.add_comm in IH. rewrite <- !app_assoc in IH. cbn [app] in IH.
    apply IH; auto. unfold dkeys in *. rewrite map_app. cbn [map fst]. rewrite <- app_assoc. exact ND. }
  destruct (Nat.eqb_spec (List.length l) 1) as [E|E]; [|apply ST; destruct vs as [|v [|]]; simpl in *; auto; lia]. destruct vs as [|v [|w vs]]; simpl in HL; try lia. apply ST. reflexivity.
Qed.
End Record.
Print Assumptions C36_groups.
Print Assumptions C36_rejected.

Lemma F2_length {A B} (P : A -> B -> Prop) l1 l2 : Forall2 P l1 l2 -> List.length l1 = List.length l2.
Proof. induction 1; simpl; auto. Qed.
Section Thms.
Context {mem : Type} (shuffle : list id -> list id) (dut delayers : mem -> mem).
Notation steps := (steps shuffle dut delayers). Notation step := (step shuffle dut delayers). Notation prog := (@prog mem). Notation state := (@state mem). Notation body := (@body mem).
Notation made_between := (made_between shuffle dut delayers). Notation group_ran := (group_ran shuffle dut delayers). Notation in_turn := (in_turn shuffle dut delayers).
Notation begins_coro := (begins_coro shuffle dut delayers). Notation in_coro := (in_coro shuffle dut delayers). Notation coro_raised := (coro_raised shuffle dut delayers).
Notation coros := (@coros mem). Notation added := (@added mem).
Implicit Types (s : state).
Context (store : dict lval -> mem -> mem).
Definition all_awaitable (cs : coros) : Prop := forall g a, In g cs -> In a (snd g) -> awaitable (a_coro a).

(** The task [t] of a group of coroutines [l]: in every later state [s'] it has executed some of them, [l1], one after the other and with the results
    [vs]; and all of them are done, or it is about to begin with the next, or it is in the next one, or the next one has raised an exception, which the
    task raises. *)
Theorem C36_in_order (test : prog) m l ce s s' t : steps (init test m) s -> (forall a, In a l -> awaitable (a_coro a)) -> runs s t (seq_all l [] ce) -> steps s s' ->
  exists l1 l2 vs s1, l = l1 ++ l2 /\ in_turn t l1 vs s s1 /\ steps s1 s' /\
    match l2 with
    | [] => runs s1 t (match ce with Some e => Op (OEvSet e) (fun _ => Ret (VList vs)) | None => Ret (VList vs) end)
    | a :: _ => s' = s1 \/ exists s0, begins_coro a s1 s0 /\ (in_coro t a s0 s' \/ exists s2 e, coro_raised t a e s0 s2 /\ runs s2 t (Raise e) /\ steps s2 s')
    end.
Proof.
  intros R0 HA Hr R. destruct (reach_linked _ _ _ _ _ _ R0) as [WF _]. destruct (seq_track shuffle dut delayers any ce l [] s s' t WF HA Hr R) as [l1 [l2 [ws [s1 [E1 [E2 [E3 [E4 [E5 E6]]]]]]]]].
  exists l1, l2, ws, s1. split; auto. split; auto. split; auto. destruct E6 as [->|[a [rest [-> [[-> _]|[s0 [B [B1 [[B2 _]|[s2 [e [B2 [B3 [B4 B5]]]]]]]]]]]]]]; auto; [right; exists s0; split; auto..].
  right. exists s2, e. auto.
Qed.

Lemma in_turn_len t l vs s s' : in_turn t l vs s s' -> List.length l = List.length vs.
Proof. induction 1; simpl; auto. Qed.
Lemma ran_mono s0 s s1 s2 g i vs : steps s0 s -> steps s1 s2 -> group_ran s s1 g i vs -> group_ran s0 s2 g i vs.
Proof. intros A B [x [y [C [D E]]]]. exists x, y. split; [eapply steps_trans; eauto|]. split; auto. eapply steps_trans; eauto. Qed.
(** The tasks of the groups have returned. *)
Lemma groups_ran test m s s1 (cs : coros) ce ids vs : steps (init test m) s -> all_awaitable cs -> Forall2 (fun g i => made_between s s1 (seq_all (snd g) [] ce) i) cs ids -> Forall2 (returned s1) ids vs ->
  exists vss, vs = map VList vss /\ Forall2 (fun g x => group_ran s s1 g (fst x) (snd x)) cs (combine ids vss) /\ List.length ids = List.length vss.
Proof.
  intros R0 HA. revert ids vs. induction cs as [|g cs IH]; intros ids vs F1 F2; inversion F1 as [|g0 i cs0 ids0 P1 Q1 E1 E2]; subst; inversion F2 as [|i0 v ids1 vs1 P2 Q2 E3 E4]; subst; [exists []; simpl; auto|].
  destruct (IH (fun g a Hg => HA g a (or_intror Hg)) _ _ Q1 Q2) as [vss [E1 [E2 E3]]]. destruct (group_returned shuffle dut delayers test m s s1 (snd g) ce i v R0 (fun a Ha => HA g a (or_introl eq_refl) Ha) P1 P2) as [x0 [x1 [us [A [B [C D]]]]]].
  exists (us :: vss). subst. split; auto. split; [|simpl; auto]. simpl. constructor; auto. exists x0, x1. auto.
Qed.
Lemma ran_lens s s1 (cs : coros) ids vss : List.length ids = List.length vss -> Forall2 (fun g x => group_ran s s1 g (fst x) (snd x)) cs (combine ids vss) -> Forall2 (fun g vs => List.length (snd g) = List.length vs) cs vss.
Proof.
  revert ids vss. induction cs as [|g cs IH]; intros [|i ids] [|vs vss] HL F; simpl in *; try discriminate; inversion F as [|? ? ? ? P Q]; subst; constructor; eauto. destruct P as [x [y [_ [A _]]]]. eapply in_turn_len; eauto.
Qed.
(** Storing the results. *)
Lemma keep_step W fire s t (cs : coros) vss K : wrap W -> NoDup (dkeys cs) -> Forall2 (fun g vs => List.length (snd g) = List.length vs) cs vss -> cur s = Some (t, W (keep_results store cs (VList (map VList vss)) K)) ->
  cur (step fire s) = Some (t, W (K (Ok VNone))) /\ mm (step fire s) = store (combine (dkeys cs) (map report vss)) (mm s).
Proof.
  intros HW ND F Hc. rewrite (step_op shuffle dut delayers W fire s t _ _ HW Hc). pose proof (set_results_spec cs vss [] [] ND F) as X. cbn [app List.length] in X. cbn [exec_op]. rewrite X. split; reflexivity.
Qed.
(** Between [s] and [s'] the coroutines of all groups have been executed, each group by its task, and then the results have been stored: each key with
    the result of its group. *)
Definition collected s s' t (cs : coros) ids (K : res lval -> prog) : Prop :=
  exists s1 vss, steps s s1 /\ steps s1 s' /\ List.length ids = List.length vss /\ Forall2 (fun g x => group_ran s s1 g (fst x) (snd x)) cs (combine ids vss) /\
    (s' = s1 \/ exists fire, steps (step fire s1) s' /\ runs (step fire s1) t (K (Ok VNone)) /\ mm (step fire s1) = store (combine (dkeys cs) (map report vss)) (mm s1)).
Lemma collect test m W s0 s s1 s' t (cs : coros) ce ids vs K : wrap W -> steps (init test m) s0 -> steps s0 s -> all_awaitable cs -> NoDup (dkeys cs) -> Forall2 (fun g i => made_between s0 s1 (seq_all (snd g) [] ce) i) cs ids -> Forall2 (returned s1) ids vs ->
  steps s s1 -> cur s1 = Some (t, W (keep_results store cs (VList vs) K)) -> steps s1 s' -> steps s0 s1 ->
  exists s1 vss, steps s s1 /\ steps s1 s' /\ List.length ids = List.length vss /\ Forall2 (fun g x => group_ran s0 s1 g (fst x) (snd x)) cs (combine ids vss) /\
    (s' = s1 \/ exists fire, steps (step fire s1) s' /\ runs (step fire s1) t (K (Ok VNone)) /\ mm (step fire s1) = store (combine (dkeys cs) (map report vss)) (mm s1)).
Proof.
  intros HW R0 R00 HA ND F1 F2 R1 Hc R2 R01. destruct (groups_ran test m s0 s1 cs ce ids vs R0 HA F1 F2) as [vss [-> [E2 E3]]]. exists s1, vss. split; auto. split; auto. split; auto. split; auto.
  destruct (steps_first _ _ _ _ _ R2) as [->|[fire R3]]; auto. right. exists fire. destruct (keep_step W fire s1 t cs vss K HW ND (ran_lens _ _ _ _ _ E3 E2) Hc) as [A B]. split; auto. split; auto. apply runs_wrap. eauto.
Qed.
Notation children s n := (seq (List.length (futs s)) n).
Lemma groups_len (cs : coros) ce : List.length (groups cs ce) = List.length cs. Proof. apply map_length. Qed.
Lemma made_groups s s1 (cs : coros) ce ids : Forall2 (made_between s s1) (groups cs ce) ids -> Forall2 (fun g i => made_between s s1 (seq_all (snd g) [] ce) i) cs ids.
Proof. revert ids. induction cs as [|g cs IH]; intros ids F; inversion F; subst; constructor; auto. Qed.

(** Leaving a block with exit='all': in every later state [s'] one of the following holds, the groups being executed by the tasks [children s n].
    - All groups have been executed and the results are stored, each key, in the order of first use, with the result of its group or the list of its
      results; then the block ends.
    - The block has raised the exception of a group, all groups before it having returned.
    - It was cancelled (without cancellation in the test: after the test was over).
    - It is creating the tasks, or waiting for a group. *)
Theorem C36_results (test : prog) m (cs : coros) K s s' t : steps (init test m) s -> all_awaitable cs -> NoDup (dkeys cs) -> runs s t (exit_all store cs K) -> steps s s' ->
  collected s s' t cs (children s (List.length cs)) K \/
  (exists s1 i e vs, steps s s1 /\ steps s1 s' /\ runs s1 t (K (Exn e)) /\ i < List.length cs /\ Forall2 (returned s1) (firstn i (children s (List.length cs))) vs /\ failed s1 (List.length (futs s) + i) e) \/
  (exists s1, steps s s1 /\ steps s1 s' /\ runs s1 t (K (Exn CancelledError)) /\ (nocancel test -> tdone s1 = Some true)) \/
  (exists i ids k, i < List.length cs /\ runs s' t (create_all (skipn i (groups cs None)) ids k (fun r => match r with Ok v => keep_results store cs v K | Exn e => K (Exn e) end))) \/
  (exists i vs, i < List.length cs /\ (runs s' t (await_all (skipn i (children s (List.length cs))) vs (fun r => match r with Ok v => keep_results store cs v K | Exn e => K (Exn e) end)) \/ waits_for s' t (List.length (futs s) + i) /\ unfinished s' t)).
Proof.
  intros R0 HA ND Hr R. apply runs_wrap in Hr as [W [HW Hc]]. unfold exit_all in Hc.
  destruct (gather_track shuffle dut delayers test m W _ _ s s' t HW R0 Hc R) as [[s1 [vs [A [B [C [D E]]]]]]|[[s1 [i [e [vs [A [B [C [D [E [F G]]]]]]]]]]|[[s1 [A [B [C D]]]]|[[i [A B]]|[i [vs [A [B [_ C]]]]]]]]]; rewrite ?groups_len in *.
  - left. destruct (collect test m W s s s1 s' t cs None _ vs K HW R0 (steps_refl _ _ _ _) HA ND (made_groups _ _ _ _ _ D) E A C B A) as [s2 [vss [X1 [X2 [X3 [X4 X5]]]]]]. exists s2, vss. auto.
  - right; left. exists s1, i, e, vs. split; auto. split; auto. split; [apply runs_wrap; eauto|]. auto.
  - right; right; left. exists s1. split; auto. split; auto. split; [apply runs_wrap; eauto|]. auto.
  - right; right; right; left. eexists i, _, _. split; auto. apply runs_wrap. exists W. split; [exact HW|exact B].
  - right; right; right; right. exists i, vs. split; auto. destruct C as [C|C]; [left|right; exact C]. apply runs_wrap. exists W. split; [exact HW|exact C].
Qed.
(** wait_all after 'none' or 'any', [ids] being the tasks created for the groups between [s0] and [s]: the same. *)
Theorem C36_wait_results (test : prog) m (cs : coros) ce ids K s0 s s' t : steps (init test m) s0 -> steps s0 s -> all_awaitable cs -> NoDup (dkeys cs) -> cs <> [] ->
  Forall2 (fun g i => made_between s0 s (seq_all (snd g) [] ce) i /\ i < List.length (futs s)) cs ids -> ~ In t ids -> runs s t (wait_all store cs ids K) -> steps s s' ->
  (exists s1 vss, steps s s1 /\ steps s1 s' /\ List.length ids = List.length vss /\ Forall2 (fun g x => group_ran s0 s1 g (fst x) (snd x)) cs (combine ids vss) /\
    (s' = s1 \/ exists fire, steps (step fire s1) s' /\ runs (step fire s1) t (K (Ok VNone)) /\ mm (step fire s1) = store (combine (dkeys cs) (map report vss)) (mm s1))) \/
  (exists s1 i e vs, steps s s1 /\ steps s1 s' /\ runs s1 t (K (Exn e)) /\ i < List.length cs /\ Forall2 (returned s1) (firstn i ids) vs /\ failed s1 (nth i ids 0) e) \/
  (exists s1, steps s s1 /\ steps s1 s' /\ runs s1 t (K (Exn CancelledError)) /\ (nocancel test -> tdone s1 = Some true)) \/
  (exists i vs, i < List.length cs /\ Forall2 (returned s') (firstn i ids) vs /\
     (runs s' t (await_all (skipn i ids) vs (fun r => match r with Ok v => keep_results store cs v K | Exn e => K (Exn e) end)) \/ waits_for s' t (nth i ids 0) /\ unfinished s' t)).
Proof.
  intros R0 R00 HA ND NE F Nt Hr R. apply runs_wrap in Hr as [W [HW Hc]]. assert (R01 : steps (init test m) s) by (eapply steps_trans; eauto). assert (LI : List.length ids = List.length cs) by (clear - F; induction F; simpl; auto).
  assert (Hc' : cur s = Some (t, W (await_all ids [] (fun r => match r with Ok v => keep_results store cs v K | Exn e => K (Exn e) end)))) by (unfold wait_all in Hc; destruct ids; [destruct cs; [congruence|discriminate]|exact Hc]).
  assert (KN : forall i, In i ids -> exists fu, fget s i = Some fu /\ nameable (f_kind fu) = true).
  { intros i Hi. assert (X : exists g, In g cs /\ made_between s0 s (seq_all (snd g) [] ce) i /\ i < List.length (futs s)).
    { clear - F Hi. induction F as [|g x cs ids P F IH]; [destruct Hi|]. destruct Hi as [->|Hi]; [exists g; split; [now left|exact P]|]. destruct (IH Hi) as [g' [A B]]. exists g'. split; [now right|exact B]. }
    destruct X as [g [_ [MB Lt]]]. destruct (made_task shuffle dut delayers test m s0 s _ i R0 MB Lt) as [fu [A B]]. exists fu. split; auto. }
  assert (MM : forall s1, steps s s1 -> Forall2 (fun g i => made_between s0 s1 (seq_all (snd g) [] ce) i) cs ids).
  { intros s1 R1. clear - F R1. induction F as [|g x cs ids [P _] F IH]; constructor; auto. eapply made_mono; [apply steps_refl|exact R1|exact P]. }
  destruct (await_track shuffle dut delayers test m W _ ids s s' t [] HW R01 Hc' Nt KN R) as [[s2 [ws [X1 [X2 [X3 X4]]]]]|[[s2 [j [e [ws [X1 [X2 [X3 [X4 [X5 X6]]]]]]]]]|[[s2 [X1 [X2 [X3 X4]]]]|[j [ws [X1 [X2 X3]]]]]]]; cbn [app] in *.
  - left. destruct (collect test m W s0 s s2 s' t cs ce ids ws K HW R0 R00 HA ND (MM s2 X1) X4 X1 X3 X2 (steps_trans _ _ _ _ _ _ R00 X1)) as [s3 [vss [Y1 [Y2 [Y3 [Y4 Y5]]]]]]. exists s3, vss. auto.
  - right; left. exists s2, j, e, ws. split; auto. split; auto. split; [apply runs_wrap; eauto|]. rewrite <- LI. auto.
  - right; right; left. exists s2. split; auto. split; auto. split; [apply runs_wrap; eauto|]. auto.
  - right; right; right. exists j, ws. rewrite <- LI. split; auto. split; auto. destruct X3 as [X3|X3]; [left|right; exact X3]. apply runs_wrap. exists W. split; [exact HW|exact X3].
Qed.

(** The block still creates the tasks that run [gs]; it still awaits the tasks [ids]. *)
Definition still_creating s' t (gs : list prog) : Prop := exists i js after k, i < List.length gs /\ runs s' t (create_all (skipn i gs) js after k).
Definition still_awaiting s' t (ids : list id) : Prop := exists i vs k, i < List.length ids /\ (runs s' t (await_all (skipn i ids) vs k) \/ waits_for s' t (nth i ids 0) /\ unfinished s' t).
(** exit='all' without exception: the block ends only after every coroutine of every group has been executed; in every later state [s'] that is the case, or it
    has ended by an exception, or it is still creating or awaiting the tasks. *)
Theorem C37_all (test : prog) m (cs : coros) e K s s' t : steps (init test m) s -> all_awaitable cs -> NoDup (dkeys cs) -> runs s t (execute store "all" e cs K) -> steps s s' ->
  (exists s1 vss, steps s s1 /\ steps s1 s' /\ List.length cs = List.length vss /\ Forall2 (fun g x => group_ran s s1 g (fst x) (snd x)) cs (combine (children s (List.length cs)) vss) /\
    (s' = s1 \/ exists fire, steps (step fire s1) s' /\ runs (step fire s1) t (K [] (Ok VNone)))) \/
  (exists s1 i x, steps s s1 /\ steps s1 s' /\ runs s1 t (K [] (Exn x)) /\ i < List.length cs /\ failed s1 (List.length (futs s) + i) x) \/
  (exists s1, steps s s1 /\ steps s1 s' /\ runs s1 t (K [] (Exn CancelledError)) /\ (nocancel test -> tdone s1 = Some true)) \/
  still_creating s' t (groups cs None) \/ still_awaiting s' t (children s (List.length cs)).
Proof.
  intros R0 HA ND Hr R. destruct (C36_results test m cs (K []) s s' t R0 HA ND Hr R) as [[s1 [vss [A [B [C [D E]]]]]]|[[s1 [i [x [vs [A [B [C [D [E F]]]]]]]]]|[X|[[i [ids [k [A B]]]]|[i [vs [A B]]]]]]]; auto.
  - left. exists s1, vss. rewrite seq_length in C. split; auto. split; auto. split; auto. split; auto. destruct E as [E|[fire [E1 [E2 E3]]]]; auto. right. exists fire. auto.
  - right; left. exists s1, i, x. auto 6.
  - right; right; right; left. eexists i, ids, _, _. rewrite groups_len. split; [exact A|exact B].
  - right; right; right; right. eexists i, vs, _. rewrite seq_length. split; [exact A|]. destruct B as [B|B]; [left; exact B|right]. rewrite seq_nth by exact A. exact B.
Qed.
(** exit='none': the block ends without waiting, the tasks of the groups having been created, in order, and none having begun: in every later state [s'] the
    block has ended, or the task is still creating the tasks (it has not been suspended). *)
Theorem C37_none (test : prog) m (cs : coros) e K s s' t : steps (init test m) s -> runs s t (execute store "none" e cs K) -> steps s s' ->
  (exists s1, steps s s1 /\ steps s1 s' /\ runs s1 t (K (children s (List.length cs)) (Ok VNone)) /\ nstep s1 = nstep s /\ mm s1 = mm s /\
     forall i g, nth_error cs i = Some g -> made_between s s1 (seq_all (snd g) [] None) (List.length (futs s) + i) /\
       exists fu, fget s1 (List.length (futs s) + i) = Some fu /\ f_kind fu = KTask (mk_task (start (BProg (seq_all (snd g) [] None))) None false)) \/
  still_creating s' t (groups cs None).
Proof.
  intros R0 Hr R. apply runs_wrap in Hr as [W [HW Hc]]. unfold execute in Hc. cbn [String.eqb Ascii.eqb Bool.eqb] in Hc. unfold exit_none in Hc.
  destruct (create_track shuffle dut delayers W _ _ _ s s' t [] HW Hc R) as [[s1 [A [B [C [_ [D [E [_ [_ [_ [_ [_ G]]]]]]]]]]]]|[j [A [B C]]]].
  - left. exists s1. rewrite groups_len in *. split; auto. split; auto. split; [apply runs_wrap; exists W; split; [exact HW|exact C]|]. split; auto. split; auto. intros i g Hg. apply D. unfold groups. now rewrite nth_error_map, Hg.
  - right. eexists j, _, _, _. split; [exact A|]. apply runs_wrap. exists W. split; [exact HW|exact B].
Qed.
(** Any other value of exit: ValueError, and nothing is executed. *)
Theorem C37_invalid exit e (cs : coros) K : exit <> "all"%string -> exit <> "none"%string -> exit <> "any"%string -> execute store exit e cs K = K [] (Exn ValueError).
Proof. intros A B C. unfold execute. apply String.eqb_neq in A, B, C. now rewrite A, B, C. Qed.

Lemma nonpriv_steps s s' e ev : nth_error (evs s) e = Some ev -> e_priv ev = false -> steps s s' -> exists ev', nth_error (evs s') e = Some ev' /\ e_priv ev' = false.
Proof.
  intros E P R. induction R as [s|s s1 fire R IH]; [eauto|]. destruct (IH E) as [ev1 [E1 P1]]. assert (L : e < List.length (evs s1)) by (apply nth_error_Some; congruence). pose proof (len_evs shuffle dut delayers fire s1).
  destruct (nth_error (evs (step fire s1)) e) as [ev'|] eqn:E'; [|apply nth_error_None in E'; lia]. exists ev'. split; auto. destruct (step_ev shuffle dut delayers fire s1 e ev' E') as [[ev0 [E0 [P0 _]]]|[X _]]; [congruence|lia].
Qed.
(** exit='any', the task running the block in the context [W]. *)
Lemma any_track W (test : prog) m (cs : coros) e ev K s s' t : wrap W -> steps (init test m) s -> (forall g a, In g cs -> In a (snd g) -> leaves e (a_coro a)) -> cs <> [] ->
  e <> 0 -> nth_error (evs s) e = Some ev -> e_priv ev = false ->
  (forall x i b, steps s x -> cur x = Some (i, b) -> current_op x = Some (OEvSet e) -> In i (children s (List.length cs))) ->
  cur s = Some (t, W (execute store "any" e cs K)) -> steps s s' ->
  (exists s1 j g vs, steps s s1 /\ steps s1 s' /\ nth_error cs j = Some g /\ group_ran s s1 g (List.length (futs s) + j) vs /\ (forall s2 x, steps s1 s2 -> state_of s2 (List.length (futs s) + j) <> Some (Finished (Exn x))) /\
     (exists k, cur s1 = Some (t, W (Op (OFlag true) k))) /\ (s' = s1 \/ exists fire, steps (step fire s1) s' /\ cur (step fire s1) = Some (t, W (K (children s (List.length cs)) (Ok VNone))))) \/
  (exists s1, steps s s1 /\ steps s1 s' /\ cur s1 = Some (t, W (K (children s (List.length cs)) (Exn CancelledError))) /\ (nocancel test -> tdone s1 = Some true)) \/
  s' = s \/ still_creating s' t (groups cs (Some e)) \/ (exists k, runs s' t (Op (OEvWait e) k)) \/ (inside_wait s' t e /\ unfinished s' t).
Proof.
  intros HW R0 HL NE He Ee Pe RELY Hc R. pose proof R0 as R0'. destruct (reach_linked _ _ _ _ _ _ R0) as [WF _].
  unfold execute in Hc. cbn [String.eqb Ascii.eqb Bool.eqb] in Hc. unfold exit_any in Hc.
  destruct (steps_first _ _ _ _ _ R) as [->|[fire R1]]; [right; right; now left|]. assert (HS := step_op shuffle dut delayers W fire s t _ _ HW Hc). cbn [exec_op] in HS. rewrite Ee, Pe in HS.
  assert (RS : steps s (step fire s)) by (apply steps_step, steps_refl). assert (F1 : futs (step fire s) = futs s) by (rewrite HS; unfold ev_clear; rewrite Ee; reflexivity).
  assert (E1 : nth_error (evs (step fire s)) e = Some (mk_event false (e_waiters ev) false)).
  { rewrite HS. unfold ev_clear. rewrite Ee. cbn [evs go set_cur eput set_evs]. rewrite (put_nth_get _ _ _ _ e Ee), Nat.eqb_refl, Pe. reflexivity. }
  set (s1 := step fire s) in *. assert (Hc1 : cur s1 = Some (t, W (create_all (groups cs (Some e)) [] (fun ids => Op (OEvWait e) (fun r => match r with Ok _ => Op (OFlag true) (fun _ => K ids (Ok VNone)) | Exn x => K ids (Exn x) end)) (K [])))) by (rewrite HS; reflexivity).
  destruct (create_track shuffle dut delayers W _ _ _ s1 s' t [] HW Hc1 R1) as [[s2 [A [B [C [D [E [_ [_ [_ [_ [V _]]]]]]]]]]]|[j [A [B C]]]]; [|right; right; right; left; eexists j, _, _, _; split; [exact A|]; apply runs_wrap; eauto].
  rewrite groups_len, F1 in *. cbn [app] in C. rewrite <- V in E1. assert (R02 : steps (init test m) s2) by (eapply steps_trans; [exact R0|]; eapply steps_trans; eauto). destruct (reach_linked _ _ _ _ _ _ R02) as [WF2 _].
  assert (R12 : steps s s2) by (eapply steps_trans; eauto).
  destruct (wait_set shuffle dut delayers W s2 s' t e _ _ HW WF2 C E1 eq_refl B) as [->|[X|[[s3 [X1 [X2 [X3 [y [Y1 [Y2 Y3]]]]]]]|[s3 [X1 [X2 [X3 X4]]]]]]].
  - right; right; right; right; left. eexists. apply runs_wrap. eauto.
  - do 5 right. auto.
  - left. assert (R0y : steps (init test m) y) by exact (steps_trans _ _ _ _ _ _ R02 Y1). destruct (nonpriv_steps s2 y e _ E1 eq_refl Y1) as [evy [Ey Py]]. assert (Oy := sets_op shuffle dut delayers test m y e evy R0y Y3 He Ey Py).
    assert (Hy : exists i b, cur y = Some (i, b)) by (unfold current_op in Oy; destruct (cur y) as [[i b]|]; [eauto|discriminate]). destruct Hy as [i [b Hy]]. assert (Rsy : steps s y) by exact (steps_trans _ _ _ _ _ _ R12 Y1).
    pose proof (RELY y i b Rsy Hy Oy) as IN. apply in_seq in IN. set (j := i - List.length (futs s)). assert (Ei : i = List.length (futs s) + j) by (unfold j; lia). destruct (nth_error cs j) as [g|] eqn:Eg; [|apply nth_error_None in Eg; lia].
    assert (MB : made_between s1 y (seq_all (snd g) [] (Some e)) i). { destruct (E j (seq_all (snd g) [] (Some e))) as [MB _]; [unfold groups; now rewrite nth_error_map, Eg|]. rewrite Ei. eapply made_mono; [apply steps_refl|exact Y1|exact MB]. }
    assert (Rs1 : steps (init test m) s1) by exact (steps_trans _ _ _ _ _ _ R0 RS). destruct (reach_linked _ _ _ _ _ _ R0y) as [WFy _].
    assert (GR : exists vs, group_ran s y g i vs /\ forall s2 x, steps y s2 -> state_of s2 i <> Some (Finished (Exn x))).
    { destruct (group_sets shuffle dut delayers test m s1 y (snd g) e i b Rs1 (fun a Ha => HL g a (nth_error_In _ _ Eg) Ha) MB Hy Oy) as [x0 [x1 [vs [G1 [G2 [G3 G4]]]]]]. exists vs. split; [|exact G4]. exists x0, x1. split; [exact (steps_trans _ _ _ _ _ _ RS G1)|]. auto. }
    destruct GR as [vs [GR GF]]. exists s3, j, g, vs. split; [exact (steps_trans _ _ _ _ _ _ R12 X1)|]. split; auto. split; auto. split; [rewrite <- Ei; eapply ran_mono; [apply steps_refl|exact Y2|exact GR]|]. split; [rewrite <- Ei; intros z x Rz; exact (GF z x (steps_trans _ _ _ _ _ _ Y2 Rz))|]. split; [eexists; exact X3|].
    destruct (steps_first _ _ _ _ _ X2) as [->|[fi X4]]; auto. right. exists fi. split; auto. rewrite (step_op shuffle dut delayers W fi s3 t _ _ HW X3). reflexivity.
  - right; left. exists s3. split; [exact (steps_trans _ _ _ _ _ _ R12 X1)|]. split; auto. split; [exact X3|]. intros NT. eapply (cancelled_ended shuffle dut delayers test m s2); eauto.
Qed.
(** exit='any', the event [e] of the executor being set by no coroutine of the groups and by no other task: the block ends only after at least one group has
    been executed completely, its task not failing; in every later state [s'] that is the case, or it has been cancelled (only after the test has ended, if the
    program cancels nothing), or it is still creating the tasks or waiting for the event. *)
Theorem C37_any (test : prog) m (cs : coros) e ev K s s' t : steps (init test m) s -> (forall g a, In g cs -> In a (snd g) -> leaves e (a_coro a)) -> cs <> [] ->
  e <> 0 -> nth_error (evs s) e = Some ev -> e_priv ev = false ->
  (forall x i b, steps s x -> cur x = Some (i, b) -> current_op x = Some (OEvSet e) -> In i (children s (List.length cs))) ->
  runs s t (execute store "any" e cs K) -> steps s s' ->
  (exists s1 j g vs, steps s s1 /\ steps s1 s' /\ nth_error cs j = Some g /\ group_ran s s1 g (List.length (futs s) + j) vs /\ (forall s2 x, steps s1 s2 -> state_of s2 (List.length (futs s) + j) <> Some (Finished (Exn x))) /\
     (exists k, runs s1 t (Op (OFlag true) k)) /\ (s' = s1 \/ exists fire, steps (step fire s1) s' /\ runs (step fire s1) t (K (children s (List.length cs)) (Ok VNone)))) \/
  (exists s1, steps s s1 /\ steps s1 s' /\ runs s1 t (K (children s (List.length cs)) (Exn CancelledError)) /\ (nocancel test -> tdone s1 = Some true)) \/
  s' = s \/ still_creating s' t (groups cs (Some e)) \/ (exists k, runs s' t (Op (OEvWait e) k)) \/ (inside_wait s' t e /\ unfinished s' t).
Proof.
  intros R0 HL NE He Ee Pe RELY Hr R. apply runs_wrap in Hr as [W [HW Hc]].
  destruct (any_track W test m cs e ev K s s' t HW R0 HL NE He Ee Pe RELY Hc R) as [[s1 [j [g [vs [A [B [C [D [F [[k G] H]]]]]]]]]]|[[s1 [A [B [C D]]]]|X]]; auto.
  - left. exists s1, j, g, vs. split; auto. split; auto. split; auto. split; auto. split; auto. split; [exists k; apply runs_wrap; eauto|]. destruct H as [->|[fire [H1 H2]]]; auto. right. exists fire. split; auto. apply runs_wrap. eauto.
  - right; left. exists s1. split; auto. split; auto. split; auto. apply runs_wrap. eauto.
Qed.
(** wait_all: the same as C36_wait_results, without the results. *)
Theorem C37_wait_all (test : prog) m (cs : coros) ce ids K s0 s s' t : steps (init test m) s0 -> steps s0 s -> all_awaitable cs -> NoDup (dkeys cs) -> cs <> [] ->
  Forall2 (fun g i => made_between s0 s (seq_all (snd g) [] ce) i /\ i < List.length (futs s)) cs ids -> ~ In t ids -> runs s t (wait_all store cs ids K) -> steps s s' ->
  (exists s1 vss, steps s s1 /\ steps s1 s' /\ List.length ids = List.length vss /\ Forall2 (fun g x => group_ran s0 s1 g (fst x) (snd x)) cs (combine ids vss) /\
    (s' = s1 \/ exists fire, steps (step fire s1) s' /\ runs (step fire s1) t (K (Ok VNone)))) \/
  (exists s1 i e, steps s s1 /\ steps s1 s' /\ runs s1 t (K (Exn e)) /\ i < List.length cs /\ failed s1 (nth i ids 0) e) \/
  (exists s1, steps s s1 /\ steps s1 s' /\ runs s1 t (K (Exn CancelledError)) /\ (nocancel test -> tdone s1 = Some true)) \/
  still_awaiting s' t ids.
Proof.
  intros R0 R00 HA ND NE F Nt Hr R. assert (LI : List.length ids = List.length cs) by (clear - F; induction F; simpl; auto). assert (R0s : steps (init test m) s') by (eapply steps_trans; [exact R0|]; eapply steps_trans; eauto).
  destruct (C36_wait_results test m cs ce ids K s0 s s' t R0 R00 HA ND NE F Nt Hr R) as [[s1 [vss [A [B [C [D E]]]]]]|[[s1 [i [x [vs [A [B [C [D [E G]]]]]]]]]|[X|[i [vs [A [_ B]]]]]]]; auto.
  - left. exists s1, vss. split; auto. split; auto. split; auto. split; auto. destruct E as [E|[fire [E1 [E2 E3]]]]; auto. right. exists fire. auto.
  - right; left. exists s1, i, x. auto 6.
  - right; right; right. eexists i, vs, _. rewrite LI. split; [exact A|]. destruct B as [B|B]; [left; exact B|right; exact B].
Qed.
(** wait_all after exit='all': nothing is left to wait for, it returns at once. *)
Theorem C37_wait_all_nothing (test : prog) m (cs : coros) e K s s' t : steps (init test m) s -> all_awaitable cs -> NoDup (dkeys cs) ->
  runs s t (execute store "all" e cs (fun ids r => match r with Ok _ => wait_all store cs ids K | Exn x => K (Exn x) end)) -> steps s s' ->
  (exists s1 vss, steps s s1 /\ steps s1 s' /\ List.length cs = List.length vss /\ Forall2 (fun g x => group_ran s s1 g (fst x) (snd x)) cs (combine (children s (List.length cs)) vss) /\
    (s' = s1 \/ exists fire, steps (step fire s1) s' /\ runs (step fire s1) t (K (Ok VNone)))) \/
  (exists s1 i x, steps s s1 /\ steps s1 s' /\ runs s1 t (K (Exn x)) /\ i < List.length cs /\ failed s1 (List.length (futs s) + i) x) \/
  (exists s1, steps s s1 /\ steps s1 s' /\ runs s1 t (K (Exn CancelledError)) /\ (nocancel test -> tdone s1 = Some true)) \/
  still_creating s' t (groups cs None) \/ still_awaiting s' t (children s (List.length cs)).
Proof. intros R0 HA ND Hr R. exact (C37_all test m cs e _ s s' t R0 HA ND Hr R). Qed.
(** wait_all again, when all tasks have returned: it returns at once with the same results, and nothing else has happened. *)
Theorem C37_wait_all_again (cs : coros) ids vss K s t fires : NoDup (dkeys cs) -> cs <> [] -> Forall2 (fun g vs => List.length (snd g) = List.length vs) cs vss ->
  Forall2 (returned s) ids (map VList vss) -> (forall i, In i ids -> exists fu, fget s i = Some fu /\ nameable (f_kind fu) = true) -> runs s t (wait_all store cs ids K) ->
  List.length fires = Datatypes.S (List.length cs) ->
  exists s1, s1 = fold_left (fun x f => step f x) fires s /\ runs s1 t (K (Ok VNone)) /\ mm s1 = store (combine (dkeys cs) (map report vss)) (mm s) /\ futs s1 = futs s /\ ready s1 = ready s /\ evs s1 = evs s /\ nstep s1 = nstep s.
Proof.
  intros ND NE F FR KN Hr LF. eexists. split; [reflexivity|]. apply runs_wrap in Hr as [W [HW Hc]]. assert (LI : List.length ids = List.length cs).
  { assert (X := F2_length _ _ _ FR). rewrite map_length in X. assert (Y := F2_length _ _ _ F). lia. }
  assert (Hc' : cur s = Some (t, W (await_all ids [] (fun r => match r with Ok v => keep_results store cs v K | Exn e => K (Exn e) end)))) by (unfold wait_all in Hc; destruct ids; [destruct cs; [congruence|discriminate]|exact Hc]).
  assert (AW : forall js vs ws s k, Forall2 (returned s) js vs -> (forall i, In i js -> exists fu, fget s i = Some fu /\ nameable (f_kind fu) = true) -> cur s = Some (t, W (await_all js ws k)) -> forall fs, List.length fs = List.length js ->
    let s1 := fold_left (fun x f => step f x) fs s in cur s1 = Some (t, W (k (Ok (VList (ws ++ vs))))) /\ mm s1 = mm s /\ futs s1 = futs s /\ ready s1 = ready s /\ evs s1 = evs s /\ nstep s1 = nstep s).
  { clear - HW. induction js as [|i js IH]; intros vs ws s k FR KN Hc fs HL; inversion FR as [|i0 v js0 vs0 P Q]; subst; destruct fs as [|f fs]; try discriminate; cbn [fold_left].
    - cbv zeta. rewrite app_nil_r. repeat split; auto.
    - cbn [await_all] in Hc. destruct (KN i (or_introl eq_refl)) as [fu [Ef Nm]]. assert (HS := step_op shuffle dut delayers W f s t _ _ HW Hc). cbn [exec_op] in HS. rewrite Ef, Nm in HS. cbn [negb] in HS. unfold returned, state_of in P. rewrite Ef in P. simpl in P. injection P as P.
      unfold pending in HS. rewrite P in HS. cbn [outcome] in HS.
      destruct (IH vs0 (ws ++ [v]) (step f s) k) with (fs := fs) as [X1 [X2 [X3 [X4 [X5 X6]]]]]; auto.
      + rewrite HS. exact Q.
      + rewrite HS. intros j Hj. apply KN. now right.
      + rewrite HS. reflexivity.
      + rewrite <- app_assoc in X1. rewrite X1, X2, X3, X4, X5, X6, HS. auto 8. }
  destruct (exists_last (l := fires)) as [fs [f ->]]; [intros ->; discriminate|]. rewrite app_length in LF. cbn [List.length] in LF. rewrite fold_left_app. cbn [fold_left].
  destruct (AW ids (map VList vss) [] s _ FR KN Hc' fs) as [X1 [X2 [X3 [X4 [X5 X6]]]]]; [lia|]. cbn [app] in X1. set (s1 := fold_left (fun x f => step f x) fs s) in *. 
  destruct (keep_step W f s1 t cs vss K HW ND F X1) as [Y1 Y2]. split; [apply runs_wrap; eauto|]. split; [now rewrite Y2, X2|].
  pose proof (set_results_spec cs vss [] [] ND F) as Z. cbn [app List.length] in Z. rewrite (step_op shuffle dut delayers W f s1 t _ _ HW X1). cbn [exec_op]. rewrite Z. cbn. auto.
Qed.
End Thms.
Print Assumptions C36_in_order.
Print Assumptions C36_results.
Print Assumptions C36_wait_results.
Print Assumptions C37_all.
Print Assumptions C37_none.
Print Assumptions C37_invalid.
Print Assumptions C37_any.
Print Assumptions C37_wait_all.
Print Assumptions C37_wait_all_nothing.
Print Assumptions C37_wait_all_again.

(** The keys of the recorded groups are distinct. *)
Lemma groups_nodup {mem} (rs : list (@request mem)) : NoDup (dkeys (add_all rs)).
Proof. rewrite C36_groups. unfold dkeys. rewrite map_map. cbn [fst]. rewrite map_id. apply firsts_nodup. Qed.

Lemma run_plus {mem} sh (dut del : mem -> mem) n k s : run sh dut del n (run sh dut del k s) = run sh dut del (k + n) s.
Proof. revert s. induction k as [|k IH]; intros s; auto. simpl. now rewrite IH. Qed.
(** Two coroutines in the group "g" and one in a group of its own; [work n c] takes [c] clock cycles, logs [n] and returns it. *)
Record xworld := mk_xworld { x_order : option bool; x_prio : option Z; x_log : list nat; x_res : dict lval }.
Definition xstore (d : dict lval) (m : xworld) : xworld := mk_xworld (x_order m) (x_prio m) (x_log m) d.
Definition xlog (n : nat) (m : xworld) : xworld * res lval := (mk_xworld (x_order m) (x_prio m) (x_log m ++ [n]) (x_res m), Ok (VInt (Z.of_nat n))).
Definition xdrv : @drv xworld := mk_drv x_order x_prio (fun o z m => mk_xworld o z (x_log m) (x_res m)).
Definition xw0 : xworld := mk_xworld None None [] [].
Definition xkeep (m : xworld) : xworld := m.
Definition work (n c : nat) : @prog xworld := bindr (clock_cycles c) (fun _ => Op (OMem (xlog n)) (fun r => match r with Ok v => Ret v | Exn e => Raise e end)).
Definition user (name : string) (p : @prog xworld) : @coro xworld := mk_coro name None (bindr p).
Definition reqs : list (@request xworld) :=
  [mk_request (user "a" (work 1 1)) None None (Some "g"%string); mk_request (user "b" (work 2 1)) None None None; mk_request (user "c" (work 3 2)) (Some 4%Z) None (Some "h"%string);
   mk_request (user "d" (work 4 1)) None None (Some "g"%string)].
Example C36_nonvacuous_groups : map (fun g => (fst g, map (fun a => c_name (a_coro a)) (snd g))) (add_all reqs) = [("g"%string, ["a"%string; "d"%string]); ("b"%string, ["b"%string]); ("h"%string, [])] /\
  map accepted reqs = [true; true; false; true].
Proof. split; reflexivity. Qed.
Definition two : @coros xworld := add_all [nth 0 reqs (mk_request (user "" (Ret VNone)) None None None); nth 1 reqs (mk_request (user "" (Ret VNone)) None None None); nth 3 reqs (mk_request (user "" (Ret VNone)) None None None)].
Lemma two_awaitable : all_awaitable two.
Proof. intros g a. cbn. intros Hg Ha. repeat (destruct Hg as [<-|Hg]; [cbn in Ha; repeat (destruct Ha as [<-|Ha]; [intros K; apply upto_bindr|]); contradiction|]). contradiction. Qed.
(** Afterwards wait_all, twice, and two cycles more. *)
Definition xend : @prog xworld := Op (OEvWait 0) (fun _ => Op (OEvWait 0) (fun _ => Ret VNone)).
Definition x_after (cs : @coros xworld) (ids : list id) (r : res lval) : @prog xworld := wait_all xstore cs ids (fun _ => wait_all xstore cs ids (fun _ => xend)).
Definition x_test (exit : string) : @prog xworld := Op OStartClock (fun _ => Op OEvNew (fun _ => execute xstore exit 1 two (x_after two))).
Definition xat exit n := run ids xkeep xkeep n (init (x_test exit) xw0).
Example C36_nonvacuous : let s := xat "all" 5 in let s1 := run ids xkeep xkeep 44 s in steps ids xkeep xkeep (init (x_test "all") xw0) s /\ all_awaitable two /\ NoDup (dkeys two) /\ runs s 0 (execute xstore "all" 1 two (x_after two)) /\
  execute xstore "all" 1 two (x_after two) = exit_all xstore two (x_after two []) /\
  steps ids xkeep xkeep s s1 /\ runs s1 0 (keep_results xstore two (VList [VList [VInt 1; VInt 4]; VList [VInt 2]]) (x_after two [])) /\ x_res (mm (run ids xkeep xkeep 1 s1)) = [("g"%string, VList [VInt 1; VInt 4]); ("b"%string, VInt 2)] /\ x_log (mm s1) = [1; 2; 4].
Proof.
  intros s s1. split; [apply run_steps|]. split; [apply two_awaitable|]. split; [apply groups_nodup|]. split; [right; vm_compute; reflexivity|]. split; [reflexivity|]. split; [apply run_steps|].
  split; [right; vm_compute; reflexivity|]. split; vm_compute; reflexivity.
Qed.
(** Both calls of wait_all after the block return in the very step in which the results are kept. *)
Example C37_nonvacuous_nothing : runs (xat "all" 50) 0 xend /\ x_after two [] (Ok VNone) = xend.
Proof. split; [right; vm_compute; reflexivity|reflexivity]. Qed.
Example C36_nonvacuous_in_order : let s := xat "all" 13 in steps ids xkeep xkeep (init (x_test "all") xw0) s /\ runs s 2 (seq_all (nth 0 (map snd two) []) [] None) /\ returned (xat "all" 43) 2 (VList [VInt 1; VInt 4]).
Proof. intros s. split; [apply run_steps|]. split; [left; vm_compute; reflexivity|vm_compute; reflexivity]. Qed.
Example C37_nonvacuous_none : let s := xat "none" 5 in steps ids xkeep xkeep (init (x_test "none") xw0) s /\ runs s 0 (execute xstore "none" 1 two (x_after two)) /\ runs (xat "none" 7) 0 (x_after two [2; 3] (Ok VNone)).
Proof. intros s. split; [apply run_steps|]. split; right; vm_compute; reflexivity. Qed.
(** The coroutines do not touch the event of the executor. *)
Lemma two_leaves : forall g a, In g two -> In a (snd g) -> leaves 1 (a_coro a).
Proof.
  assert (W : forall n c, allp (fun o => o <> OEvSet 1) (work n c)).
  { intros n c. unfold work. induction c as [|c IH]; cbn [clock_cycles]; [rewrite bindr_unfold|unfold Let; rewrite bindr_unfold]; (apply all_op; [discriminate|intros p X; inversion X|]); intros [v|e]; auto; try apply all_ret; try apply all_raise.
    rewrite bindr_unfold. apply all_op; [discriminate|intros p X; inversion X|]. intros [v|e']; [apply all_ret|apply all_raise]. }
  intros g a. cbn. intros Hg Ha. repeat (destruct Hg as [<-|Hg]; [cbn in Ha; repeat (destruct Ha as [<-|Ha]; [intros K; apply upto_bindr_all, W|]); contradiction|]). contradiction.
Qed.
Definition setter_ok (s : @state xworld) : bool := match cur s, current_op s with Some (i, _), Some (OEvSet 1) => Nat.eqb i 2 || Nat.eqb i 3 | _, _ => true end.
(** With 'any' the block ends when the second group is done; the first is still in its second coroutine. *)
Example C37_nonvacuous_any : let s := xat "any" 5 in steps ids xkeep xkeep (init (x_test "any") xw0) s /\ (exists ev, nth_error (evs s) 1 = Some ev /\ e_priv ev = false) /\
  (forall x i b, steps ids xkeep xkeep s x -> cur x = Some (i, b) -> current_op x = Some (OEvSet 1) -> In i [2; 3]) /\
  runs s 0 (execute xstore "any" 1 two (x_after two)) /\ runs (xat "any" 41) 0 (x_after two [2; 3] (Ok VNone)) /\ x_log (mm (xat "any" 41)) = [1; 2] /\ unfinished (xat "any" 41) 2.
Proof.
  intros s. split; [apply run_steps|]. split; [eexists; vm_compute; split; reflexivity|]. split.
  { intros x i b R Hc Ho. assert (X : setter_ok x = true) by (refine (allrun_steps ids xkeep xkeep setter_ok 130 s _ x R); vm_compute; reflexivity). unfold setter_ok in X. rewrite Hc, Ho in X.
    apply orb_prop in X as [X|X]; apply Nat.eqb_eq in X; subst; simpl; auto. }
  split; [right; vm_compute; reflexivity|]. split; [right; vm_compute; reflexivity|]. split; [vm_compute; reflexivity|]. unfold unfinished. vm_compute. auto.
Qed.
Example C37_nonvacuous_wait_all : let s0 := xat "any" 5 in let s := run ids xkeep xkeep 36 s0 in let s2 := xat "any" 65 in
  Forall2 (fun g i => made_between ids xkeep xkeep s0 s (seq_all (snd g) [] (Some 1)) i /\ i < List.length (futs s)) two [2; 3] /\ runs s 0 (wait_all xstore two [2; 3] (fun _ => wait_all xstore two [2; 3] (fun _ => xend))) /\
  x_res (mm s2) = [("g"%string, VList [VInt 1; VInt 4]); ("b"%string, VInt 2)] /\
  runs s2 0 (wait_all xstore two [2; 3] (fun _ => xend)) /\ Forall2 (returned s2) [2; 3] (map VList [[VInt 1; VInt 4]; [VInt 2]]) /\ (forall i, In i [2; 3] -> exists fu, fget s2 i = Some fu /\ nameable (f_kind fu) = true) /\ runs (xat "any" 68) 0 xend.
Proof.
  intros s0 s s2. assert (LT : 2 < List.length (futs s) /\ 3 < List.length (futs s)) by (replace (List.length (futs s)) with 8 by (vm_compute; reflexivity); lia). split.
  { constructor; [|constructor; [|constructor]]; (split; [|tauto]).
    - exists (run ids xkeep xkeep 1 s0). split; [apply run_steps|]. split; [replace s with (run ids xkeep xkeep 35 (run ids xkeep xkeep 1 s0)) by (unfold s; rewrite run_plus; reflexivity); apply run_steps|]. split; vm_compute; reflexivity.
    - exists (run ids xkeep xkeep 2 s0). split; [apply run_steps|]. split; [replace s with (run ids xkeep xkeep 34 (run ids xkeep xkeep 2 s0)) by (unfold s; rewrite run_plus; reflexivity); apply run_steps|]. split; vm_compute; reflexivity. }
  split; [right; vm_compute; reflexivity|]. split; [vm_compute; reflexivity|]. split; [right; vm_compute; reflexivity|]. split; [repeat constructor; vm_compute; reflexivity|]. split; [|right; vm_compute; reflexivity].
  intros i [<-|[<-|[]]]; eexists; vm_compute; split; reflexivity.
Qed.

(** The unrestricted claim for exit='all' is false: if a group raises an exception, the block ends at once while another group is still running. *)
Definition bad : @prog xworld := Raise (UserExn 7).
Definition mixed : @coros xworld := add_all [mk_request (user "bad" bad) None None None; mk_request (user "slow" (work 1 3)) None None None].
Definition x_next (_ : list id) (r : res lval) : @prog xworld := match r with Ok _ => Ret VNone | Exn _ => xend end.
Definition x_bad : @prog xworld := Op OStartClock (fun _ => execute xstore "all" 1 mixed x_next).
Lemma mixed_awaitable : all_awaitable mixed.
Proof. intros g a. cbn. intros Hg Ha. repeat (destruct Hg as [<-|Hg]; [cbn in Ha; repeat (destruct Ha as [<-|Ha]; [intros K; apply upto_bindr|]); contradiction|]). contradiction. Qed.
Theorem C37_all_refuted : exists s s', steps ids xkeep xkeep (init x_bad xw0) s /\ all_awaitable mixed /\ NoDup (dkeys mixed) /\ runs s 0 (execute xstore "all" 1 mixed x_next) /\ steps ids xkeep xkeep s s' /\
  runs s' 0 (x_next [] (Exn (UserExn 7))) /\ seq (List.length (futs s)) (List.length mixed) = [2; 3] /\ failed s' 2 (UserExn 7) /\ unfinished s' 3.
Proof.
  set (s := run ids xkeep xkeep 4 (init x_bad xw0)). exists s, (run ids xkeep xkeep 16 s). split; [apply run_steps|]. split; [apply mixed_awaitable|]. split; [apply groups_nodup|]. split; [right; vm_compute; reflexivity|].
  split; [apply run_steps|]. split; [right; vm_compute; reflexivity|]. split; [vm_compute; reflexivity|]. split; [left; vm_compute; reflexivity|unfold unfinished; vm_compute; auto].
Qed.
Print Assumptions C37_all_refuted.
