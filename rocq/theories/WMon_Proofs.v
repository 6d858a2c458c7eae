(** The operations of a task follow its program; rounds of a monitor whose method waits. *)
From Coq Require Import List Bool Arith ZArith Lia.
From Verif Require Import Py Prio_Model Loop_Model Loop_Spec Loop2_Spec LoopProg_Model Loop_Proofs Loop2_Proofs Loop3_Proofs Loop4_Proofs Loop5_Proofs Loop6_Proofs Loop7_Proofs Loop9_Proofs Loop10_Proofs Loop13_Proofs Loop16_Proofs LoopRun_Model LoopRun_Proofs Mon_Model P_Loop P_Loop2 WMon_Model WMon_Spec.
From Verif Require P_Mon.
Import ListNotations.
Open Scope nat_scope.

Section Trace.
Context {mem : Type} (shuffle : list id -> list id) (dut delayers : mem -> mem).
Notation steps := (steps shuffle dut delayers). Notation step := (step shuffle dut delayers). Notation prog := (@prog mem). Notation state := (@state mem). Notation body := (@body mem).
Notation record := (record shuffle dut delayers).
Implicit Types (s : state).

Lemma record_steps t s s' l : record t s s' l -> steps s s'.
Proof. induction 1; [apply steps_refl|]. now apply steps_step. Qed.
Lemma does_other t s : (forall p, cur s <> Some (t, BProg p)) -> does t s = [].
Proof. intros H. unfold does. destruct (cur s) as [[t0 [[| |o k]| | | | | | ]]|]; auto. destruct (Nat.eqb_spec t0 t) as [->|]; auto. exfalso. exact (H _ eq_refl). Qed.
Lemma nstep_mono fire s : nstep s <= nstep (step fire s).
Proof. rewrite nstep_step. destruct (cur s) as [[t [| |[]| | | | ]]|]; lia. Qed.
Lemma partially_snoc n (p : prog) l o k n1 g r n2 : partially n p l (Op o k) n1 -> ends o g n1 r n2 -> partially n p (l ++ [mk_did n1 o g]) (k r) n2.
Proof. intros H E. remember (Op o k) as p1 eqn:Ep. induction H; subst; simpl; [eapply pa_op; eauto; apply pa_here|]. eapply pa_op; eauto. Qed.

(** Inside the operation [o] that was begun in cycle [n]. *)
Definition Mid (t : id) (n : nat) (o : @op mem prog) (k : res lval -> prog) s : Prop :=
  waiting o = true /\ n <= nstep s /\
  ((o = OEvWait 0 /\ (InWait n t (fun r => BProg (k r)) s \/ Leaving n t (fun r => BProg (k r)) s)) \/
   (o <> OEvWait 0 /\ exists k', derived (fun r => BProg (k r)) k' /\ ((exists w, Susp t k' w s) \/ exists r, cur s = Some (t, k' r) /\ k' <> (fun r => BProg (k r)) /\ forall p, k' r <> BProg p))).
Lemma evwait_dec (o : @op mem prog) : o = OEvWait 0 \/ o <> OEvWait 0.
Proof. destruct o as [f|m0|fl| |p|f|f| |e|[|e]|[|e]| |q v|q|q| |h z d|l| |]; (now left) || (right; discriminate) || idtac. all: destruct e; (now left) || (right; discriminate) || idtac. Qed.
Lemma ends_now (o : @op mem prog) s r : opres s o r -> o <> OEvWait 0 -> ends o (gives s o) (nstep s) r (nstep s).
Proof.
  intros H NE. split; [lia|]. split; [auto|]. split; [|intros X; congruence]. intros r' X. unfold gives in X. unfold opres in H. destruct o; try discriminate X; injection X as <-; auto.
  - destruct (Nat.ltb_spec q (List.length (qs s))) as [Hl|Hl]; [apply nth_error_Some in Hl; destruct (nth_error (qs s) q); [auto|congruence]|]. apply nth_error_None in Hl. now rewrite Hl in H.
  - unfold items. destruct (Nat.ltb_spec q (List.length (qs s))) as [Hl|Hl]; [apply nth_error_Some in Hl; destruct (nth_error (qs s) q); [auto|congruence]|]. apply nth_error_None in Hl. now rewrite Hl in H.
Qed.
Lemma susp_waits s t (o : @op mem prog) k k' w : Susp t k' w (exec_op s t o k) -> waiting o = true.
Proof.
  intros [Hc _]. unfold exec_op in Hc. destruct o as [f|m0|fl| |p|f|f| |e|e|e| |q v|q|q| |h z [|]|l| |]; auto; exfalso;
    repeat match type of Hc with
           | context [match ?x with _ => _ end] => destruct x
           end; eapply Hc; reflexivity.
Qed.
Lemma op_begin test m fire s t o k : steps (init test m) s -> cur s = Some (t, BProg (Op o k)) ->
  (exists r, cur (step fire s) = Some (t, BProg (k r)) /\ ends o (gives s o) (nstep s) r (nstep (step fire s))) \/ Mid t (nstep s) o k (step fire s).
Proof.
  intros R0 Hc. pose proof (reach_all _ _ _ _ _ _ R0) as A. pose proof (v_wf _ (proj1 A)) as WF. pose proof (P_Mon.nstep_prog shuffle dut delayers fire s t _ Hc) as N. pose proof (P_Mon.step_prog shuffle dut delayers fire s t _ _ Hc) as ES.
  destruct (evwait_dec o) as [->|NE].
  - right. split; [reflexivity|]. split; [lia|]. left. split; [reflexivity|]. left. rewrite ES. destruct (cur_live _ (proj1 WF) t _ Hc) as [cbs [k0 [mu E]]]. destruct (v_zero _ (proj1 A)) as [ws Z]. eapply wait_enter; eauto.
  - destruct (cur_task s t _ WF Hc) as [cbs [k0 [w [mu E]]]]. destruct (exec_op_out s t o (fun r => BProg (k r)) _ _ _ _ E) as [[r [O X]]|[k' [w' [S D]]]].
    + left. exists r. rewrite N, ES. split; auto. now apply ends_now.
    + right. split; [exact (susp_waits _ _ _ _ _ _ S)|]. split; [lia|]. right. split; auto. exists k'. split; auto. left. exists w'. rewrite ES. exact S.
Qed.
Lemma does_begin s t o k : cur s = Some (t, BProg (Op o k)) -> does t s = [mk_did (nstep s) o (gives s o)].
Proof. intros H. unfold does. now rewrite H, Nat.eqb_refl. Qed.
Lemma waiting_gives (o : @op mem prog) s : waiting o = true -> gives s o = None. Proof. now destruct o. Qed.
Lemma ends_later (o : @op mem prog) n r n1 : waiting o = true -> o <> OEvWait 0 -> n <= n1 -> ends o None n r n1.
Proof. intros W NE L. split; auto. split; [congruence|]. split; [discriminate|congruence]. Qed.
Lemma mid_step test m fire s t n o k : steps (init test m) s -> Mid t n o k s ->
  does t s = [] /\ ((exists r, cur (step fire s) = Some (t, BProg (k r)) /\ ends o None n r (nstep (step fire s))) \/ Mid t n o k (step fire s)).
Proof.
  intros R0 [Wo [L H]]. pose proof (reach_all _ _ _ _ _ _ R0) as A. pose proof (v_wf _ (proj1 A)) as WF. pose proof (nstep_mono fire s) as N. destruct H as [[-> H]|[NE [k' [D H]]]].
  - destruct H as [H|H].
    + split; [apply does_other; intros p; destruct H as [f [fu [cbs [mu [H _]]]]]; apply H|]. right. split; [reflexivity|]. split; [lia|]. left. split; [reflexivity|]. now apply inwait_step.
    + split; [apply does_other; intros p; destruct H as [f [r [H _]]]; rewrite H; discriminate|]. left. destruct (leaving_step shuffle dut delayers fire _ _ _ _ H) as [[X Y]|X].
      * exists (Ok (VBool true)). split; [exact X|]. split; [lia|]. split; [discriminate|]. split; [discriminate|]. intros _. left. eauto.
      * exists (Exn CancelledError). split; [exact X|]. split; [lia|]. split; [discriminate|]. split; [discriminate|]. auto.
  - destruct H as [[w H]|[r [Hc [Hk Hp]]]].
    + split; [apply does_other; intros p; apply H|]. destruct (susp_step shuffle dut delayers fire t k' w s WF H) as [X|[r [X _]]].
      * right. split; auto. split; [lia|]. right. split; auto. exists k'. eauto.
      * destruct D as [->|D]; [left; exists r; split; [exact X|]; apply ends_later; auto; lia|]. right. split; auto. split; [lia|]. right. split; auto. exists k'. split; [now right|]. right. exists r. split; auto.
        destruct D as [[e [f ->]]|[q [f ->]]]; (split; [|intros p; discriminate]); intros Y; apply (f_equal (fun h => h r)) in Y; discriminate.
    + split; [apply does_other; intros p; rewrite Hc; intros Y; injection Y as Y; exact (Hp _ Y)|]. destruct (cur_task s t _ WF Hc) as [cbs [k0 [w [mu Et]]]].
      assert (HS : step fire s = exec_body shuffle dut delayers s t (k' r)) by (unfold Loop_Model.step; now rewrite Hc). destruct D as [->|[[e [f ->]]|[q [f ->]]]]; [now exfalso; apply Hk| |].
      * left. eexists. rewrite HS at 1. cbn [exec_body]. split; [destruct (nth_error (evs s) e); reflexivity|]. apply ends_later; auto. lia.
      * destruct r as [v|e].
        -- cbn [exec_body] in HS. destruct (q_get_out s t q (fun r => BProg (k r)) _ _ _ _ Et) as [[r [_ X]]|[f' [w' S]]].
           ++ left. exists r. rewrite HS at 1. split; [exact X|]. apply ends_later; auto. lia.
           ++ right. split; auto. split; [lia|]. right. split; auto. exists (fun r => BGet q f' r (fun r0 => BProg (k r0))). split; [right; right; eauto|]. left. exists w'. rewrite HS. exact S.
        -- left. eexists. rewrite HS at 1. cbn [exec_body]. split; [reflexivity|]. apply ends_later; auto. lia.
Qed.
(** The end of a task. *)
Definition Gone (t : id) (p : prog) s : Prop :=
  (exists v, p = Ret v /\ (state_of s t = Some (Finished (Ok v)) \/ state_of s t = Some Canc)) \/ (exists e, p = Raise e /\ failed s t e).
Lemma fin_step fire s t p : Wf s -> cur s = Some (t, BProg p) -> (forall o k, p <> Op o k) -> Gone t p (step fire s).
Proof.
  intros WF Hc Hp. destruct (cur_task s t _ WF Hc) as [cbs [k [w [mu X]]]]. assert (F : forall r, state_of (finish s t r) t = Some (match r with Exn CancelledError => Canc | Exn e => Finished (Exn e) | Ok v => match tget s t with Some k => if k_must k then Canc else Finished (Ok v) | None => Finished (Ok v) end end)).
  { intros r. unfold finish, conclude. rewrite X. cbn [pending f_st f_kind f_cbs mkt]. unfold state_of, fget. cbn [futs set_cur push set_ready fput set_futs]. rewrite (put_nth_get _ _ _ _ t X), Nat.eqb_refl. reflexivity. }
  destruct p as [v|e|o kk]; [left|right|now exfalso; apply (Hp o kk)]; unfold Loop_Model.step; rewrite Hc; cbn [exec_body].
  - exists v. split; auto. rewrite F. destruct (tget s t) as [tk|]; auto. destruct (k_must tk); auto.
  - exists e. split; auto. unfold failed. rewrite F. destruct e; auto.
Qed.
Lemma gone_step fire s t p : Wf s -> Gone t p s -> Gone t p (step fire s) /\ does t s = [].
Proof.
  intros WF H. assert (P : forall st, st <> Pending -> state_of s t = Some st -> state_of (step fire s) t = Some st) by (intros st N E; apply (state_of_done shuffle dut delayers s); auto; apply steps_step, steps_refl). split.
  - destruct H as [[v [E [H|H]]]|[e [E [H|[H H']]]]]; [left; exists v|left; exists v|right; exists e|right; exists e]; (split; [exact E|]); unfold failed; [left|right|left|right; split; auto]; apply P; auto; discriminate.
  - apply does_other. intros p0 Hc. destruct (cur_task s t _ WF Hc) as [cbs [k [w [mu X]]]]. assert (Y : state_of s t = Some Pending) by (unfold state_of; now rewrite X).
    destruct H as [[v [_ [H|H]]]|[e [_ [H|[H _]]]]]; rewrite Y in H; discriminate.
Qed.
(** Where a task is in its program. *)
Definition Where (t : id) (n0 : nat) (p : prog) s (L : list (@did mem)) : Prop :=
  exists l p' n', partially n0 p l p' n' /\
    ((L = l /\ cur s = Some (t, BProg p') /\ nstep s = n') \/ (exists o k, p' = Op o k /\ L = l ++ [mk_did n' o None] /\ Mid t n' o k s) \/ (L = l /\ n' <= nstep s /\ Gone t p' s)).
Lemma where_step test m fire s t n0 p L : steps (init test m) s -> Where t n0 p s L -> Where t n0 p (step fire s) (L ++ does t s).
Proof.
  intros R0 [l [p' [n' [P H]]]]. pose proof (v_wf _ (proj1 (reach_all _ _ _ _ _ _ R0))) as WF. destruct H as [[-> [Hc N]]|[[o [k [-> [-> M]]]]|[-> [N G]]]].
  - destruct p' as [v|e|o k].
    + unfold does; rewrite Hc. exists l, (Ret v), n'. split; auto. right; right. split; [now rewrite app_nil_r|]. split; [pose proof (nstep_mono fire s); lia|]. apply fin_step; auto. intros; discriminate.
    + unfold does; rewrite Hc. exists l, (Raise e), n'. split; auto. right; right. split; [now rewrite app_nil_r|]. split; [pose proof (nstep_mono fire s); lia|]. apply fin_step; auto. intros; discriminate.
    + rewrite (does_begin s t o k Hc). rewrite N. destruct (op_begin test m fire s t o k R0 Hc) as [[r [X E]]|M].
      * exists (l ++ [mk_did n' o (gives s o)]), (k r), (nstep (step fire s)). split; [rewrite N in E; eapply partially_snoc; eauto|]. left. auto.
      * exists l, (Op o k), n'. split; auto. right; left. exists o, k. split; auto. rewrite N in M. split; auto. rewrite (waiting_gives o s); [reflexivity|apply M].
  - destruct (mid_step test m fire s t n' o k R0 M) as [D [[r [X E]]|M']]; rewrite D, app_nil_r.
    + exists (l ++ [mk_did n' o None]), (k r), (nstep (step fire s)). split; [eapply partially_snoc; eauto|]. left. auto.
    + exists l, (Op o k), n'. split; auto. right; left. eauto.
  - destruct (gone_step fire s t p' WF G) as [G' ->]. rewrite app_nil_r. exists l, p', n'. split; auto. right; right. split; auto. split; auto. pose proof (nstep_mono fire s). lia.
Qed.
Lemma where_track test m t p s s' L : steps (init test m) s -> cur s = Some (t, BProg p) -> record t s s' L -> Where t (nstep s) p s' L.
Proof.
  intros R0 Hc G. induction G as [s|s s1 fire l G IH].
  - exists [], p, (nstep s). split; [apply pa_here|]. left. auto.
  - eapply where_step; eauto. eapply steps_trans; [exact R0|]. eapply record_steps; eauto.
Qed.
End Trace.

Section Rounds.
Context {mem : Type} (method : @prog mem) (acts : lval -> list (@action mem)).
Notation prog := (@prog mem). Notation wmon := (wmon method acts). Notation rounds := (rounds method acts). Notation due := (due acts).
Definition wflagged (todo : list (@action mem)) (r : res lval) : prog := match r with Ok _ => Op (OFlag true) (fun _ => wmon (ToDeliver todo)) | Exn e => Raise e end.
Definition wbegun (r : res lval) : prog := match r with Ok _ => wmon (InMethod method) | Exn e => Raise e end.
Lemma wmon_unfold x : wmon x =
  match arrived acts x with
  | InMethod (Ret v) => Ret v
  | InMethod (Raise e) => Raise e
  | InMethod (Op o k) => Op o (fun r => wmon (InMethod (k r)))
  | ToDeliver [] => Op (OEvWait 0) wbegun
  | ToDeliver (APut q v :: rest) => Op (OQPut q v) (wflagged rest)
  | ToDeliver (AHook h z :: rest) => Op (OPrio h z false) (fun _ => wmon (ToDeliver rest))
  | ToDeliver (AQueue q z v :: rest) => Op (OQSize q) (fun r => match r with Ok (VInt n) => if (z <=? n)%Z then wmon (ToDeliver rest) else Op (OQPut q v) (wflagged rest) | Ok _ => Raise TypeError | Exn e => Raise e end)
  end.
Proof.
  assert (U : forall q : prog, q = match q with Ret v => Ret v | Raise e => Raise e | Op o c => Op o c end) by (intros []; reflexivity).
  rewrite (U (wmon x)). destruct x as [[v|e|o k]|[|[q v|h z|q z v] rest]]; cbn; try reflexivity. unfold results_in. destruct v; cbn; try reflexivity; match goal with |- context [acts ?x] => destruct (acts x) as [|[? ?|? ?|? ? ?] rest]; reflexivity end.
Qed.
Lemma wmon_ret v : wmon (InMethod (Ret v)) = wmon (ToDeliver (due v)).
Proof. rewrite (wmon_unfold (InMethod (Ret v))), (wmon_unfold (ToDeliver _)). reflexivity. Qed.
Lemma delivers_app n (a b : list (@action mem)) l1 l2 : delivers n a l1 -> delivers n b l2 -> delivers n (a ++ b) (l1 ++ l2).
Proof. induction 1; intros H2; simpl; auto; [apply dv_put|apply dv_hook|apply dv_full|apply dv_queue]; auto. Qed.
(** What is done with the ports of [acts] succeeds. *)
Definition fine (d : @did mem) : Prop := forall v a q, In a (acts v) -> In q (P_Mon.port_of a) ->
  match d_op d with OQPut q' _ => q' = q -> d_gives d = Some (Ok VNone) | OQSize q' => q' = q -> exists m, d_gives d = Some (Ok (VInt m)) | _ => True end.

Inductive stage (n0 : nat) (L : list (@did mem)) (p' : prog) (n' : nat) : Prop :=
| st_idle vs : rounds n0 vs n' L -> p' = wmon (ToDeliver []) -> stage n0 L p' n'
| st_method vs n l g lm p : rounds n0 vs n l -> L = l ++ mk_did n (OEvWait 0) g :: lm -> partially (S n) method lm p n' -> (forall v, p <> Ret v) -> p' = wmon (InMethod p) -> stage n0 L p' n'
| st_send vs n l g lm v ld sent todo : rounds n0 vs n l -> L = l ++ mk_did n (OEvWait 0) g :: lm ++ ld -> performs (S n) method lm (Ok v) n' -> due v = sent ++ todo -> delivers n' sent ld -> todo <> [] ->
    p' = wmon (ToDeliver todo) -> stage n0 L p' n'
| st_flag vs n l g lm v ld sent todo : rounds n0 vs n l -> L = l ++ mk_did n (OEvWait 0) g :: lm ++ ld -> performs (S n) method lm (Ok v) n' -> due v = sent ++ todo -> (forall g', delivers n' sent (ld ++ [mk_did n' (OFlag true) g'])) ->
    p' = Op (OFlag true) (fun _ => wmon (ToDeliver todo)) -> stage n0 L p' n'
| st_queue vs n l g lm v ld sent todo q z w m : rounds n0 vs n l -> L = l ++ mk_did n (OEvWait 0) g :: lm ++ ld ++ [mk_did n' (OQSize q) (Some (Ok (VInt m)))] -> performs (S n) method lm (Ok v) n' ->
    due v = sent ++ AQueue q z w :: todo -> delivers n' sent ld -> (m < z)%Z -> p' = Op (OQPut q w) (wflagged todo) -> stage n0 L p' n'
| st_dead vs n l g : rounds n0 vs n l -> L = l ++ [mk_did n (OEvWait 0) g] -> p' = Raise CancelledError -> stage n0 L p' n'.

Lemma stage_sent n0 vs n l g lm v n' ld sent todo : rounds n0 vs n l -> performs (S n) method lm (Ok v) n' -> due v = sent ++ todo -> delivers n' sent ld ->
  stage n0 (l ++ mk_did n (OEvWait 0) g :: lm ++ ld) (wmon (ToDeliver todo)) n'.
Proof.
  intros R P E D. destruct todo as [|a todo].
  - apply (st_idle n0 _ _ n' (vs ++ [v])); auto. eapply ro_one; eauto. now rewrite E, app_nil_r.
  - eapply (st_send n0 _ _ n' vs n l g lm v ld sent (a :: todo)); eauto. discriminate.
Qed.
Lemma stage_in n0 vs n l g lm p n' : rounds n0 vs n l -> partially (S n) method lm p n' -> stage n0 (l ++ mk_did n (OEvWait 0) g :: lm) (wmon (InMethod p)) n'.
Proof.
  intros R P. destruct p as [v|e|o k].
  - rewrite wmon_ret. rewrite <- (app_nil_r lm). eapply (stage_sent n0 vs n l g lm v n' [] []); eauto. constructor.
  - eapply st_method; eauto. intros v; discriminate.
  - eapply st_method; eauto. intros v; discriminate.
Qed.
Lemma due_acts v a : In a (due v) -> In a (acts v). Proof. destruct v; simpl; auto; contradiction. Qed.
Lemma stage_step n0 L o k n1 g r n' : stage n0 L (Op o k) n1 -> ends o g n1 r n' -> fine (mk_did n1 o g) -> stage n0 (L ++ [mk_did n1 o g]) (k r) n'.
Proof.
  intros H E F. destruct H as [vs R Hp|vs n l g0 lm p R HL P NR Hp|vs n l g0 lm v ld sent todo R HL P Hd D NT Hp|vs n l g0 lm v ld sent todo R HL P Hd D Hp|vs n l g0 lm v ld sent todo q z w m R HL P Hd D Hm Hp|vs n l g0 R HL Hp].
  - rewrite wmon_unfold in Hp. cbn [arrived] in Hp. injection Hp as -> ->. destruct E as [_ [_ [_ E]]]. destruct (E eq_refl) as [[v [-> ->]]| ->]; cbn [wbegun].
    + eapply (stage_in n0 vs n1 L g []); eauto. apply pa_here.
    + eapply st_dead; eauto.
  - rewrite wmon_unfold in Hp. destruct p as [v|e|o1 k1]; [now exfalso; apply (NR v)|discriminate|]. cbn [arrived] in Hp. injection Hp as -> ->. subst L. rewrite <- app_assoc. cbn [app]. eapply stage_in; eauto. eapply partially_snoc; eauto.
  - assert (N : n' = n1). { destruct E as [_ [E _]]. apply E. rewrite wmon_unfold in Hp. cbn [arrived] in Hp. destruct todo as [|[q w|h z|q z w] todo]; [congruence| | |]; now injection Hp as -> ->. } subst n'.
    assert (IN : forall a t, todo = a :: t -> In a (acts v)) by (intros a t ->; apply due_acts; rewrite Hd; apply in_app_iff; right; now left).
    rewrite wmon_unfold in Hp. cbn [arrived] in Hp. subst L. rewrite <- app_assoc. cbn [app]. rewrite <- app_assoc. destruct todo as [|[q w|h z|q z w] todo]; [congruence| | |]; injection Hp as -> ->.
    + pose proof (F v _ q (IN _ _ eq_refl) (or_introl eq_refl) eq_refl) as G. cbn [d_gives] in G. destruct E as [_ [_ [E _]]]. rewrite (E _ G). rewrite G. cbn [wflagged].
      eapply (st_flag n0 _ _ n1 vs n l g0 lm v _ (sent ++ [APut q w]) todo); eauto; [now rewrite <- app_assoc|]. intros g'. rewrite <- app_assoc. apply delivers_app; auto. apply dv_put, dv_nil.
    + eapply (stage_sent n0 vs n l g0 lm v n1 _ (sent ++ [AHook h z]) todo); eauto; [now rewrite <- app_assoc|]. apply delivers_app; auto. apply dv_hook, dv_nil.
    + destruct (F v _ q (IN _ _ eq_refl) (or_introl eq_refl) eq_refl) as [mm G]. cbn [d_gives] in G. destruct E as [_ [_ [E _]]]. rewrite (E _ G). rewrite G. destruct (Z.leb_spec z mm).
      * eapply (stage_sent n0 vs n l g0 lm v n1 _ (sent ++ [AQueue q z w]) todo); eauto; [now rewrite <- app_assoc|]. apply delivers_app; auto. apply dv_full; auto. apply dv_nil.
      * eapply (st_queue n0 _ _ n1 vs n l g0 lm v ld sent todo); eauto.
  - injection Hp as -> ->. assert (N : n' = n1) by (destruct E as [_ [E _]]; now apply E). subst n'. subst L. rewrite <- app_assoc. cbn [app]. rewrite <- app_assoc. eapply stage_sent; eauto.
  - injection Hp as -> ->. assert (N : n' = n1) by (destruct E as [_ [E _]]; now apply E). subst n'. subst L. rewrite <- app_assoc. cbn [app]. rewrite <- !app_assoc.
    assert (IN : In (AQueue q z w) (acts v)) by (apply due_acts; rewrite Hd; apply in_app_iff; right; now left). pose proof (F v _ q IN (or_introl eq_refl) eq_refl) as G. cbn [d_gives] in G. destruct E as [_ [_ [E _]]]. rewrite (E _ G). rewrite G. cbn [wflagged].
    eapply (st_flag n0 _ _ n1 vs n l g0 lm v _ (sent ++ [AQueue q z w]) todo); eauto; [now rewrite <- app_assoc|]. intros g'. rewrite <- app_assoc. apply delivers_app; auto. simpl. apply dv_queue; auto. apply dv_nil.
  - discriminate.
Qed.
Lemma stage_part n0 n (p : prog) l p' n' L0 : partially n p l p' n' -> stage n0 L0 p n -> (forall d, In d l -> fine d) -> stage n0 (L0 ++ l) p' n'.
Proof.
  intros P. revert L0. induction P as [n p|n o k g r n1 l p' n' E P IH]; intros L0 S0 F; [now rewrite app_nil_r|].
  change (mk_did n o g :: l) with ([mk_did n o g] ++ l). rewrite app_assoc. apply IH; [|intros d Hd; apply F; now right]. eapply stage_step; eauto. apply F. now left.
Qed.
Lemma wmonitor_stage n0 l p' n' : partially n0 (wmonitor method acts) l p' n' -> (forall d, In d l -> fine d) -> stage n0 l p' n'.
Proof. intros P F. change l with ([] ++ l). eapply stage_part; eauto. eapply st_idle; [apply ro_nil|reflexivity]. Qed.
End Rounds.

Section Both.
Context {mem : Type} (shuffle : list id -> list id) (dut delayers : mem -> mem) (acts : lval -> list (@action mem)).
Notation steps := (steps shuffle dut delayers). Notation step := (step shuffle dut delayers). Notation prog := (@prog mem). Notation state := (@state mem). Notation body := (@body mem).
Notation record := (record shuffle dut delayers).
Implicit Types (s : state).
Lemma does_fine t s : P_Mon.ports_ok acts s -> forall d, In d (does t s) -> fine acts d.
Proof.
  intros PO d Hd v a q Ha Hq. pose proof (PO v a q Ha Hq) as Lt. unfold does in Hd. destruct (cur s) as [[t0 [[| |o k]| | | | | | ]]|]; try contradiction. destruct (Nat.eqb t0 t); [|contradiction]. destruct Hd as [<-|[]]. cbn [d_op d_gives].
  destruct o; auto; cbn [gives]; intros ->; apply Nat.ltb_lt in Lt; rewrite Lt; eauto.
Qed.
Lemma record_fine t s s' L : P_Mon.ports_ok acts s -> record t s s' L -> (forall d, In d L -> fine acts d) /\ P_Mon.ports_ok acts s'.
Proof.
  intros PO G. induction G as [s|s s1 fire l G IH]; [split; auto; intros d []|]. destruct (IH PO) as [F P1]. split; [|now apply P_Mon.ports_step]. intros d Hd. apply in_app_iff in Hd as [Hd|Hd]; auto. eapply does_fine; eauto.
Qed.
(** Facts about a task inside an operation. *)
Lemma mid_live test m s t n o k : steps (init test m) s -> Mid t n o k s -> unfinished s t /\ n <= nstep s.
Proof.
  intros R0 [_ [L H]]. split; auto. pose proof (v_wf _ (proj1 (reach_all shuffle dut delayers _ _ _ R0))) as WF.
  assert (LV : forall cbs k0 w mu, nth_error (futs s) t = Some (mkt Pending cbs k0 w mu) -> unfinished s t).
  { intros cbs k0 w mu E. unfold unfinished, live. apply filter_In. split; [apply in_seq; split; [lia|]; apply nth_error_Some; congruence|]. unfold fget. now rewrite E. }
  assert (LC : forall b, cur s = Some (t, b) -> unfinished s t) by (intros b Hc; destruct (cur_task s t b WF Hc) as [cbs [k0 [w [mu X]]]]; eapply LV; exact X).
  destruct H as [[_ [[f [fu [cbs [mu [_ [E _]]]]]]|[f [r [Hc _]]]]]|[_ [k' [_ [[w [_ [cbs [mu E]]]]|[r [Hc _]]]]]]]; eauto.
Qed.
Lemma mid_clock test m s t n k : steps (init test m) s -> Mid t n (OEvWait 0) k s -> clock_wait test s t n.
Proof.
  intros R0 [_ [L H]]. destruct H as [[_ [H|[f [r [H1 H2]]]]]|[X _]]; [| |congruence].
  - destruct (P_Mon.inwait_spec shuffle dut delayers test m _ _ _ _ R0 H) as [A B]. split; auto. split; auto. destruct H as [f [fu [cbs [mu [_ [E [Ef [Kf Ph]]]]]]]]. destruct Ph as [[_ N]|[[_ [N [_ EA]]]|P]].
    + left. split; [lia|auto].
    + left. split; [lia|]. intros c [l0 HS]. exfalso. exact (EA _ _ HS).
    + right. intros NT. apply (canc_tdone shuffle dut delayers test m s f); auto. unfold state_of, fget. now rewrite Ef, <- P.
  - split; [right; eauto|]. split; auto. destruct H2 as [[_ N]| ->]; [left; split; [lia|intros c [l0 HS]; congruence]|right]. intros NT. destruct (reach_nc _ _ _ _ _ _ NT R0) as [_ [_ [_ [_ [X|X]]]]]; auto. exfalso. pose proof (n_cur _ X _ _ H1) as [Y _]. now apply Y.
Qed.
End Both.
