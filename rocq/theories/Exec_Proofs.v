(** Following the tasks of an executor. *)
From Coq Require Import List String Bool Arith ZArith Lia.
From Verif Require Import Py Prio_Model Loop_Model Loop_Spec Loop2_Spec LoopProg_Model Loop_Proofs Loop2_Proofs Loop3_Proofs Loop4_Proofs Loop9_Proofs Loop10_Proofs Loop13_Proofs Bind_Spec Loop16_Proofs Loop17_Proofs Loop18_Proofs Loop19_Proofs LoopRun_Model LoopRun_Proofs P_Loop P_Loop2 P_Loop3 P_Loop4 Drv_Model Exec_Model Exec_Spec.
Import ListNotations.
Open Scope nat_scope.

Section Exec.
Context {mem : Type}.
Notation prog := (@prog mem). Notation state := (@state mem). Notation body := (@body mem). Notation added := (@added mem).
Implicit Types (s : state).
Context (shuffle : list id -> list id) (dut delayers : mem -> mem).
Notation step := (step shuffle dut delayers). Notation steps := (steps shuffle dut delayers).
Notation in_turn := (in_turn shuffle dut delayers). Notation begins_coro := (begins_coro shuffle dut delayers). Notation in_coro := (in_coro shuffle dut delayers).
Notation along := (along shuffle dut delayers). Notation coro_raised := (coro_raised shuffle dut delayers).

Lemma upto_mono (C C' : @op mem prog -> Prop) K (p : prog) : (forall o, C o -> C' o) -> upto C K p -> upto C' K p.
Proof. intros H. revert p. cofix IH. intros p U. destruct U as [r|o k Ho U]; [apply upto_end|]. apply upto_op; auto. Qed.
Lemma leads_mono (C C' : @op mem prog -> Prop) K (b : body) : (forall o, C o -> C' o) -> leads C K b -> leads C' K b.
Proof. intros H [p [U E]]. exists p. split; auto. eapply upto_mono; eauto. Qed.
Lemma before_mono (C C' : @op mem prog -> Prop) K (b : body) : (forall o, C o -> C' o) -> before C K b -> before C' K b.
Proof. intros H. destruct b; cbn [before]; intros X; try (intros r0; specialize (X r0)); (eapply leads_mono; [exact H|exact X]). Qed.
Lemma awaiting_mono (C C' : @op mem prog -> Prop) s t K : (forall o, C o -> C' o) -> awaiting_by C s t K -> awaiting_by C' s t K.
Proof.
  intros H [U [[b [Hc X]]|[Hc [k [T X]]]]]; split; auto; [left|right]; [exists b; split; auto; eapply before_mono; eauto|]. split; auto. exists k. split; auto. intros r. eapply before_mono; eauto.
Qed.

(** A coroutine being awaited: still going on (and its next operation, if it is running, is one of its own), or it has come to an end. *)
Lemma coro_track (C : @op mem prog -> Prop) s s' t p K : Wf s -> runs s t p -> upto C K p -> steps s s' ->
  (along (fun x => awaiting x t K) s s' /\ awaiting s' t K /\ forall b o, cur s' = Some (t, b) -> current_op s' = Some o -> C o) \/
  exists s1 r, along (fun x => awaiting x t K) s s1 /\ steps s1 s' /\ runs s1 t (K r).
Proof.
  intros WF Hr U R. assert (IN : Inside C t K s) by (left; destruct Hr as [Hr|Hr]; eexists; (split; [exact Hr|]); apply leads_before; exists p; auto).
  assert (AW : forall s1, along (Inside C t K) s s1 -> along (fun x => awaiting x t K) s s1).
  { intros s1. apply along_imp. intros x Rx X. apply (awaiting_mono C any); [intros; exact I|]. apply inside_awaiting; [eapply steps_wf; eauto|exact X]. }
  destruct (inside_along shuffle dut delayers C s s' t K WF IN R) as [[A B]|[s1 [r [A [_ [B D]]]]]].
  - assert (X : (exists r, runs s' t (K r)) \/ forall b o, cur s' = Some (t, b) -> current_op s' = Some o -> C o).
    { unfold current_op, runs. destruct B as [[b [Hc Hb]]|[k [w [[Hc _] _]]]].
      - rewrite Hc. assert (LD : leads C K b -> (exists r, b = BProg (K r) \/ b = BTest (K r)) \/ exists o k, (b = BProg (Op o k) \/ b = BTest (Op o k)) /\ C o).
        { intros [q [U1 E]]. destruct U1 as [r|o k Ho _]; [left; eauto|right; eauto]. }
        destruct b as [q|q ev todo sb|c|e f r kk|q f r kk|test|q]; cbn [before] in Hb; try (right; intros ? ? _ X; discriminate X).
        + destruct (LD Hb) as [[r [X|X]]|[o [k [[X|X] Y]]]]; try discriminate; [left; exists r; injection X as ->; auto|right; injection X as ->]. intros ? ? _ Z. injection Z as <-. exact Y.
        + destruct Hb as [q0 [_ [X|X]]]; discriminate.
        + destruct (LD Hb) as [[r [X|X]]|[o [k [[X|X] Y]]]]; try discriminate; [left; exists r; injection X as ->; auto|right; injection X as ->]. intros ? ? _ Z. injection Z as <-. exact Y.
      - right. intros b o X. now apply Hc in X. }
    destruct X as [[r X]|X]; [right; exists s', r; split; auto; split; auto; apply steps_refl|left]. split; auto. split; auto. apply (awaiting_mono C any); [intros; exact I|]. apply inside_awaiting; [eapply steps_wf; eauto|exact B].
  - right. exists s1, r. auto.
Qed.

Lemma runs_assign t s s' (a : added) k : Wf s -> runs s t (assign a k) -> steps s s' -> (s' = s /\ c_drv (a_coro a) <> None) \/ exists s0, begins_coro a s s0 /\ runs s0 t k /\ steps s0 s' /\ steps s s0.
Proof.
  intros WF Hr R. unfold assign in Hr. unfold Exec_Spec.begins_coro. destruct (c_drv (a_coro a)) as [[ag d]|] eqn:E.
  - destruct (steps_first _ _ _ _ _ R) as [->|[fire R1]]; [left; split; auto; congruence|right]. exists (step fire s). split; [eauto|]. apply runs_wrap in Hr as [W [HW Hc]]. split; [|split; [auto|apply steps_step, steps_refl]].
    apply runs_wrap. exists W. split; auto. rewrite (step_op shuffle dut delayers W fire s t _ _ HW Hc). reflexivity.
  - right. exists s. split; auto. split; auto. split; auto. apply steps_refl.
Qed.
(** The task of a group: it has executed the coroutines [l1], and then it goes on with [l2]. *)
Lemma seq_track C ce : forall l vs s s' t, Wf s -> (forall a, In a l -> forall K, upto C K (c_await (a_coro a) K)) -> runs s t (seq_all l vs ce) -> steps s s' ->
  exists l1 l2 ws s1, l = l1 ++ l2 /\ in_turn t l1 ws s s1 /\ steps s s1 /\ steps s1 s' /\ runs s1 t (seq_all l2 (vs ++ ws) ce) /\
    (l2 = [] \/ exists a rest, l2 = a :: rest /\
       ((s' = s1 /\ c_drv (a_coro a) <> None) \/ exists s0, begins_coro a s1 s0 /\ steps s1 s0 /\
         ((in_coro t a s0 s' /\ forall b o, cur s' = Some (t, b) -> current_op s' = Some o -> C o) \/
          exists s2 e, coro_raised t a e s0 s2 /\ runs s2 t (Raise e) /\ steps s0 s2 /\ steps s2 s'))).
Proof.
  induction l as [|a l IH]; intros vs s s' t WF HU Hr R.
  - exists [], [], [], s. rewrite (app_nil_r vs). split; auto. split; [constructor|]. split; [apply steps_refl|]. split; [exact R|]. split; [exact Hr|now left].
  - cbn [seq_all] in Hr. destruct (runs_assign t s s' a _ WF Hr R) as [[-> Hd]|[s0 [B [Hr0 [R0 R00]]]]].
    + exists [], (a :: l), [], s. rewrite (app_nil_r vs). split; auto. split; [constructor|]. split; auto. split; auto. split; auto. right. exists a, l. auto.
    + set (K := fun r : res lval => match r with Ok v => seq_all l (vs ++ [v]) ce | Exn e => Raise e end) in Hr0. assert (WF0 : Wf s0) by (eapply steps_wf; eauto).
      destruct (coro_track C s0 s' t _ K WF0 Hr0 (HU a (or_introl eq_refl) K) R0) as [[A1 [A2 A3]]|[s1 [r [A1 [A2 A3]]]]].
      * exists [], (a :: l), [], s. rewrite (app_nil_r vs). split; auto. split; [constructor|]. split; [apply steps_refl|]. split; auto. split; auto. right. exists a, l. split; auto. right. exists s0. split; auto. split; auto. left. split; auto. exists K. auto.
      * assert (R1 : steps s0 s1) by (eapply along_steps; eauto). destruct r as [v|e].
        -- destruct (IH (vs ++ [v]) s1 s' t) as [l1 [l2 [ws [s2 [E1 [E2 [E3 [E4 [E5 E6]]]]]]]]]; auto; [eapply steps_wf; eauto|intros x Hx; apply HU; now right|].
           exists (a :: l1), l2, (v :: ws), s2. split; [simpl; now f_equal|]. split; [econstructor; eauto|]. split; [eapply steps_trans; [exact R00|]; eapply steps_trans; eauto|]. split; auto. rewrite <- app_assoc in E5. auto.
        -- exists [], (a :: l), [], s. rewrite (app_nil_r vs). split; auto. split; [constructor|]. split; [apply steps_refl|]. split; auto. split; auto. right. exists a, l. split; auto. right. exists s0. split; auto. split; auto. right. exists s1, e. split; [exists K; auto|]. auto.
Qed.

(** * The life of a created task *)
Fixpoint plainb (b : body) : Prop := match b with BProg _ => True | BEv _ _ _ k | BGet _ _ _ k => forall r, plainb (k r) | _ => False end.
Definition done s t : Prop := exists st, state_of s t = Some st /\ st <> Pending.
Definition Plain t s : Prop := (exists b, cur s = Some (t, b) /\ plainb b) \/ (exists k w, Susp t k w s /\ forall r, plainb (k r)) \/ done s t.
Lemma plain_step fire s t : Wf s -> Plain t s -> Plain t (step fire s).
Proof.
  intros WF [[b [Hc P]]|[[k [w [SU P]]]|[st [A B]]]].
  - destruct (cur_task s t b WF Hc) as [cbs [k0 [w [m Et]]]]. assert (HS : step fire s = exec_body shuffle dut delayers s t b) by (unfold Loop_Model.step; now rewrite Hc).
    assert (FI : forall r, step fire s = finish s t r -> Plain t (step fire s)).
    { intros r E. destruct (finish_state s t r _ _ _ _ Et) as [st [X [Y _]]]. right; right. exists st. rewrite E. auto. }
    destruct b as [[v|e|o kk]|q ev todo sb|c|e f r kk|q f r kk|test|q]; cbn [plainb] in P; try contradiction.
    + apply (FI (Ok v)). exact HS.
    + apply (FI (Exn e)). exact HS.
    + rewrite HS. cbn [exec_body]. destruct (exec_op_out s t o (fun r => BProg (kk r)) _ _ _ _ Et) as [[r [_ X]]|[k' [w' [S D]]]].
      * left. eexists. split; [exact X|exact I].
      * right; left. exists k', w'. split; auto. intros r. destruct D as [->|[[e [f ->]]|[q [f ->]]]]; simpl; auto.
    + rewrite HS. cbn [exec_body]. left. destruct (nth_error (evs s) e); eexists; (split; [reflexivity|]); auto.
    + rewrite HS. destruct r as [v|e].
      * cbn [exec_body]. destruct (q_get_out s t q kk _ _ _ _ Et) as [[r [_ X]]|[f' [w' S]]].
        -- left. eexists. split; [exact X|]. auto.
        -- right; left. eexists _, w'. split; [exact S|]. auto.
      * left. cbn [exec_body]. eexists. split; [reflexivity|]. auto.
  - destruct (susp_step shuffle dut delayers fire t k w s WF SU) as [X|[r [X _]]]; [right; left; eauto|left; eauto].
  - right; right. exists st. split; auto. eapply (state_of_done shuffle dut delayers s); eauto. apply steps_step, steps_refl.
Qed.
Lemma plain_steps s s' t : Wf s -> Plain t s -> steps s s' -> Plain t s'.
Proof. intros WF P R. induction R as [s|s s1 fire R IH]; auto. apply plain_step; auto. eapply steps_wf; eauto. Qed.
Lemma plain_runs s t p : Wf s -> Plain t s -> runs s t p -> cur s = Some (t, BProg p).
Proof.
  intros WF P [H|H]; auto. exfalso. destruct P as [[b [Hc P]]|[[k [w [[Hc _] _]]]|[st [A B]]]].
  - rewrite H in Hc. injection Hc as <-. exact P.
  - now apply Hc in H.
  - destruct (cur_task s t _ WF H) as [cbs [k0 [w [m Et]]]]. unfold state_of in A. rewrite Et in A. unfold mkt in A. simpl in A. injection A as <-. contradiction.
Qed.
Lemma plain_end s s' t p r : Wf s -> Plain t s -> runs s t p -> match r with Ok v => p = Ret v | Exn e => p = Raise e end -> steps s s' ->
  s' = s \/ exists st, state_of s' t = Some st /\ st <> Pending /\ forall v, st = Finished (Ok v) -> r = Ok v.
Proof.
  intros WF P Hr E R. assert (Hc := plain_runs s t p WF P Hr). destruct (steps_first _ _ _ _ _ R) as [->|[fire R1]]; auto. right. destruct (cur_task s t _ WF Hc) as [cbs [k0 [w [m Et]]]].
  destruct (finish_state s t r _ _ _ _ Et) as [st [X [Y Z]]]. exists st. split; auto. apply (state_of_done shuffle dut delayers (step fire s)); auto; [apply step_wf; auto|].
  assert (HS : step fire s = finish s t r) by (unfold Loop_Model.step; rewrite Hc; destruct r; subst p; reflexivity). rewrite HS. exact X.
Qed.
(** A task that was created for [p]: it has not begun, or it began with [p] (unless it was cancelled before). *)
Lemma made_track test m s s' p i : steps (init test m) s -> made_between shuffle dut delayers s s' p i -> i < List.length (futs s') ->
  exists s0, steps s s0 /\ steps s0 s' /\ Plain i s0 /\ (Susp i (start (BProg p)) None s' \/ exists s1 p1, steps s0 s1 /\ steps s1 s' /\ runs s1 i p1 /\ (p1 = p \/ exists e, p1 = Raise e)).
Proof.
  intros R0 [s1 [R1 [R2 [Ho ->]]]] L. destruct (steps_first _ _ _ _ _ R2) as [->|[fire R3]]; [lia|]. assert (R01 : steps (init test m) s1) by (eapply steps_trans; eauto). destruct (reach_linked _ _ _ _ _ _ R01) as [WF _].
  assert (X : exists t b, cur s1 = Some (t, b) /\ exists kk, step fire s1 = exec_op s1 t (OCreate p) kk).
  { unfold current_op in Ho. destruct (cur s1) as [[t b]|] eqn:Hc; [|discriminate]. exists t, b. split; auto. unfold Loop_Model.step. rewrite Hc.
    destruct b as [[v0|x|o kk]|[v0|x|o kk] ev todo sb|c|x g r kk|q g r kk|test0|[v0|x|o kk]]; try discriminate; injection Ho as ->; cbn [exec_body]; eauto. }
  destruct X as [t [b [Hc [kk HS]]]]. assert (SU : Susp (List.length (futs s1)) (start (BProg p)) None (step fire s1)).
  { destruct (cur_task s1 t b WF Hc) as [cbs [k0 [w [m0 Et]]]]. assert (Lt : t < List.length (futs s1)) by (apply nth_error_Some; unfold fget in Et; congruence). split.
    - intros b' X. rewrite HS in X. cbn in X. injection X as X _. lia.
    - rewrite HS, futs_create. exists [], false. rewrite nth_error_app2, Nat.sub_diag by lia. reflexivity. }
  assert (PL : Plain (List.length (futs s1)) (step fire s1)) by (right; left; exists (start (BProg p)), None; split; auto; intros [v|e]; exact I).
  assert (WF1 : Wf (step fire s1)) by (apply step_wf; auto). exists (step fire s1). split; [now apply steps_step|]. split; auto. split; auto.
  destruct (susp_track shuffle dut delayers _ _ _ _ s' WF1 SU R3) as [X|[s2 [fi [r [A [_ [B [D _]]]]]]]]; auto. right.
  exists (step fi s2). destruct r as [v|e]; [exists p|exists (Raise e)]; (split; [now apply steps_step|]); (split; [exact B|]); (split; [left; exact D|]); eauto.
Qed.
(** It is a task. *)
Lemma made_task test m s s' p i : steps (init test m) s -> made_between shuffle dut delayers s s' p i -> i < List.length (futs s') -> exists fu, fget s' i = Some fu /\ nameable (f_kind fu) = true.
Proof.
  intros R0 [s1 [R1 [R2 [Ho ->]]]] L. destruct (steps_first _ _ _ _ _ R2) as [->|[fire R3]]; [lia|]. assert (R01 : steps (init test m) s1) by (eapply steps_trans; eauto). destruct (reach_linked _ _ _ _ _ _ R01) as [WF _].
  assert (X : exists fu, nth_error (futs (step fire s1)) (List.length (futs s1)) = Some fu /\ nameable (f_kind fu) = true).
  { unfold current_op in Ho. destruct (cur s1) as [[t b]|] eqn:Hc; [|discriminate]. eexists. unfold Loop_Model.step. rewrite Hc.
    destruct b as [[v0|x|o kk]|[v0|x|o kk] ev todo sb|c|x g r kk|q g r kk|test0|[v0|x|o kk]]; try discriminate; injection Ho as ->; cbn [exec_body]; rewrite futs_create, nth_error_app2, Nat.sub_diag by lia; split; reflexivity. }
  destruct X as [fu [A B]]. destruct (steps_fext shuffle dut delayers _ _ (step_wf shuffle dut delayers fire s1 WF) R3 _ _ A) as [fu' [A' [K _]]]. exists fu'. split; auto. destruct (f_kind fu), (f_kind fu'); simpl in *; congruence || tauto || auto.
Qed.
(** The result of a group. *)
Lemma group_returned test m s s' l ce i v : steps (init test m) s -> (forall a, In a l -> awaitable (a_coro a)) -> made_between shuffle dut delayers s s' (seq_all l [] ce) i -> returned s' i v ->
  exists s0 s1 vs, steps s s0 /\ in_turn i l vs s0 s1 /\ steps s1 s' /\ v = VList vs.
Proof.
  intros R0 HA MB HR. unfold returned, state_of, fget in HR. destruct (nth_error (futs s') i) as [fu|] eqn:Ef; [|discriminate]. simpl in HR. injection HR as HR.
  assert (L : i < List.length (futs s')) by (apply nth_error_Some; congruence). destruct (made_track test m s s' _ i R0 MB L) as [s0 [A [B [PL [[_ [cbs [mu X]]]|[s1 [p1 [D [E [F G]]]]]]]]]]; [rewrite X in Ef; injection Ef as <-; unfold mkt in HR; discriminate|].
  assert (R00 : steps (init test m) s0) by (eapply steps_trans; eauto). destruct (reach_linked _ _ _ _ _ _ R00) as [WF0 _]. assert (WF1 : Wf s1) by (eapply steps_wf; eauto). assert (PL1 := plain_steps s0 s1 i WF0 PL D). assert (WF' := steps_wf shuffle dut delayers s1 s' WF1 E).
  assert (NC : forall b, cur s' <> Some (i, b)). { intros b Hc. destruct (cur_task s' i b WF' Hc) as [cbs [k0 [w [m0 Et]]]]. unfold fget in Et. rewrite Et in Ef. injection Ef as <-. unfold mkt in HR. discriminate. }
  assert (NR : forall q, ~ runs s' i q) by (intros q [X|X]; now apply NC in X).
  assert (EN : forall x q r, Wf x -> Plain i x -> runs x i q -> match r with Ok v => q = Ret v | Exn e => q = Raise e end -> steps x s' -> r = Ok v).
  { intros x q r Wx Px Hx Eq Rx. destruct (plain_end x s' i q r Wx Px Hx Eq Rx) as [->|[st [S1 [S2 S3]]]]; [now apply NR in Hx|]. apply S3. unfold state_of, fget in S1. rewrite Ef in S1. simpl in S1. congruence. }
  destruct G as [->|[e ->]]; [|specialize (EN s1 _ (Exn e) WF1 PL1 F eq_refl E); discriminate].
  destruct (seq_track any ce l [] s1 s' i WF1 HA F E) as [l1 [l2 [ws [s2 [E1 [E2 [E3 [E4 [E5 E6]]]]]]]]]. assert (WF2 := steps_wf shuffle dut delayers s1 s2 WF1 E3). assert (PL2 := plain_steps s1 s2 i WF1 PL1 E3). cbn [app] in E5.
  destruct E6 as [->|[a [rest [-> [[-> _]|[x [_ [RX [[[K [_ [_ [U HK]]]] _]|[s3 [e [_ [E7 [E8 E9]]]]]]]]]]]]]]; [|now apply NR in E5| |].
  - rewrite app_nil_r in E1. subst l1. exists s1, s2, ws. split; [eapply steps_trans; eauto|]. split; auto. split; auto. cbn [seq_all] in E5. unfold group_end in E5. destruct ce as [e|].
    + destruct (steps_first _ _ _ _ _ E4) as [->|[fire E4']]; [now apply NR in E5|]. assert (Hc := plain_runs _ _ _ WF2 PL2 E5). assert (E5' : runs (step fire s2) i (Ret (VList ws))).
      { left. unfold Loop_Model.step. rewrite Hc. cbn [exec_body exec_op]. destruct (nth_error (evs s2) e) as [ev|]; [destruct (e_priv ev)|]; reflexivity. }
      specialize (EN (step fire s2) _ (Ok (VList ws)) (step_wf _ _ _ _ _ WF2) (plain_step _ _ _ WF2 PL2) E5' eq_refl E4'). congruence.
    + specialize (EN s2 _ (Ok (VList ws)) WF2 PL2 E5 eq_refl E4). congruence.
  - exfalso. apply live_iff in U. unfold islive in U. rewrite Ef in U. destruct fu as [st cb kd]. cbn [f_st] in HR. subst st. destruct kd; discriminate.
  - assert (R23 : steps s2 s3) by (eapply steps_trans; eauto). specialize (EN s3 _ (Exn e) (steps_wf _ _ _ _ _ WF2 R23) (plain_steps _ _ _ WF2 PL2 R23) E7 eq_refl E9). discriminate.
Qed.
Lemma runs_unfinished s t p : Wf s -> runs s t p -> unfinished s t.
Proof. intros WF H. apply live_iff. unfold islive. destruct H as [H|H]; destruct (cur_task s t _ WF H) as [cbs [k [w [m E]]]]; unfold fget in E; now rewrite E. Qed.
(** A task that returns does not fail with an exception. *)
Lemma plain_ret s s' t v x : Wf s -> Plain t s -> runs s t (Ret v) -> steps s s' -> state_of s' t <> Some (Finished (Exn x)).
Proof.
  intros WF P Hr R. assert (Hc := plain_runs s t _ WF P Hr). destruct (cur_task s t _ WF Hc) as [cbs [k0 [w [m Et]]]]. destruct (steps_first _ _ _ _ _ R) as [->|[fire R1]].
  - unfold state_of. rewrite Et. discriminate.
  - assert (HS : step fire s = finish s t (Ok v)) by (unfold Loop_Model.step; rewrite Hc; reflexivity).
    assert (D : exists st, state_of (step fire s) t = Some st /\ st <> Pending /\ st <> Finished (Exn x)).
    { rewrite HS. unfold finish, state_of, conclude, tget. rewrite Et. unfold mkt. cbn [k_must pending f_st f_kind f_cbs]. eexists. split; [unfold fget; cbn [futs set_cur push set_ready fput set_futs]; unfold fget in Et; rewrite (put_nth_get _ _ _ _ t Et), Nat.eqb_refl; reflexivity|]. destruct m; split; discriminate. }
    destruct D as [st [D1 [D2 D3]]]. rewrite (state_of_done shuffle dut delayers (step fire s) s' t st (step_wf _ _ _ _ _ WF) R1 D1 D2). congruence.
Qed.
(** The task of a group sets the event of the executor only when the group has been executed, and then it does not fail. *)
Lemma group_sets test m s s' l e i b : steps (init test m) s -> (forall a, In a l -> leaves e (a_coro a)) -> made_between shuffle dut delayers s s' (seq_all l [] (Some e)) i -> cur s' = Some (i, b) -> current_op s' = Some (OEvSet e) ->
  exists s0 s1 vs, steps s s0 /\ in_turn i l vs s0 s1 /\ steps s1 s' /\ forall s2 x, steps s' s2 -> state_of s2 i <> Some (Finished (Exn x)).
Proof.
  intros R0 HL MB Hc Ho. assert (WF' : Wf s'). { destruct MB as [x [A [B _]]]. eapply (reach_linked shuffle dut delayers test m). eapply steps_trans; [exact R0|]. eapply steps_trans; eauto. }
  destruct (cur_task s' i b WF' Hc) as [cbs [k0 [w [m0 Et]]]]. assert (L : i < List.length (futs s')) by (apply nth_error_Some; unfold fget in Et; congruence).
  destruct (made_track test m s s' _ i R0 MB L) as [s0 [A [B [PL [[X _]|[s1 [p1 [D [E [F G]]]]]]]]]]; [now apply X in Hc|].
  assert (R00 : steps (init test m) s0) by (eapply steps_trans; eauto). destruct (reach_linked _ _ _ _ _ _ R00) as [WF0 _]. assert (WF1 := steps_wf shuffle dut delayers s0 s1 WF0 D). assert (PL1 := plain_steps s0 s1 i WF0 PL D).
  assert (EN : forall x e, Wf x -> Plain i x -> runs x i (Raise e) -> steps x s' -> False).
  { intros x e0 Wx Px Hx Rx. destruct (plain_end x s' i _ (Exn e0) Wx Px Hx eq_refl Rx) as [->|[st [S1 [S2 _]]]].
    - unfold current_op in Ho. destruct Hx as [Hx|Hx]; rewrite Hx in Ho; discriminate.
    - unfold state_of in S1. rewrite Et in S1. unfold mkt in S1. simpl in S1. injection S1 as <-. contradiction. }
  destruct G as [->|[x ->]]; [|now apply EN in F]. destruct (seq_track (fun o => o <> OEvSet e) (Some e) l [] s1 s' i WF1 HL F E) as [l1 [l2 [ws [s2 [E1 [E2 [E3 [E4 [E5 E6]]]]]]]]].
  destruct E6 as [->|[a [rest [-> [[-> Hd]|[x [_ [RX [[_ HC]|[s3 [e0 [_ [E7 [E8 E9]]]]]]]]]]]]]].
  - rewrite app_nil_r in E1. subst l1. exists s1, s2, ws. split; [eapply steps_trans; eauto|]. split; auto. split; auto. intros z x Rz.
    assert (WF2 := steps_wf shuffle dut delayers s1 s2 WF1 E3). assert (PL2 := plain_steps s1 s2 i WF1 PL1 E3). cbn [seq_all group_end] in E5. assert (Hc2 := plain_runs _ _ _ WF2 PL2 E5).
    destruct (steps_first _ _ _ _ _ (steps_trans _ _ _ _ _ _ E4 Rz)) as [->|[fire E4']].
    + destruct (cur_task s2 i _ WF2 Hc2) as [cbs2 [k2 [w2 [m2 Et2]]]]. unfold state_of. rewrite Et2. discriminate.
    + refine (plain_ret (step fire s2) z i _ x (step_wf _ _ _ _ _ WF2) (plain_step _ _ _ WF2 PL2) _ E4'). left. unfold Loop_Model.step. rewrite Hc2. cbn [exec_body exec_op]. destruct (nth_error (evs s2) e) as [ev|]; [destruct (e_priv ev)|]; reflexivity.
  - exfalso. cbn [seq_all] in E5. unfold assign in E5. destruct (c_drv (a_coro a)) as [[ag d]|]; [|congruence]. unfold current_op in Ho. destruct E5 as [X|X]; rewrite X in Ho; discriminate.
  - exfalso. exact (HC b _ Hc Ho eq_refl).
  - exfalso. assert (R13 : steps s1 s3) by (eapply steps_trans; [exact E3|]; eapply steps_trans; eauto). eapply (EN s3 e0); eauto; [eapply steps_wf; eauto|]. eapply plain_steps; [exact WF1| |]; eauto.
Qed.
End Exec.
