(** One step of the machine as micro steps; kinds of futures; reachability. *)
From Coq Require Import List Bool Arith ZArith Lia.
From Verif Require Import Py Prio_Model Loop_Model Loop_Proofs.
Import ListNotations.
Open Scope nat_scope.

Section Step.
Context {mem : Type}.
Notation prog := (@prog mem). Notation state := (@state mem). Notation body := (@body mem). Notation task := (@task mem).
Notation fut := (@fut mem). Notation kind := (@kind mem).
Implicit Types (s : state) (F : list fut).
Context (shuffle : list id -> list id) (dut delayers : mem -> mem).
Notation step := (step shuffle dut delayers). Notation steps := (steps shuffle dut delayers).

Definition kindof (F : list fut) (f : id) : option kind := option_map f_kind (nth_error F f).
Definition fixedk (k : kind) : bool := match k with KEv _ | KQueue _ | KFired => true | _ => false end.
Lemma kindof_ext F F' f k : fext F F' -> fixedk k = true -> kindof F f = Some k -> kindof F' f = Some k.
Proof.
  unfold kindof. intros H Hk E. destruct (nth_error F f) as [fu|] eqn:Ef; [|discriminate]. destruct (H f fu Ef) as [fu' [E' [K _]]]. rewrite E'. simpl in *.
  injection E as <-. f_equal. destruct (f_kind fu), (f_kind fu'); simpl in *; try contradiction; try discriminate; congruence.
Qed.
(** Waiters of events and queues, expired timers. *)
Record Kin (s : state) : Prop := mk_kin
  { k_ev : forall e ev f, nth_error (evs s) e = Some ev -> In f (e_waiters ev) -> kindof (futs s) f = Some (KEv e);
    k_qu : forall q qu f, nth_error (qs s) q = Some qu -> In f (q_getters qu) -> kindof (futs s) f = Some (KQueue q);
    k_ti : forall f, In (HTimer f) (ready s) -> kindof (futs s) f = Some KFired }.
Definition Tim (c : @core mem) : Prop := forall f, In (HTimer f) (snd (fst c)) -> kindof (snd c) f = Some KFired.
Lemma m1_tim N S (c c1 : @core mem) : m1 N S c c1 -> Tim c -> Tim c1.
Proof.
  intros H T f Hf. pose proof (m1_ext _ _ _ _ H) as X.
  assert (D : In (HTimer f) (snd (fst c)) \/ exists st cbs, nth_error (snd c1) f = Some (mk_fut st cbs KFired)).
  { destruct H; cbn [fst snd] in *; auto; try (apply in_app_or in Hf as [Hf|Hf]; [now left|]).
    - apply in_map_iff in Hf as [[] [E _]]; discriminate.
    - destruct Hf as [->|[]]. right. exact H.
    - destruct Hf as [Hf|[]]; discriminate.
    - destruct Hf as [Hf|[]]. destruct H0 as [->| ->]; discriminate.
    - apply in_map_iff in Hf as [[] [E _]]; discriminate.
    - left. now right.
    - left. now right. }
  destruct D as [D|[st [cbs D]]].
  - eapply kindof_ext; eauto.
  - unfold kindof. now rewrite D.
Qed.
Lemma mstar_tim N S (c c1 : @core mem) : mstar N S c c1 -> Tim c -> Tim c1.
Proof. intros H. apply (mstar_inv N S Tim c c1 (m1_tim N S) H). Qed.

(** The continuations an operation may store. *)
Definition opstores (N : option (id * kind) -> (res lval -> body) -> Prop) (o : @op mem prog) (k : res lval -> body) : Prop :=
  match o with
  | OSleep0 => N None k
  | OAwait f => N None k /\ forall kd, nameable kd = true -> N (Some (f, kd)) k
  | OEvWait e => forall f, N (Some (f, KEv e)) (fun r => BEv e f r k)
  | OQGet q => forall f, N (Some (f, KQueue q)) (fun r => BGet q f r k)
  | OCreate p => N None (start (BProg p))
  | OStartClock => N None (start (BClk CInit))
  | _ => True
  end.
Definition stores (N : option (id * kind) -> (res lval -> body) -> Prop) (b : body) : Prop :=
  match b with
  | BProg (Op o k) => opstores N o (fun r => BProg (k r))
  | BTest (Op o k) => opstores N o (fun r => BTest (k r))
  | BTest (Ret v) => opstores N (OEvWait 0) (fun r => BProg (match r with Ok _ => Ret v | Exn e => Raise e end))
  | BHook (Op o k) ev todo b => opstores N o (fun r => BHook (k r) ev todo b)
  | BClk CInit => N None (start (BClk CInit))
  | BClk CRound => N None (start (BClk CCheck))
  | BClk CCancel => (forall g n, N (Some (g, KGather n)) (start (BClk CGathered))) /\ N None (start (BClk CGathered)) /\ N None (start (BClk (CStep true)))
  | BClk CGathered => N None (start (BClk (CStep true)))
  | BGet q _ (Ok _) k => forall f, N (Some (f, KQueue q)) (fun r => BGet q f r k)
  | _ => True
  end.
(** The event set by the next step. *)
Definition opsets (s : state) (o : @op mem prog) : option id :=
  match o with OEvSet e => match nth_error (evs s) e with Some ev => if e_priv ev then None else Some e | None => None end | _ => None end.
Definition sets (s : state) : option id :=
  match cur s with
  | Some (_, BProg (Op o _)) | Some (_, BHook (Op o _) _ _ _) | Some (_, BTest (Op o _)) => opsets s o
  | Some (_, BHook (Ret _) ev _ _) => ev
  | Some (_, BClk (CStep _)) => Some 0
  | _ => None
  end.
(** The next step may cancel something. *)
Definition opcancels (o : @op mem prog) : Prop := match o with OCancel _ => True | _ => False end.
Definition cancels (s : state) : Prop :=
  (exists t tk, tget s t = Some tk /\ k_must tk = true) \/
  match cur s with
  | Some (_, BProg (Op o _)) | Some (_, BHook (Op o _) _ _ _) | Some (_, BTest (Op o _)) => opcancels o
  | Some (_, BClk CCancel) | Some (_, BGet _ _ (Exn _) _) => True
  | _ => False
  end.
(** The final state of the task that finishes in the next step. *)
Definition final (tk : task) (r : res lval) : fstate :=
  match r with Exn CancelledError => Canc | Exn e => Finished (Exn e) | Ok v => if k_must tk then Canc else Finished (Ok v) end.
Definition finals (s : state) (tk : task) (st : fstate) : Prop :=
  match cur s with
  | Some (_, BProg (Ret v)) | Some (_, BTest (Ret v)) => st = final tk (Ok v)
  | Some (_, BProg (Raise e)) | Some (_, BTest (Raise e)) => st = final tk (Exn e)
  | _ => False
  end.
(** The kinds of futures the next step may create. *)
Definition opcreates (o : @op mem prog) (k : kind) : Prop :=
  match k with KEv e => o = OEvWait e | KQueue q => o = OQGet q | KTimer => o = OTimer | KGather _ => exists l, o = OGather l | KTask _ => (exists p, o = OCreate p) \/ o = OStartClock | KFired => False end.
Definition creates (s : state) (k : kind) : Prop :=
  match cur s with
  | Some (_, BProg (Op o _)) | Some (_, BHook (Op o _) _ _ _) | Some (_, BTest (Op o _)) => opcreates o k
  | Some (_, BTest (Ret _)) => k = KEv 0
  | Some (_, BGet q _ (Ok _) _) => k = KQueue q
  | Some (_, BClk CCancel) => match k with KGather _ => True | _ => False end
  | _ => False
  end.
Definition Sof (s : state) : @perm mem := mk_perm (fun k st =>
  (cancels s /\ st = Canc) \/ (creates s k /\ st = Pending) \/
  match k with KEv e => sets s = Some e /\ st = Finished (Ok (VBool true)) | KTask tk => finals s tk st | KTimer => False | KGather _ => cur s = None /\ st = Finished (Ok VNone) | _ => st = Finished (Ok VNone) end) (cur s = None).
Section Fn.
Context (N : option (id * kind) -> (res lval -> body) -> Prop) (S : @perm mem).
Notation ms := (mstar N S).
Context (HQ : forall q, S (KQueue q) (Finished (Ok VNone))).
Lemma ms_ext s s' : ms (coreof s) (coreof s') -> fext (futs s) (futs s').
Proof. intros H. apply (mstar_ext _ _ _ _ H). Qed.

Lemma L_fold_settle s l e st : st <> Pending -> S (KEv e) st -> (forall f, In f l -> kindof (futs s) f = Some (KEv e)) ->
  ms (coreof s) (coreof (fold_left (fun s f => settle s f st) l s)).
Proof.
  intros Hst Hs. revert s. induction l as [|f l IH]; intros s H; simpl; [constructor|].
  assert (H1 : ms (coreof s) (coreof (settle s f st))).
  { apply L_settle; auto. intros fu E _ _. specialize (H f (or_introl eq_refl)). unfold kindof, fget in *. rewrite E in H. simpl in H. injection H as ->. exact Hs. }
  eapply mstar_trans; [exact H1|]. apply IH. intros g Hg. eapply kindof_ext; [apply ms_ext; exact H1|reflexivity|]. apply H. now right.
Qed.
Lemma L_ev_set s e : S (KEv e) (Finished (Ok (VBool true))) -> Kin s -> ms (coreof s) (coreof (ev_set s e)).
Proof.
  intros Hs HK. unfold ev_set. destruct (nth_error (evs s) e) as [ev|] eqn:E; [|constructor]. destruct (e_val ev); [constructor|].
  change (coreof s) with (coreof (eput s e (mk_event true (e_waiters ev) (e_priv ev)))). apply (L_fold_settle _ _ e); auto; [discriminate|].
  intros f Hf. simpl. eapply k_ev; eauto.
Qed.
Lemma L_wake_next s l q : (forall f, In f l -> kindof (futs s) f = Some (KQueue q)) -> ms (coreof s) (coreof (fst (wake_next s l))).
Proof.
  revert s. induction l as [|f l IH]; intros s H; simpl; [constructor|]. destruct (fpending s f).
  - simpl. apply L_settle; [discriminate|]. intros fu E _ _. specialize (H f (or_introl eq_refl)). unfold kindof, fget in *. rewrite E in H. simpl in H. injection H as ->. auto.
  - apply IH. intros g Hg. apply H. now right.
Qed.
Lemma L_q_wake s q : (forall qu f, nth_error (qs s) q = Some qu -> In f (q_getters qu) -> kindof (futs s) f = Some (KQueue q)) -> ms (coreof s) (coreof (q_wake s q)).
Proof.
  intros H. unfold q_wake. destruct (nth_error (qs s) q) as [qu|] eqn:E; [|constructor]. pose proof (L_wake_next s (q_getters qu) q (fun f => H qu f eq_refl)) as H1.
  destruct (wake_next s (q_getters qu)) as [s1 l]. exact H1.
Qed.
Lemma nth_put_any {A} (l : list A) n a m x : nth_error (put_nth n a l) m = Some x -> (m = n /\ x = a) \/ (m <> n /\ nth_error l m = Some x).
Proof.
  intros H. destruct (nth_error l n) as [y|] eqn:E.
  - rewrite (put_nth_get _ _ _ _ m E) in H. destruct (Nat.eqb_spec m n); [left|right]; auto. split; congruence.
  - rewrite (put_nth_None _ _ _ E) in H. right. split; auto. intros ->. congruence.
Qed.
Lemma fpending_new (s : state) k : fpending (falloc s (mk_fut Pending [] k)) (List.length (futs s)) = true.
Proof. unfold fpending, fget. simpl. rewrite nth_app_new, Nat.eqb_refl. reflexivity. Qed.
Lemma tget_new (s : state) x t k : tget s t = Some k -> tget (falloc s x) t = Some k.
Proof.
  intros H. destruct (tget_fut _ _ _ H) as [st [cbs E]]. unfold tget, fget in *. simpl. rewrite nth_app_new.
  destruct (Nat.eqb_spec t (List.length (futs s))) as [->|_]; [|now rewrite E]. assert (List.length (futs s) < List.length (futs s)) by (apply nth_error_Some; congruence). lia.
Qed.
Lemma tget_lt s t tk : tget s t = Some tk -> t <> List.length (futs s).
Proof. intros H E. destruct (tget_fut _ _ _ H) as [st [cbs X]]. assert (t < List.length (futs s)) by (apply nth_error_Some; unfold fget in X; congruence). lia. Qed.
Lemma L_q_get s t b tk q k : S (KQueue q) Pending -> (k_must tk = true -> forall k, S k Canc) -> cur s = Some (t, b) -> tget s t = Some tk -> (forall f, N (Some (f, KQueue q)) (fun r => BGet q f r k)) -> ms (coreof s) (coreof (q_get s t q k)).
Proof.
  intros HP HS Hc Ht Hk. unfold q_get. destruct (nth_error (qs s) q) as [qu|]; [|eapply L_go; eauto]. destruct (q_items qu) as [|v rest].
  - set (s1 := qput (falloc s (mk_fut Pending [] (KQueue q))) q (mk_queue [] (q_getters qu ++ [List.length (futs s)]))).
    eapply mstar_trans; [apply (L_alloc N S s Pending (KQueue q)); auto|]. change (coreof (falloc s (mk_fut Pending [] (KQueue q)))) with (coreof s1).
    apply (L_suspend N S s1 t b tk); [exact HS|exact Hc|exact (tget_new s _ t tk Ht)|exact (fpending_new s (KQueue q))| |].
    + intros X. exfalso. apply (tget_lt _ _ _ Ht). exact X.
    + intros kd Ekd. unfold fget in Ekd. simpl in Ekd. rewrite nth_app_new, Nat.eqb_refl in Ekd. injection Ekd as <-. apply Hk.
  - exact (L_go N S (qput s q (mk_queue rest (q_getters qu))) t b _ Hc).
Qed.

Lemma exec_op_ms s t b tk o k : (opcancels o \/ k_must tk = true -> forall k, S k Canc) -> cur s = Some (t, b) -> tget s t = Some tk -> Kin s -> opstores N o k ->
  (forall kd, opcreates o kd -> S kd Pending) -> (forall e, opsets s o = Some e -> S (KEv e) (Finished (Ok (VBool true)))) -> ms (coreof s) (coreof (exec_op s t o k)).
Proof.
  intros HS0 Hc Ht HK HN HC HE. assert (HS : k_must tk = true -> forall k, S k Canc) by auto.
  assert (G : forall s' b', rest s' = rest s -> ms (coreof s) (coreof s') -> ms (coreof s) (coreof (go s' t b'))).
  { intros s' b' R M. eapply mstar_trans; [exact M|]. apply (L_go N S s' t b). rewrite (rest_cur _ _ R). exact Hc. }
  assert (G0 : forall s' b', coreof s' = coreof s -> ms (coreof s) (coreof (go s' t b'))).
  { intros s' b' E. rewrite <- E. apply (L_go N S s' t b). unfold coreof in E. congruence. }
  unfold exec_op. destruct o as [f|m|fl| |p|f|f| |e|e|e| |q v|q|q| |h z [|]|l| |].
  - destruct (f (mm s)) as [m r]. now apply G0.
  - now apply G0.
  - now apply G0.
  - eapply L_suspend0; eauto.
  - eapply mstar_trans; [apply L_spawn; [exact HN|apply HC; simpl; eauto]|]. apply (L_go N S _ t b). exact Hc.
  - destruct (fget s f) as [fu|] eqn:Ef; [|now apply G0]. destruct (nameable (f_kind fu)) eqn:En; simpl; [|now apply G0].
    destruct (pending fu) eqn:P; [|now apply G0]. destruct HN as [HN0 HN]. eapply (L_suspend N S s t b tk); eauto.
    + unfold fpending. now rewrite Ef.
    + rewrite Ef. intros kd X. injection X as <-. apply HN. assumption.
  - destruct (fget s f) as [fu|] eqn:Ef; [|now apply G0]. destruct (nameable (f_kind fu)); simpl; [|now apply G0]. apply G.
    + apply rest_cancel.
    + apply L_cancel. apply HS0. left. exact I.
  - now apply G0.
  - unfold opsets in HE. destruct (nth_error (evs s) e) as [ev|] eqn:Ee; [|now apply G0]. destruct (e_priv ev); [now apply G0|].
    eapply mstar_trans; [apply (L_ev_set s e); auto|]. apply (L_go N S _ t b). unfold ev_set. rewrite Ee. destruct (e_val ev); auto.
    match goal with |- cur (fold_left ?h ?l ?s0) = _ => rewrite (rest_cur _ _ (rest_fold h l s0 (fun s a => rest_settle s a _))) end. exact Hc.
  - destruct (nth_error (evs s) e) as [ev|] eqn:Ee; [|now apply G0]. destruct (e_priv ev); [now apply G0|]. apply G0. unfold ev_clear. rewrite Ee. reflexivity.
  - destruct (nth_error (evs s) e) as [ev|] eqn:Ee; [|now apply G0]. destruct (e_val ev); [now apply G0|].
    set (s1 := eput (falloc s (mk_fut Pending [] (KEv e))) e (mk_event false (e_waiters ev ++ [List.length (futs s)]) (e_priv ev))).
    eapply mstar_trans; [apply (L_alloc N S s Pending (KEv e)); auto; apply HC; reflexivity|]. change (coreof (falloc s (mk_fut Pending [] (KEv e)))) with (coreof s1).
    apply (L_suspend N S s1 t b tk); [exact HS|exact Hc|exact (tget_new s _ t tk Ht)|exact (fpending_new s (KEv e))| |].
    + intros X. exfalso. apply (tget_lt _ _ _ Ht). exact X.
    + intros kd Ekd. unfold fget in Ekd. simpl in Ekd. rewrite nth_app_new, Nat.eqb_refl in Ekd. injection Ekd as <-. apply HN.
  - now apply G0.
  - destruct (nth_error (qs s) q) as [qu|] eqn:Eq; [|now apply G0].
    set (s1 := qput s q (mk_queue (q_items qu ++ [v]) (q_getters qu))).
    assert (M : ms (coreof s) (coreof (q_wake s1 q))).
    { change (coreof s) with (coreof s1). apply L_q_wake. intros qu' f E Hf. simpl in E. apply nth_put_any in E as [[_ ->]|[X _]]; [|congruence]. simpl in *. eapply k_qu; eauto. }
    eapply mstar_trans; [exact M|]. apply (L_go N S _ t b). unfold q_wake. destruct (nth_error (qs s1) q) as [qu'|]; [|exact Hc].
    pose proof (rest_wake (q_getters qu') s1) as R. destruct (wake_next s1 (q_getters qu')) as [s2 l]. simpl in R. change (cur s2 = Some (t, b)). rewrite (rest_cur _ _ R). exact Hc.
  - eapply L_q_get; eauto. apply HC. reflexivity.
  - destruct (nth_error (qs s) q); now apply G0.
  - eapply mstar_trans; [apply (L_alloc N S s Pending KTimer); auto; apply HC; reflexivity|]. apply (L_go N S _ t b). exact Hc.
  - now apply G0.
  - now apply G0.
  - set (l' := nodup Nat.eq_dec _). assert (H : forall s0, ms (coreof s) (coreof s0) -> rest s0 = rest s -> forall l g b', ms (coreof s) (coreof (go (fold_left (fun s f => on_done s f (CbCount g)) l s0) t b'))).
    { intros s0 M R l0 g b'. eapply mstar_trans; [exact M|]. eapply mstar_trans; [apply (L_fold N S (fun s f => on_done s f (CbCount g)) l0 s0); intros; apply L_count; apply HC; simpl; eauto|].
      apply (L_go N S _ t b). rewrite (rest_cur _ _ (rest_fold (fun s f => on_done s f (CbCount g)) l0 s0 (fun s a => rest_on_done s a _))). rewrite (rest_cur _ _ R). exact Hc. }
    destruct l' as [|x l'].
    + eapply mstar_trans; [apply (L_alloc N S s (Finished (Ok VNone)) (KGather 0)); auto; apply HC; simpl; eauto|]. apply (L_go N S _ t b). exact Hc.
    + apply H; [|reflexivity]. apply L_alloc; auto. apply HC; simpl; eauto.
  - destruct (clock s); [now apply G0|]. eapply mstar_trans; [apply (L_spawn N S s (start (BClk CInit)) HN); apply HC; now right|]. apply (L_go N S (set_clock (spawn s (start (BClk CInit))) (Some (List.length (futs s)))) t b). exact Hc.
  - now apply G0.
Qed.

Lemma kindof_new0 s k st : kindof (futs (falloc s (mk_fut st [] k))) (List.length (futs s)) = Some k.
Proof. unfold kindof. simpl. rewrite nth_app_new, Nat.eqb_refl. reflexivity. Qed.
Lemma cur_go (s : state) t b : cur (go s t b) = Some (t, b). Proof. reflexivity. Qed.
Lemma ev_set_rest (s : state) e : rest (ev_set s e) = rest s \/ exists ev, nth_error (evs s) e = Some ev /\ rest (ev_set s e) = rest (eput s e (mk_event true (e_waiters ev) (e_priv ev))).
Proof.
  unfold ev_set. destruct (nth_error (evs s) e) as [ev|] eqn:E; [|now left]. destruct (e_val ev); [now left|]. right. exists ev. split; auto.
  apply (rest_fold (fun s f => settle s f (Finished (Ok (VBool true))))). intros. apply rest_settle.
Qed.
Lemma ev_set_cur (s : state) e : cur (ev_set s e) = cur s.
Proof. destruct (ev_set_rest s e) as [R|[ev [_ R]]]; rewrite (rest_cur _ _ R); reflexivity. Qed.

Lemma exec_clk_ms s t b tk c : (c = CCancel \/ k_must tk = true -> forall k, S k Canc) -> cur s = Some (t, b) -> tget s t = Some tk -> Kin s -> stores N (BClk c) ->
  (c = CCancel -> forall n, S (KGather n) Pending) -> (forall l, c = CStep l -> S (KEv 0) (Finished (Ok (VBool true)))) -> ms (coreof s) (coreof (exec_clk shuffle dut delayers s t c)).
Proof.
  intros HS Hc Ht HK HN HC HE. destruct c as [| | |todo sb| | | |last]; cbn [exec_clk stores] in *.
  - destruct (tdone s); [eapply L_go; eauto|]. eapply L_suspend0; eauto.
  - eapply (L_suspend0 N S (set_flag s false)); eauto.
  - destruct (has_unwait s t || flag s); eapply L_go; eauto.
  - destruct todo as [|[h ev] todo]; [|eapply L_go; eauto]. exact (L_go N S (set_mm (set_prio s []) (delayers (mm s))) t b _ Hc).
  - destruct (tdone s) as [[|]|]; eapply L_go; eauto.
  - set (l := shuffle _). set (s1 := fold_left cancel_top l s).
    assert (M : ms (coreof s) (coreof s1)) by (apply (L_fold N S cancel_top); intros; apply L_cancel; auto).
    assert (R : rest s1 = rest s) by (apply rest_fold; intros; apply rest_cancel).
    assert (Hc1 : cur s1 = Some (t, b)) by (rewrite (rest_cur _ _ R); exact Hc).
    destruct (tget_fut _ _ _ Ht) as [st [cbs E]]. destruct (mstar_ext _ _ _ _ M t _ E) as [fu1 [E1 [K1 _]]]. cbn [snd coreof] in E1.
    assert (Ht1 : exists tk1, tget s1 t = Some tk1).
    { unfold tget, fget. rewrite E1. destruct fu1 as [st1 cbs1 kd1]. destruct kd1; simpl in K1; try contradiction. eauto. }
    destruct Ht1 as [tk1 Ht1]. destruct l as [|x l0].
    + eapply mstar_trans; [exact M|]. eapply L_suspend0; eauto. apply (proj2 (proj2 HN)).
    + set (g := List.length (futs s1)). set (s2 := falloc s1 (mk_fut Pending [] (KGather (List.length (x :: l0))))).
      set (s3 := fold_left (fun s f => on_done s f (CbCount g)) (x :: l0) s2).
      assert (M3 : ms (coreof s2) (coreof s3)) by (apply (L_fold N S (fun s f => on_done s f (CbCount g))); intros; apply L_count; auto).
      assert (R3 : rest s3 = rest s2) by (apply (rest_fold (fun s f => on_done s f (CbCount g))); intros; apply rest_on_done).
      assert (P3 : forall l (s' : state), fpending s' g = true -> fpending (fold_left (fun s f => on_done s f (CbCount g)) l s') g = true).
      { induction l as [|y l IH]; intros s' Hp; simpl; auto. apply IH. unfold on_done. destruct (fget s' y) as [fy|] eqn:Ey; auto.
        destruct (pending fy) eqn:Py; auto. unfold fpending, fget in *. simpl. rewrite (put_nth_get _ _ _ _ g Ey). destruct (Nat.eqb g y); auto. }
      eapply mstar_trans; [exact M|]. eapply mstar_trans; [apply (L_alloc N S s1 Pending (KGather (List.length (x :: l0)))); auto|]. fold s2.
      eapply mstar_trans; [exact M3|].
      assert (Ht2 : tget s2 t = Some tk1) by (apply tget_new; exact Ht1).
      destruct (tget_fut _ _ _ Ht2) as [st2 [cbs2 E2]]. destruct (mstar_ext _ _ _ _ M3 t _ E2) as [fu3 [E3 [K3 _]]]. cbn [snd coreof] in E3.
      assert (Ht3 : exists tk3, tget s3 t = Some tk3).
      { unfold tget, fget. rewrite E3. destruct fu3 as [st3 cbs3 kd3]. destruct kd3; simpl in K3; try contradiction. eauto. }
      destruct Ht3 as [tk3 Ht3]. apply (L_suspend N S s3 t b tk3); auto; try (intros _; apply HN).
      * rewrite (rest_cur _ _ R3). exact Hc1.
      * apply P3. apply fpending_new.
      * intros kd Ekd. assert (Kg : kindof (futs s2) g = Some (KGather (List.length (x :: l0)))) by apply kindof_new0.
        unfold kindof in Kg. destruct (nth_error (futs s2) g) as [fg|] eqn:Eg; [|discriminate]. destruct (mstar_ext _ _ _ _ M3 g _ Eg) as [fg' [Eg' [Kg' _]]]. cbn [snd coreof] in Eg'.
        unfold fget in Ekd. rewrite Eg' in Ekd. simpl in Ekd, Kg. injection Ekd as <-. injection Kg as Kg. rewrite Kg in Kg'. destruct (f_kind fg'); simpl in Kg'; try contradiction. apply HN.
  - eapply L_suspend0; eauto.
  - set (s1 := set_mm (set_nstep s (Datatypes.S (nstep s))) (dut (mm s))).
    assert (HK1 : Kin s1) by (destruct HK; constructor; auto).
    assert (M : ms (coreof s1) (coreof (ev_set s1 0))) by (apply L_ev_set; eauto).
    change (coreof s) with (coreof s1). eapply mstar_trans; [exact M|].
    assert (E : coreof (ev_set s1 0) = coreof (ev_clear (ev_set s1 0) 0)) by (unfold ev_clear; destruct (nth_error (evs (ev_set s1 0)) 0); reflexivity).
    rewrite E. apply (L_go N S (ev_clear (ev_set s1 0) 0) t b). unfold coreof in E. injection E as E _ _. rewrite <- E, ev_set_cur. exact Hc.
Qed.

Lemma L_finish s t b cbs k w m r : cur s = Some (t, b) -> fget s t = Some (mkt Pending cbs k w m) -> S (KTask (mk_task k w m)) (final (mk_task k w m) r) -> ms (coreof s) (coreof (finish s t r)).
Proof.
  intros Hc Ht Hs. unfold finish. set (st := match r with Ok v => _ | Exn e => _ end).
  assert (Est : st = final (mk_task k w m) r) by (unfold st, final, tget; rewrite Ht; reflexivity). rewrite <- Est in Hs.
  assert (Hst : st <> Pending) by (rewrite Est; unfold final; destruct r as [v|e]; [destruct (k_must _)|destruct e]; discriminate).
  unfold conclude. rewrite Ht. simpl. apply mstar_one. unfold coreof. simpl. rewrite Hc. now apply m_finish.
Qed.
Lemma exec_body_ms s t b cbs k w m : (cancels s -> forall k, S k Canc) -> (forall tk st, finals s tk st -> S (KTask tk) st) -> (forall k, creates s k -> S k Pending) -> cur s = Some (t, b) -> fget s t = Some (mkt Pending cbs k w m) -> Kin s -> stores N b ->
  (forall e, sets s = Some e -> S (KEv e) (Finished (Ok (VBool true)))) -> ms (coreof s) (coreof (exec_body shuffle dut delayers s t b)).
Proof.
  intros HS HF HC Hc Hf HK HN HE.
  assert (Ht : tget s t = Some (mk_task k w m)) by (unfold tget; rewrite Hf; reflexivity).
  assert (Hm : m = true -> forall k, S k Canc) by (intros ->; apply HS; left; eauto).
  unfold sets in HE. rewrite Hc in HE. unfold cancels in HS. rewrite Hc in HS. unfold finals in HF. rewrite Hc in HF. unfold creates in HC. rewrite Hc in HC.
  destruct b as [[v|e|o kk]|[v|e|o kk] ev todo sb|c|e f r kk|q f [v|e] kk|test|[v|e|o kk]]; cbn [exec_body stores] in *.
  - eapply L_finish; eauto.
  - eapply L_finish; eauto.
  - eapply exec_op_ms; eauto. intros [X|X]; auto.
  - destruct ev as [e|]; [|eapply L_go; eauto].
    assert (HK1 : Kin (set_ran s (ran s ++ [e]))) by (destruct HK; constructor; auto).
    change (coreof s) with (coreof (set_ran s (ran s ++ [e]))). eapply mstar_trans; [apply (L_ev_set _ e); auto|].
    apply (L_go N S _ t (BHook (Ret v) (Some e) todo sb)). rewrite ev_set_cur. exact Hc.
  - eapply L_go; eauto.
  - eapply exec_op_ms; eauto. intros [X|X]; auto.
  - eapply exec_clk_ms; eauto; [intros [->|X]; auto|intros ->; auto|intros l ->; apply HE; reflexivity].
  - destruct (nth_error (evs s) e) as [ev|]; [|eapply L_go; eauto].
    apply (L_go N S (eput s e (mk_event (e_val ev) (remove1 f (e_waiters ev)) (e_priv ev))) t (BEv e f r kk)). exact Hc.
  - apply (L_q_get s t (BGet q f (Ok v) kk) (mk_task k w m)); auto.
  - set (s1 := settle s f Canc). assert (M1 : ms (coreof s) (coreof s1)) by (apply L_settle; [discriminate|intros; apply HS; now right]).
    assert (R1 : rest s1 = rest s) by apply rest_settle.
    set (s2 := match nth_error (qs s1) q with Some qu => _ | None => s1 end).
    assert (E2 : coreof s2 = coreof s1) by (unfold s2; destruct (nth_error (qs s1) q); reflexivity).
    assert (M2 : ms (coreof s) (coreof s2)) by (rewrite E2; exact M1).
    assert (C2 : cur s2 = cur s) by (unfold coreof in E2; injection E2 as E2 _ _; rewrite E2; apply (rest_cur _ _ R1)).
    set (s3 := match nth_error (qs s2) q with Some qu => _ | None => s2 end).
    assert (M3 : ms (coreof s) (coreof s3) /\ cur s3 = cur s).
    { assert (D : s3 = s2 \/ s3 = q_wake s2 q).
      { unfold s3. destruct (nth_error (qs s2) q) as [qu|]; [|now left]. destruct (fget s2 f) as [fu|]; [|now left]. destruct (q_items qu); [now left|]. destruct (f_st fu); auto. }
      destruct D as [->| ->]; [auto|]. split.
      - eapply mstar_trans; [exact M2|]. apply L_q_wake. intros qu g Eq Hg.
        assert (Hg' : exists qu0, nth_error (qs s) q = Some qu0 /\ In g (q_getters qu0)).
        { unfold s2 in Eq. rewrite (rest_qs _ _ R1) in Eq. destruct (nth_error (qs s) q) as [qu0|] eqn:Eq0.
          - simpl in Eq. apply nth_put_any in Eq as [[_ ->]|[X _]]; [|congruence]. simpl in Hg. unfold remove1 in Hg. apply filter_In in Hg as [Hg _]. eauto.
          - rewrite (rest_qs _ _ R1), Eq0 in Eq. discriminate. }
        destruct Hg' as [qu0 [Eq0 Hg0]]. eapply kindof_ext; [exact (ms_ext _ _ M2)|reflexivity|]. eapply k_qu; eauto.
      - unfold q_wake. destruct (nth_error (qs s2) q) as [qu|]; [|exact C2]. pose proof (rest_wake (q_getters qu) s2) as R. destruct (wake_next s2 (q_getters qu)) as [s4 l].
        simpl in R. change (cur s4 = cur s). rewrite (rest_cur _ _ R). exact C2. }
    destruct M3 as [M3 C3]. eapply mstar_trans; [exact M3|]. apply (L_go N S s3 t (BGet q f (Exn e) kk)). rewrite C3. exact Hc.
  - apply (L_go N S (set_flag (set_tdone s (Some false)) false) t (BMain test)). exact Hc.
  - change (coreof s) with (coreof (set_tdone s (Some true))). destruct (clock s).
    + apply (exec_op_ms (set_tdone s (Some true)) t (BTest (Ret v)) (mk_task k w m)); auto; try discriminate; [intros [X|X]; [destruct X|auto]|destruct HK; constructor; auto|intros [] X; simpl in X; try discriminate; try contradiction; [injection X as <-; apply HC; reflexivity|destruct X; discriminate|destruct X as [[p X]|X]; discriminate]].
    + apply (L_finish (set_tdone s (Some true)) t (BTest (Ret v)) cbs k w m); auto.
  - eapply L_finish; eauto.
  - eapply exec_op_ms; eauto. intros [X|X]; auto.
Qed.

Lemma fire1_ms s f : resumes S \/ S (KGather 0) Pending -> ms (coreof s) (coreof (fire1 s f)).
Proof.
  intros HR. unfold fire1. destruct (fget s f) as [[st cbs []]|] eqn:E; try constructor.
  econstructor; [|eapply mstar_one].
  - eapply m_kind; [exact E| |exact HR]. instantiate (1 := KFired). exact I.
  - unfold coreof. simpl. apply m_push. exists st, cbs. unfold fget in E. rewrite (put_nth_get _ _ _ _ f E), Nat.eqb_refl. reflexivity.
Qed.
Lemma fire1_rest (s : state) f : rest (fire1 s f) = rest s.
Proof. unfold fire1. destruct (fget s f) as [[st cbs []]|] eqn:E; reflexivity. Qed.
End Fn.

Lemma cur_live c (I : Inv c) t b : fst (fst c) = Some (t, b) -> exists cbs k m, nth_error (snd c) t = Some (@mkt mem Pending cbs k None m).
Proof.
  intros H. pose proof (i_cnt _ I t) as E. rewrite H in E. simpl in E. rewrite Nat.eqb_refl in E. destruct (islive (snd c) t) eqn:L; [|lia].
  destruct (live_task _ _ L) as [cbs [k [w [m X]]]]. pose proof (i_cur _ I _ _ H) as W. rewrite (waitof_task _ _ _ _ _ _ _ X) in W. injection W as ->. eauto.
Qed.
Lemma handle_live c (I : Inv c) h t : In h (snd (fst c)) -> owner h = Some t -> exists cbs k w m, nth_error (snd c) t = Some (@mkt mem Pending cbs k w m).
Proof.
  intros H Ho. pose proof (i_cnt _ I t) as E. pose proof (cnth_In _ _ _ H Ho). destruct (islive (snd c) t) eqn:L; [|lia]. now apply live_task.
Qed.
Theorem step_core N fire s : Inv (coreof s) -> Kin s -> (forall t b, cur s = Some (t, b) -> stores N b) ->
  mstar N (Sof s) (coreof s) (coreof (step fire s)).
Proof.
  intros I HK HN. unfold Loop_Model.step. destruct (cur s) as [[t b]|] eqn:Hc.
  - destruct (cur_live _ I t b Hc) as [cbs [k [m E]]]. eapply (exec_body_ms N (Sof s)); eauto.
    + intros q. right. right. reflexivity.
    + intros X k0. now left.
    + intros tk st X. right. now right.
    + intros k0 X. right. now left.
    + intros e He. right. right. split; auto.
  - destruct (batch s) as [|n].
    + destruct (stopping s); [constructor|]. change (coreof (set_batch (fold_left fire1 fire s) (List.length (ready (fold_left fire1 fire s))))) with (coreof (fold_left fire1 fire s)).
      apply L_fold. intros. apply fire1_ms. left. exact Hc.
    + destruct (ready s) as [|h r] eqn:Hr; [constructor|]. set (s0 := set_batch (set_ready s r) n).
      assert (Ho : forall t, owner h = Some t -> mstar N (Sof s) (coreof s) (coreof (resume s0 t (hres (futs s) h)))).
      { intros t Ho. assert (Hin : In h (snd (fst (coreof s)))) by (simpl; rewrite Hr; now left).
        destruct (handle_live _ I h t Hin Ho) as [cbs [k [w [m E]]]]. simpl in E. apply mstar_one. unfold resume, tget, fget, s0. simpl. rewrite E. unfold coreof. simpl.
        unfold tput, fget. simpl. rewrite E. simpl. rewrite Hr, Hc. eapply m_resume; eauto. }
      destruct h as [t|t e|t f|g| |f]; cbn [run_handle].
      * apply (Ho t eq_refl).
      * apply (Ho t eq_refl).
      * apply (Ho t eq_refl).
      * apply ms_step with (c1 := coreof s0). { unfold coreof. rewrite Hr. apply m_pop; [reflexivity|exact Hc]. }
        destruct (fget s0 g) as [[st cbs []]|] eqn:E; try constructor. destruct need as [|n']; [constructor|].
        set (s1 := fput s0 g (mk_fut st cbs (KGather n'))).
        assert (M : mstar N (Sof s) (coreof s0) (coreof s1)) by (apply mstar_one; unfold coreof; simpl; eapply m_kind; [exact E|exact Logic.I|left; exact Hc]).
        destruct n'; [|exact M]. eapply mstar_trans; [exact M|]. apply L_settle; [discriminate|]. intros fu Ef _ _. right. right.
        unfold s1, fget in Ef. simpl in Ef. unfold fget, s0 in E. simpl in E. rewrite (put_nth_get _ _ _ _ g E), Nat.eqb_refl in Ef. injection Ef as <-. split; [exact Hc|reflexivity].
      * apply mstar_one. unfold coreof. simpl. rewrite Hr. apply m_pop; [reflexivity|exact Hc].
      * apply ms_step with (c1 := coreof s0). { unfold coreof. rewrite Hr. apply m_pop; [reflexivity|exact Hc]. }
        apply L_settle; [discriminate|]. intros fu Ef _ _. right. right. assert (T : kindof (futs s) f = Some KFired) by (apply (k_ti s HK); rewrite Hr; now left).
        unfold kindof in T. unfold fget in Ef. simpl in Ef. rewrite Ef in T. simpl in T. injection T as ->. reflexivity.
Qed.

(** * Frames *)
Definition frame (s : state) : state := set_stopping (set_batch (set_cur (rest s) None) 0) false.
Lemma frame_rest (s s' : state) : rest s = rest s' -> frame s = frame s'. Proof. unfold frame. now intros ->. Qed.
Lemma frame_evs (s s' : state) : frame s = frame s' -> evs s = evs s'. Proof. intros H. change (evs (frame s) = evs (frame s')). now rewrite H. Qed.
Lemma frame_qs (s s' : state) : frame s = frame s' -> qs s = qs s'. Proof. intros H. change (qs (frame s) = qs (frame s')). now rewrite H. Qed.
Lemma frame_suspend0 (s : state) t k : frame (suspend0 s t k) = frame s.
Proof. unfold suspend0. destruct (tget s t); [|reflexivity]. rewrite <- (frame_rest _ _ (rest_tput s t (mk_task k None (k_must t0)))). reflexivity. Qed.
Lemma frame_suspend (s : state) t f k : frame (suspend s t f k) = frame s.
Proof.
  unfold suspend. destruct (tget s t) as [tk|]; [|reflexivity]. destruct (Nat.eqb t f).
  - rewrite <- (frame_rest _ _ (rest_tput s t (mk_task k None (k_must tk)))). reflexivity.
  - set (s1 := set_cur (on_done (tput s t (mk_task k (Some f) (k_must tk))) f (CbWake t)) None).
    assert (F1 : frame s1 = frame s).
    { transitivity (frame (tput s t (mk_task k (Some f) (k_must tk)))); [|apply frame_rest, rest_tput].
      rewrite <- (frame_rest _ _ (rest_on_done (tput s t (mk_task k (Some f) (k_must tk))) f (CbWake t))). reflexivity. }
    destruct (k_must tk); [|exact F1]. pose proof (rest_cancel (List.length (futs s1)) s1 f) as R. destruct (cancel _ s1 f) as [s2 ok]. simpl in R. apply frame_rest in R.
    rewrite F1 in R. destruct ok; [|exact R]. destruct (tget s2 t); [|exact R]. now rewrite (frame_rest _ _ (rest_tput s2 t _)).
Qed.
Lemma frame_spawn (s : state) k : frame (spawn s k) = frame s. Proof. reflexivity. Qed.

(** * Kinds are kept *)
Lemma True_ms_kin fire s : Inv (coreof s) -> Kin s -> mstar (fun _ _ => True) (Sof s) (coreof s) (coreof (step fire s)).
Proof.
  intros I K. apply step_core; auto. intros t b _. destruct b as [[]|[]|[]|e f r|q f []| |[]]; simpl; auto; destruct o; simpl; auto.
Qed.
Definition evk (E : list event) (F : list fut) : Prop := forall e ev f, nth_error E e = Some ev -> In f (e_waiters ev) -> kindof F f = Some (KEv e).
Definition quk (Q : list queue) (F : list fut) : Prop := forall q qu f, nth_error Q q = Some qu -> In f (q_getters qu) -> kindof F f = Some (KQueue q).
Lemma evk_ext E F F' : fext F F' -> evk E F -> evk E F'.
Proof. intros X H e ev f He Hf. eapply kindof_ext; eauto. Qed.
Lemma quk_ext E F F' : fext F F' -> quk E F -> quk E F'.
Proof. intros X H e ev f He Hf. eapply kindof_ext; eauto. Qed.
Lemma evk_put E F e ev : evk E F -> (forall f, In f (e_waiters ev) -> kindof F f = Some (KEv e)) -> evk (put_nth e ev E) F.
Proof. intros H H1 e' ev' f He Hf. apply nth_put_any in He as [[-> ->]|[_ He]]; eauto. Qed.
Lemma quk_put E F e ev : quk E F -> (forall f, In f (q_getters ev) -> kindof F f = Some (KQueue e)) -> quk (put_nth e ev E) F.
Proof. intros H H1 e' ev' f He Hf. apply nth_put_any in He as [[-> ->]|[_ He]]; eauto. Qed.
Lemma evk_new E F b : evk E F -> evk (E ++ [mk_event false [] b]) F.
Proof. intros H e ev f He Hf. rewrite nth_app_new in He. destruct (Nat.eqb e (List.length E)); [|eauto]. injection He as <-. destruct Hf. Qed.
Lemma quk_new E F : quk E F -> quk (E ++ [mk_queue [] []]) F.
Proof. intros H e ev f He Hf. rewrite nth_app_new in He. destruct (Nat.eqb e (List.length E)); [|eauto]. injection He as <-. destruct Hf. Qed.
Lemma kindof_new (s : state) k st : kindof (futs (falloc s (mk_fut st [] k))) (List.length (futs s)) = Some k.
Proof. unfold kindof. simpl. rewrite nth_app_new, Nat.eqb_refl. reflexivity. Qed.
Notation anyN := (fun _ _ => True). Notation anyS := (mk_perm (fun _ _ => True) True).
Lemma suspend_ext s t b tk f k : cur s = Some (t, b) -> tget s t = Some tk -> fpending s f = true -> fext (futs s) (futs (suspend s t f k)).
Proof. intros. apply (mstar_ext anyN anyS (coreof s) (coreof (suspend s t f k))). eapply L_suspend; eauto; intros; exact I. Qed.

Lemma ev_set_evs (s : state) e : evs (ev_set s e) = evs s \/ exists ev, nth_error (evs s) e = Some ev /\ evs (ev_set s e) = put_nth e (mk_event true (e_waiters ev) (e_priv ev)) (evs s).
Proof. destruct (ev_set_rest s e) as [R|[ev [E R]]]; rewrite (rest_evs _ _ R); eauto. Qed.
Lemma ev_set_qs (s : state) e : qs (ev_set s e) = qs s.
Proof. destruct (ev_set_rest s e) as [R|[ev [E R]]]; rewrite (rest_qs _ _ R); reflexivity. Qed.
Lemma ev_set_evk s e F : evk (evs s) F -> evk (evs (ev_set s e)) F.
Proof. intros H. destruct (ev_set_evs s e) as [->|[ev [E ->]]]; auto. apply evk_put; auto. intros f Hf. simpl in Hf. eapply H; eauto. Qed.
Lemma ev_clear_evk (s : state) e F : evk (evs s) F -> evk (evs (ev_clear s e)) F.
Proof. intros H. unfold ev_clear. destruct (nth_error (evs s) e) as [ev|] eqn:E; auto. simpl. apply evk_put; auto. intros f Hf. simpl in Hf. eapply H; eauto. Qed.
Lemma wake_sub l (s : state) f : In f (snd (wake_next s l)) -> In f l.
Proof. revert s. induction l as [|g l IH]; intros s; simpl; auto. destruct (fpending s g); simpl; auto. intros H. right. eapply IH; eauto. Qed.
Lemma q_wake_quk s q F : quk (qs s) F -> quk (qs (q_wake s q)) F.
Proof.
  intros H. unfold q_wake. destruct (nth_error (qs s) q) as [qu|] eqn:E; auto. pose proof (rest_wake (q_getters qu) s) as R.
  pose proof (wake_sub (q_getters qu) s) as W. destruct (wake_next s (q_getters qu)) as [s1 l]. simpl in *. rewrite (rest_qs _ _ R). apply quk_put; auto.
  intros f Hf. simpl in Hf. eapply H; eauto.
Qed.
Lemma q_wake_evs (s : state) q : evs (q_wake s q) = evs s.
Proof. unfold q_wake. destruct (nth_error (qs s) q) as [qu|]; auto. pose proof (rest_wake (q_getters qu) s) as R. destruct (wake_next s (q_getters qu)) as [s1 l]. apply (rest_evs _ _ R). Qed.

Lemma q_get_kin s t b tk q k F' : cur s = Some (t, b) -> tget s t = Some tk -> evk (evs s) F' -> quk (qs s) F' -> F' = futs (q_get s t q k) ->
  evk (evs (q_get s t q k)) F' /\ quk (qs (q_get s t q k)) F'.
Proof.
  intros Hc Ht HE HQ EF. unfold q_get in *. destruct (nth_error (qs s) q) as [qu|] eqn:Eq; [|now split]. destruct (q_items qu) as [|v r].
  - set (s1 := qput (falloc s (mk_fut Pending [] (KQueue q))) q (mk_queue [] (q_getters qu ++ [List.length (futs s)]))) in *.
    match goal with |- context [suspend s1 t ?f ?kk] => pose proof (frame_suspend s1 t f kk) as Fr; assert (X : fext (futs s1) F') by (rewrite EF; apply (suspend_ext s1 t b tk); [exact Hc|exact (tget_new s _ t tk Ht)|exact (fpending_new s (KQueue q))]) end.
    rewrite (frame_evs _ _ Fr), (frame_qs _ _ Fr). split; [exact HE|]. simpl. apply quk_put; auto. intros f Hf. simpl in Hf. apply in_app_or in Hf as [Hf|[<-|[]]]; [eapply HQ; eauto|].
    eapply kindof_ext; [exact X|reflexivity|]. apply (kindof_new s).
  - split; [exact HE|]. simpl. apply quk_put; auto. intros f Hf. simpl in Hf. eapply HQ; eauto.
Qed.
Lemma exec_op_kin s t b tk o k F' : cur s = Some (t, b) -> tget s t = Some tk -> evk (evs s) F' -> quk (qs s) F' -> F' = futs (exec_op s t o k) ->
  evk (evs (exec_op s t o k)) F' /\ quk (qs (exec_op s t o k)) F'.
Proof.
  intros Hc Ht HE HQ EF.
  assert (G : forall s', frame s' = frame s -> evk (evs s') F' /\ quk (qs s') F') by (intros s' Fr; rewrite (frame_evs _ _ Fr), (frame_qs _ _ Fr); auto).
  unfold exec_op in *. destruct o as [f|m|fl| |p|f|f| |e|e|e| |q v|q|q| |h z [|]|l| |].
  - destruct (f (mm s)) as [m r]. now split.
  - now split.
  - now split.
  - apply G, frame_suspend0.
  - now split.
  - destruct (fget s f) as [fu|] eqn:Ef; [|now split]. destruct (nameable (f_kind fu)); simpl in *; [|now split]. destruct (pending fu); [|now split]. apply G, frame_suspend.
  - destruct (fget s f) as [fu|] eqn:Ef; [|now split]. destruct (nameable (f_kind fu)); simpl in *; [|now split]. apply G. exact (frame_rest _ _ (rest_cancel _ s f)).
  - split; auto. simpl. now apply evk_new.
  - destruct (nth_error (evs s) e) as [ev|] eqn:Ee; [|now split]. destruct (e_priv ev); [now split|]. simpl. rewrite ev_set_qs. split; auto. now apply ev_set_evk.
  - destruct (nth_error (evs s) e) as [ev|] eqn:Ee; [|now split]. destruct (e_priv ev); [now split|]. split; [now apply ev_clear_evk|]. unfold ev_clear. now rewrite Ee.
  - destruct (nth_error (evs s) e) as [ev|] eqn:Ee; [|now split]. destruct (e_val ev); [now split|].
    set (s1 := eput (falloc s (mk_fut Pending [] (KEv e))) e (mk_event false (e_waiters ev ++ [List.length (futs s)]) (e_priv ev))) in *.
    match goal with |- context [suspend s1 t ?f ?kk] => pose proof (frame_suspend s1 t f kk) as Fr; assert (X : fext (futs s1) F') by (rewrite EF; apply (suspend_ext s1 t b tk); [exact Hc|exact (tget_new s _ t tk Ht)|exact (fpending_new s (KEv e))]) end.
    rewrite (frame_evs _ _ Fr), (frame_qs _ _ Fr). split; [|exact HQ]. simpl. apply evk_put; auto. intros f Hf. simpl in Hf. apply in_app_or in Hf as [Hf|[<-|[]]]; [eapply HE; eauto|].
    eapply kindof_ext; [exact X|reflexivity|]. apply (kindof_new s).
  - split; auto. simpl. now apply quk_new.
  - destruct (nth_error (qs s) q) as [qu|] eqn:Eq; [|now split]. simpl. rewrite q_wake_evs. split; auto. apply q_wake_quk. simpl. apply quk_put; auto. intros f Hf. eapply HQ; eauto.
  - eapply q_get_kin; eauto.
  - destruct (nth_error (qs s) q); now split.
  - now split.
  - split; auto. simpl. now apply evk_new.
  - now split.
  - destruct (nodup _ _) as [|x l']; [now split|]. apply G.
    match goal with |- frame (go (fold_left ?h ?ll ?s0) _ _) = _ => transitivity (frame (fold_left h ll s0)); [reflexivity|rewrite (frame_rest _ _ (rest_fold h ll s0 (fun s a => rest_on_done s a _)))] end. reflexivity.
  - destruct (clock s); now split.
  - now split.
Qed.
Lemma step_kin fire s : Inv (coreof s) -> Kin s -> Kin (step fire s).
Proof.
  intros I K. pose proof (True_ms_kin fire s I K) as M. pose proof (mstar_ext _ _ _ _ M) as X. cbn [snd coreof] in X.
  assert (T : Tim (coreof (step fire s))) by (apply (mstar_tim _ _ _ _ M); exact (k_ti s K)).
  assert (HE : evk (evs s) (futs (step fire s))) by (apply (evk_ext _ _ _ X); exact (k_ev s K)).
  assert (HQ : quk (qs s) (futs (step fire s))) by (apply (quk_ext _ _ _ X); exact (k_qu s K)).
  assert (Z : evk (evs (step fire s)) (futs (step fire s)) /\ quk (qs (step fire s)) (futs (step fire s))); [|destruct Z as [Z1 Z2]; constructor; [exact Z1|exact Z2|exact T]].
  assert (G : forall s', frame s' = frame s -> evk (evs s') (futs (step fire s)) /\ quk (qs s') (futs (step fire s))) by (intros s' Fr; rewrite (frame_evs _ _ Fr), (frame_qs _ _ Fr); auto).
  assert (HT : forall t b, cur s = Some (t, b) -> exists tk, tget s t = Some tk).
  { intros t b Hc. destruct (cur_live _ I t b Hc) as [cbs [k [m E]]]. exists (mk_task k None m). unfold tget, fget. cbn [snd coreof] in E. now rewrite E. }
  clear M X T I K. unfold Loop_Model.step in *. destruct (cur s) as [[t b]|] eqn:Hc.
  - destruct (HT t b eq_refl) as [tk Ht]. clear HT.
    destruct b as [[v|e|o kk]|[v|e|o kk] ev todo sb|c|e f r kk|q f [v|e] kk|test|[v|e|o kk]]; cbn [exec_body] in *.
    + apply G. unfold finish, conclude. destruct (fget s t) as [fu|]; [|reflexivity]. destruct (pending fu); reflexivity.
    + apply G. unfold finish, conclude. destruct (fget s t) as [fu|]; [|reflexivity]. destruct (pending fu); reflexivity.
    + eapply exec_op_kin; eauto.
    + destruct ev as [e|]; [|now split]. simpl. rewrite ev_set_qs. split; auto. now apply (ev_set_evk (set_ran s (ran s ++ [e]))).
    + now split.
    + eapply exec_op_kin; eauto.
    + destruct c as [| | |todo sb| | | |last]; cbn [exec_clk] in *.
      * destruct (tdone s); [now split|]. apply G, frame_suspend0.
      * match goal with |- context [suspend0 ?s0 ?t ?k] => pose proof (frame_suspend0 s0 t k) as Fr end. rewrite (frame_evs _ _ Fr), (frame_qs _ _ Fr). now split.
      * destruct (has_unwait s t || flag s); now split.
      * destruct todo as [|[h ev] todo]; now split.
      * now split.
      * set (l := shuffle _) in *. set (s1 := fold_left cancel_top l s) in *.
        assert (R : rest s1 = rest s) by (apply rest_fold; intros; apply rest_cancel). apply G. apply frame_rest in R. destruct l as [|x l0].
        -- now rewrite frame_suspend0.
        -- rewrite frame_suspend. etransitivity; [apply frame_rest, (rest_fold (fun s f => on_done s f (CbCount (List.length (futs s1))))); intros; apply rest_on_done|]. exact R.
      * apply G, frame_suspend0.
      * simpl. set (s1 := set_mm _ _) in *. split.
        -- apply ev_clear_evk, ev_set_evk. exact HE.
        -- assert (EQ : qs (ev_clear (ev_set s1 0) 0) = qs s) by (unfold ev_clear; destruct (nth_error (evs (ev_set s1 0)) 0); simpl; rewrite ev_set_qs; reflexivity).
           rewrite EQ. exact HQ.
    + destruct (nth_error (evs s) e) as [ev|] eqn:Ee; [|now split]. split; [|exact HQ]. simpl. apply evk_put; auto. intros g Hg. simpl in Hg. unfold remove1 in Hg. apply filter_In in Hg as [Hg _]. eapply HE; eauto.
    + eapply q_get_kin; eauto.
    + set (s1 := settle s f Canc) in *. assert (R1 : rest s1 = rest s) by apply rest_settle.
      set (s2 := match nth_error (qs s1) q with Some qu => _ | None => s1 end) in *.
      assert (E2 : evs s2 = evs s) by (unfold s2; destruct (nth_error (qs s1) q); apply (rest_evs _ _ R1)).
      assert (Q2 : quk (qs s2) (futs (go (match nth_error (qs s2) q, fget s2 f with Some qu, Some fu => match q_items qu, f_st fu with _ :: _, Finished _ => q_wake s2 q | _, _ => s2 end | _, _ => s2 end) t (kk (Exn e))))).
      { set (F' := futs _) in *. clearbody F'. unfold s2. rewrite (rest_qs _ _ R1). destruct (nth_error (qs s) q) as [qu|] eqn:Eq; [|now rewrite (rest_qs _ _ R1)].
        simpl. rewrite (rest_qs _ _ R1). apply quk_put; auto. intros g Hg. simpl in Hg. unfold remove1 in Hg. apply filter_In in Hg as [Hg _]. eapply HQ; eauto. }
      set (F' := futs _) in *. clearbody F'. simpl. destruct (nth_error (qs s2) q) as [qu|]; [|rewrite E2; now split]. destruct (fget s2 f) as [fu|]; [|rewrite E2; now split].
      destruct (q_items qu); [rewrite E2; now split|]. destruct (f_st fu); try (rewrite E2; now split). rewrite q_wake_evs, E2. split; auto. now apply q_wake_quk.
    + now split.
    + destruct (clock s).
      * apply (exec_op_kin (set_tdone s (Some true)) t (BTest (Ret v)) tk (OEvWait 0) (fun r => BProg (match r with Ok _ => Ret v | Exn e => Raise e end))); auto.
      * unfold finish, conclude in *. destruct (fget (set_tdone s (Some true)) t) as [fu|]; [|now split]. destruct (pending fu); now split.
    + apply G. unfold finish, conclude. destruct (fget s t) as [fu|]; [|reflexivity]. destruct (pending fu); reflexivity.
    + eapply exec_op_kin; eauto.
  - clear HT. destruct (batch s) as [|n].
    + destruct (stopping s); [now split|]. apply G. transitivity (frame (fold_left fire1 fire s)); [reflexivity|]. apply frame_rest, rest_fold. intros; apply fire1_rest.
    + destruct (ready s) as [|h r]; [now split|]. apply G. set (s0 := set_batch (set_ready s r) n).
      assert (Z : forall t x, frame (resume s0 t x) = frame s).
      { intros t x. unfold resume. destruct (tget s0 t) as [tk|]; [|reflexivity]. transitivity (frame (tput s0 t (mk_task (k_cont tk) None false))); [reflexivity|].
        rewrite (frame_rest _ _ (rest_tput s0 t _)). reflexivity. }
      destruct h as [t|t e|t f|g| |f]; cbn [run_handle]; [apply Z|apply Z|apply Z| | |].
      * destruct (fget s0 g) as [[st cbs []]|]; try reflexivity. destruct need as [|[|n']]; try reflexivity. rewrite (frame_rest _ _ (rest_settle (fput s0 g (mk_fut st cbs (KGather 0))) g _)). reflexivity.
      * reflexivity.
      * rewrite (frame_rest _ _ (rest_settle s0 f _)). reflexivity.
Qed.
(** * Reachable states *)
Lemma steps_trans (s1 s2 s3 : state) : steps s1 s2 -> steps s2 s3 -> steps s1 s3.
Proof. intros H1 H2. induction H2; auto. apply steps_step; auto. Qed.
Lemma steps_ind_inv (P : state -> Prop) s s' : (forall fire s, P s -> P (step fire s)) -> steps s s' -> P s -> P s'.
Proof. intros H X. induction X; auto. Qed.
Definition Wf s : Prop := Inv (coreof s) /\ Kin s.
Lemma step_wf fire s : Wf s -> Wf (step fire s).
Proof. intros [I K]. split; [|now apply step_kin]. eapply mstar_Inv; [apply (True_ms_kin fire s); auto|exact I]. Qed.
Lemma init_wf test m : Wf (init test m).
Proof.
  clear shuffle dut delayers.
  split.
  - constructor; cbn [init coreof fst snd cur ready futs].
    + intros [|t]; cbn; [reflexivity|]. unfold islive. simpl. now destruct t.
    + intros t [H|[]]. injection H as <-. reflexivity.
    + intros t e [H|[]]. discriminate.
    + intros t f [H|[]]. discriminate.
    + intros t [|[|f]] fu H; simpl in H; try discriminate. injection H as <-. simpl. intros [H|[]]. discriminate.
    + intros [|[|f]] fu H; simpl in H; try discriminate. injection H as <-. discriminate.
    + discriminate.
  - constructor; cbn [init evs qs ready futs].
    + intros [|[|e]] ev f H; simpl in H; try discriminate. injection H as <-. simpl. tauto.
    + intros [|q] qu f H; discriminate.
    + intros f [H|[]]. discriminate.
Qed.
Lemma steps_wf s s' : steps s s' -> Wf s -> Wf s'.
Proof. apply (steps_ind_inv Wf). intros; now apply step_wf. Qed.
Lemma reach_wf test m s : steps (init test m) s -> Wf s.
Proof. intros H. apply (steps_wf _ _ H), init_wf. Qed.
End Step.
