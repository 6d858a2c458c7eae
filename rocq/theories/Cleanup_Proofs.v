(** Lemmas about the cleanup after the main coroutine. *)
From Coq Require Import List Bool Arith ZArith Lia Permutation.
From Verif Require Import Py Prio_Model Loop_Model Loop_Spec Loop2_Spec Loop3_Spec LoopProg_Model Loop_Proofs Loop2_Proofs Loop3_Proofs Loop4_Proofs Loop5_Proofs Loop6_Proofs Loop7_Proofs Loop8_Proofs Loop9_Proofs Loop10_Proofs Loop13_Proofs Loop17_Proofs Loop20_Proofs Loop21_Proofs Loop22_Proofs Loop23_Proofs MainEnv_Model MainEnv_Proofs Live_Proofs P_Until Cleanup_Model Cleanup_Spec.
Import ListNotations.
Open Scope nat_scope.

Section Must.
Context {mem : Type} (shuffle : list id -> list id) (dut delayers : mem -> mem).
Notation state := (@state mem). Notation prog := (@prog mem). Notation body := (@body mem).
Notation step := (step shuffle dut delayers).
Implicit Types (s : state).
(** * A task that is to be cancelled remains so until it is resumed *)
Context (c : id).
Definition MT (F : list (@fut mem)) : Prop := exists st cbs k w, nth_error F c = Some (mkt st cbs k w true).
Lemma mt_put F i x a : nth_error F i = Some x -> MT F -> (i = c -> exists st cbs k w, a = mkt st cbs k w true) -> MT (put_nth i a F).
Proof. intros E M H. unfold MT. rewrite (put_nth_get _ _ _ _ c E). destruct (Nat.eqb_spec c i) as [->|]; [|exact M]. destruct (H eq_refl) as [st [cbs [k [w ->]]]]. eauto 10. Qed.
Lemma mt_app F x : MT F -> MT (F ++ [x]).
Proof. intros [st [cbs [k [w E]]]]. exists st, cbs, k, w. rewrite nth_error_app1; auto. apply nth_error_Some. congruence. Qed.
Lemma mt_same F i st cbs kd st' cbs' : nth_error F i = Some (mk_fut st cbs kd) -> MT F -> MT (put_nth i (mk_fut st' cbs' kd) F).
Proof. intros E M. eapply mt_put; eauto. intros ->. destruct M as [st1 [cbs1 [k [w X]]]]. rewrite E in X. injection X as _ _ ->. unfold mkt. eauto 10. Qed.
Lemma mt_other F i st cbs kd a : nth_error F i = Some (mk_fut st cbs kd) -> is_task kd = false -> MT F -> MT (put_nth i a F).
Proof. intros E T M. eapply mt_put; eauto. intros ->. destruct M as [st1 [cbs1 [k [w X]]]]. rewrite E in X. injection X as _ _ ->. discriminate. Qed.
Notation P s := (MT (futs s)).
Lemma mt_on_done s f cb : P s -> P (on_done s f cb).
Proof. intros H. unfold on_done. destruct (fget s f) as [[st cbs kd]|] eqn:E; auto. destruct (pending _); auto. cbn [fput set_futs futs]. eapply mt_same; eauto. Qed.
Lemma mt_conclude s f st : P s -> P (conclude s f st).
Proof. intros H. unfold conclude. destruct (fget s f) as [[st0 cbs kd]|] eqn:E; auto. destruct (pending _); auto. cbn [push set_ready fput set_futs futs]. eapply mt_same; eauto. Qed.
Lemma mt_settle s f st : P s -> P (settle s f st).
Proof. intros H. unfold settle. destruct (fget s f); auto. destruct (is_task _); auto. now apply mt_conclude. Qed.
Lemma mt_get s tk : P s -> tget s c = Some tk -> k_must tk = true.
Proof. intros [st [cbs [k [w E]]]] T. unfold tget, fget in T. rewrite E in T. injection T as <-. reflexivity. Qed.
Lemma mt_tput s t tk : P s -> (t = c -> k_must tk = true) -> P (tput s t tk).
Proof.
  intros H M. unfold tput. destruct (fget s t) as [fu|] eqn:E; auto. cbn [fput set_futs futs]. eapply mt_put; eauto. intros ->. destruct tk as [k w m]. cbn in M. rewrite (M eq_refl). unfold mkt. eauto 10.
Qed.
Lemma mt_cancel n : forall s f, P s -> P (fst (cancel n s f)).
Proof.
  induction n as [|n IH]; intros s f H; simpl; destruct (fget s f) as [fu|] eqn:E; auto; destruct (pending fu) eqn:Pe; auto; destruct (f_kind fu) as [| | | | |tk] eqn:K; simpl; try (now apply mt_settle).
  - destruct (k_wait tk); simpl; now apply mt_tput.
  - destruct (k_wait tk) as [g|]; simpl; [|now apply mt_tput]. pose proof (IH s g H) as X. destruct (cancel n s g) as [s1 []]; simpl in *; auto. now apply mt_tput.
Qed.
Lemma mt_suspend0 s t k : P s -> P (suspend0 s t k).
Proof. intros H. unfold suspend0. destruct (tget s t) as [tk|] eqn:T; auto. cbn [set_cur push set_ready futs]. apply mt_tput; auto. intros ->. cbn [k_must]. exact (mt_get s tk H T). Qed.
Lemma mt_suspend s t f k : t <> c -> P s -> P (suspend s t f k).
Proof.
  intros N H. unfold suspend. destruct (tget s t) as [tk|] eqn:T; auto. destruct (Nat.eqb t f); [cbn [set_cur push set_ready futs]; apply mt_tput; auto; try congruence|]. cbv zeta.
  set (s1 := set_cur _ _). assert (P1 : P s1) by (unfold s1; cbn [set_cur futs]; apply mt_on_done, mt_tput; auto; try congruence). destruct (k_must tk); [|exact P1].
  pose proof (mt_cancel (List.length (futs s1)) s1 f P1) as P2. destruct (cancel _ s1 f) as [s2 []]; [|exact P2]. cbn [fst] in P2. destruct (tget s2 t) as [tk'|]; auto. apply mt_tput; auto; try congruence.
Qed.
Lemma mt_falloc s x : P s -> P (falloc s x).
Proof. intros H. unfold falloc. cbn [set_futs futs]. now apply mt_app. Qed.
Lemma mt_spawn s k : P s -> P (spawn s k).
Proof. intros H. unfold spawn. cbn [push set_ready falloc set_futs futs]. now apply mt_app. Qed.
Lemma mt_fold {A} (h : state -> A -> state) l : (forall s a, P s -> P (h s a)) -> forall s, P s -> P (fold_left h l s).
Proof. intros Hh. induction l as [|a l IH]; intros s H; cbn [fold_left]; auto. Qed.
Lemma mt_ev_set s e : P s -> P (ev_set s e).
Proof. intros H. unfold ev_set. destruct (nth_error (evs s) e) as [ev|]; auto. destruct (e_val ev); auto. apply mt_fold; auto. intros. now apply mt_settle. Qed.
Lemma mt_ev_clear s e : P s -> P (ev_clear s e). Proof. intros H. unfold ev_clear. destruct (nth_error (evs s) e); auto. Qed.
Lemma mt_wake_next l : forall s, P s -> P (fst (wake_next s l)).
Proof. induction l as [|f l IH]; intros s H; simpl; auto. destruct (fpending s f); auto. now apply mt_settle. Qed.
Lemma mt_q_wake s q : P s -> P (q_wake s q).
Proof. intros H. unfold q_wake. destruct (nth_error (qs s) q) as [qu|]; auto. pose proof (mt_wake_next (q_getters qu) s H) as X. destruct (wake_next s (q_getters qu)) as [s1 l]. exact X. Qed.
Lemma mt_q_get s t q k : t <> c -> P s -> P (q_get s t q k).
Proof. intros N H. unfold q_get. destruct (nth_error (qs s) q) as [qu|]; auto. destruct (q_items qu); auto. apply mt_suspend; auto. change (P (falloc s (mk_fut Pending [] (KQueue q)))). now apply mt_falloc. Qed.
Lemma mt_finish s t r : P s -> P (finish s t r).
Proof. intros H. unfold finish. cbn [set_cur futs]. now apply mt_conclude. Qed.
Lemma mt_op s t o k : t <> c -> P s -> P (exec_op s t o k).
Proof.
  intros N H. unfold exec_op. destruct o as [f|m|fl| |p|f|f| |e|e|e| |q v|q|q| |h z [|]|l| |]; try exact H.
  - destruct (f (mm s)); exact H.
  - now apply mt_suspend0.
  - cbn [go set_cur futs]. now apply mt_spawn.
  - destruct (fget s f) as [fu|]; [|exact H]. destruct (nameable _); simpl; [|exact H]. destruct (pending fu); [|exact H]. now apply mt_suspend.
  - destruct (fget s f) as [fu|]; [|exact H]. destruct (nameable _); simpl; [|exact H]. now apply mt_cancel.
  - destruct (nth_error (evs s) e) as [ev|]; [|exact H]. destruct (e_priv ev); [exact H|]. exact (mt_ev_set s e H).
  - destruct (nth_error (evs s) e) as [ev|]; [|exact H]. destruct (e_priv ev); [exact H|]. exact (mt_ev_clear s e H).
  - destruct (nth_error (evs s) e) as [ev|]; [|exact H]. destruct (e_val ev); [exact H|]. apply mt_suspend; auto. change (P (falloc s (mk_fut Pending [] (KEv e)))). now apply mt_falloc.
  - destruct (nth_error (qs s) q) as [qu|]; [|exact H]. cbn [go set_cur futs]. apply mt_q_wake. exact H.
  - now apply mt_q_get.
  - destruct (nth_error (qs s) q); exact H.
  - cbn [go set_cur futs]. now apply mt_falloc.
  - destruct (nodup _ _) as [|x l']; [cbn [go set_cur futs]; now apply mt_falloc|]. cbn [go set_cur futs]. apply (mt_fold (fun s0 f => on_done s0 f (CbCount (List.length (futs s))))); [intros; now apply mt_on_done|now apply mt_falloc].
  - destruct (clock s); [exact H|]. cbn [go set_cur set_clock futs]. now apply mt_spawn.
Qed.
Lemma mt_clk s t x : t <> c -> P s -> P (exec_clk shuffle dut delayers s t x).
Proof.
  intros N H. destruct x as [| | |[|[h ev] todo] sb| | | |last]; cbn [exec_clk]; try exact H.
  - destruct (tdone s); [exact H|now apply mt_suspend0].
  - now apply mt_suspend0.
  - destruct (has_unwait s t || flag s); exact H.
  - set (l := shuffle _). assert (P1 : P (fold_left cancel_top l s)) by (apply mt_fold; auto; intros; now apply mt_cancel).
    destruct l as [|y l]; [now apply mt_suspend0|]. apply mt_suspend; auto. apply (mt_fold (fun s0 f => on_done s0 f (CbCount (List.length (futs (fold_left cancel_top (y :: l) s)))))); [intros; now apply mt_on_done|]. now apply mt_falloc.
  - now apply mt_suspend0.
  - cbn [go set_cur futs]. apply mt_ev_clear, mt_ev_set. exact H.
Qed.
Lemma mt_step fire s : (forall b, cur s <> Some (c, b)) -> (forall b, cur (step fire s) <> Some (c, b)) -> P s -> P (step fire s).
Proof.
  intros HC HC' H. unfold Loop_Model.step in *. destruct (cur s) as [[t b]|] eqn:Hc.
  - assert (N : t <> c) by (intros ->; now apply (HC b)). clear HC HC'.
    destruct b as [[v|e|o kk]|[v|e|o kk] ev todo sb|x|e f r kk|q f [v|e] kk|test|[v|e|o kk]]; cbn [exec_body] in *; try (now apply mt_finish); try (now apply mt_op); try exact H.
    + destruct ev as [e|]; [|exact H]. cbn [go set_cur futs]. apply mt_ev_set. exact H.
    + now apply mt_clk.
    + destruct (nth_error (evs s) e); exact H.
    + now apply mt_q_get.
    + pose proof (mt_settle s f Canc H) as H1. set (s1 := settle s f Canc) in *. clearbody s1.
      set (s2 := match nth_error (qs s1) q with Some _ => _ | None => _ end). assert (P2 : P s2) by (unfold s2; destruct (nth_error (qs s1) q); exact H1). cbn [go set_cur futs].
      destruct (nth_error (qs s2) q) as [qu|]; [|exact P2]. destruct (fget s2 f) as [fu2|]; [|exact P2]. destruct (q_items qu); [exact P2|]. destruct (f_st fu2); try exact P2. now apply mt_q_wake.
    + destruct (clock s); [apply mt_op; auto|now apply mt_finish].
  - destruct (batch s) as [|n].
    + destruct (stopping s); auto. cbv zeta. cbn [set_batch futs]. apply mt_fold; auto. intros s0 a H0. unfold fire1. destruct (fget s0 a) as [[st cbs []]|] eqn:E; auto. cbn [push set_ready fput set_futs futs]. eapply mt_other; eauto; reflexivity.
    + destruct (ready s) as [|h r] eqn:Hr; [exact H|]. set (s0 := set_batch (set_ready s r) n) in *. assert (P0 : P s0) by exact H.
      assert (RS : forall x y, (forall b, cur (resume s0 x y) <> Some (c, b)) -> P (resume s0 x y)).
      { intros x y X. unfold resume in *. destruct (tget s0 x) as [tk|] eqn:T; auto. cbn [go set_cur futs cur] in *. apply mt_tput; auto. intros ->. now elim (X _ eq_refl). }
      destruct h as [x|x e|x f|g| |f]; cbn [run_handle] in *; auto.
      * destruct (fget s0 g) as [[st cbs []]|] eqn:E; auto. destruct need as [|n']; auto. assert (P1 : P (fput s0 g (mk_fut st cbs (KGather n')))) by (cbn [fput set_futs futs]; eapply mt_other; eauto; reflexivity).
        destruct n'; auto. now apply mt_settle.
      * now apply mt_settle.
Qed.
End Must.

Section Clean.
Context {mem : Type} (shuffle : list id -> list id) (dut delayers : mem -> mem) (shuffled : forall l, Permutation l (shuffle l)).
Notation state := (@state mem). Notation prog := (@prog mem). Notation body := (@body mem).
Notation step := (step shuffle dut delayers). Notation steps := (steps shuffle dut delayers). Notation goes := (goes shuffle dut delayers). Notation cleanup := (cleanup shuffle).
Implicit Types (s : state).
(** * The clock loop waits for nothing but a gather *)
Definition clkk (k : res lval -> body) : Prop := exists x, k (Ok VNone) = BClk x.
Definition NG (F : list (@fut mem)) : Prop := forall t st cbs k g m, nth_error F t = Some (mkt st cbs k (Some g) m) -> clkk k -> exists fu, nth_error F g = Some fu /\ is_task (f_kind fu) = false.
Definition Nng (w : option (id * @kind mem)) (k : res lval -> body) : Prop := match w with Some (_, kd) => clkk k -> @is_task mem kd = false | None => True end.
Lemma fext_nt (F F' : list (@fut mem)) g : fext F F' -> (exists fu, nth_error F g = Some fu /\ is_task (f_kind fu) = false) -> exists fu, nth_error F' g = Some fu /\ is_task (f_kind fu) = false.
Proof. intros X [fu [E T]]. destruct (X g fu E) as [fu' [E' [K _]]]. exists fu'. split; auto. destruct (f_kind fu), (f_kind fu'); cbn in *; auto; contradiction. Qed.
Lemma m1_ng S (c c1 : @core mem) : m1 Nng S c c1 -> NG (snd c) -> NG (snd c1).
Proof.
  intros H A. pose proof (m1_ext _ _ _ _ H) as X. intros x st0 cbs0 k0 g m0 E Q.
  assert (OLD : (exists st1 cbs1 m1, nth_error (snd c) x = Some (mkt st1 cbs1 k0 (Some g) m1)) \/ (exists kd, Nng (Some (g, kd)) k0 /\ exists fu, nth_error (snd c1) g = Some fu /\ f_kind fu = kd)).
  { destruct H; cbn [snd fst] in *; try (left; eauto; fail).
    - rewrite (put_nth_get _ _ _ _ x H) in E. destruct (Nat.eqb x f); [|left; eauto]. injection E as <- _ E. subst k. discriminate.
    - rewrite (put_nth_get _ _ _ _ x H) in E. destruct (Nat.eqb_spec x t) as [->|]; [|left; eauto]. injection E as <- <- <- -> <-. left. eauto.
    - rewrite (put_nth_get _ _ _ _ x H) in E. destruct (Nat.eqb_spec x f) as [->|]; [|left; eauto]. injection E as <- _ ->. left. unfold mkt. eauto.
    - rewrite (put_nth_get _ _ _ _ x H) in E. destruct (Nat.eqb x f); [|left; eauto]. injection E as <- <- ->. destruct k; simpl in *; contradiction.
    - rewrite nth_app_new in E. destruct (Nat.eqb x (List.length F)); [|left; eauto]. injection E as _ _ ->. discriminate.
    - rewrite nth_app_new in E. destruct (Nat.eqb x (List.length F)); [|left; eauto]. discriminate.
    - rewrite (put_nth_get _ _ _ _ x H) in E. destruct (Nat.eqb x t); [|left; eauto]. discriminate.
    - assert (E1 : nth_error (put_nth t (mkt st cbs k (Some f) m) F) f = Some (mk_fut Pending cbs' kd)).
      { rewrite (put_nth_get _ _ _ _ f H). destruct (Nat.eqb_spec f t); [congruence|assumption]. }
      rewrite (put_nth_get _ _ _ _ x E1) in E. destruct (Nat.eqb_spec x f) as [->|].
      + injection E as _ _ ->. left. unfold mkt. eauto.
      + rewrite (put_nth_get _ _ _ _ x H) in E. destruct (Nat.eqb x t); [|left; eauto]. injection E as _ _ -> <- _. right. exists kd. split; auto. eexists. split; [rewrite (put_nth_get _ _ _ _ f E1), Nat.eqb_refl; reflexivity|reflexivity].
    - rewrite (put_nth_get _ _ _ _ x H) in E. destruct (Nat.eqb_spec x t) as [->|]; [|left; eauto]. injection E as _ _ <- -> <-. left. eauto.
    - rewrite (put_nth_get _ _ _ _ x H0) in E. destruct (Nat.eqb x t); [|left; eauto]. discriminate. }
  destruct OLD as [[st1 [cbs1 [m1 E1]]]|[kd [HN [fu [E1 K]]]]]; [eapply fext_nt; eauto|]. exists fu. split; auto. rewrite K. now apply HN.
Qed.
Lemma ng_stores (b : body) : stores Nng b.
Proof.
  assert (O : forall (o : @op mem prog) (W : prog -> body) kk, (forall p x, W p <> BClk x) -> opstores Nng o (fun r => W (kk r))).
  { intros o W kk HW. destruct o; cbn; auto. split; auto. intros kd _ [x X]. now elim (HW _ _ X). }
  destruct b as [[v|e|o kk]|[v|e|o kk] ev todo sb|c1|e f r kk|q f [v|e] kk|tst|[v|e|o kk]]; cbn [stores]; auto.
  - apply (O o BProg). discriminate.
  - apply (O o (fun p => BHook p ev todo sb)). discriminate.
  - destruct c1; cbn; auto.
  - cbn. auto.
  - cbn. auto.
  - apply (O o BTest). discriminate.
Qed.
Lemma reach_ng test m s : steps (init test m) s -> NG (futs s).
Proof.
  intros R. assert (X : Wf s /\ NG (futs s)); [|apply X]. apply (steps_ind_inv shuffle dut delayers (fun s => Wf s /\ NG (futs s)) _ _) in R; auto.
  - intros fire s0 [W A]. split; [now apply step_wf|]. destruct W as [I K]. apply (mstar_inv _ _ (fun c => NG (snd c)) _ _ (m1_ng (Sof s0)) (step_core shuffle dut delayers Nng fire s0 I K (fun t b _ => ng_stores b)) A).
  - split; [apply init_wf|]. intros [|[|t]] st cbs k g mu E; cbn in E; discriminate.
Qed.

(** * The state in which the loop is started again *)
Definition Sk : @perm mem := mk_perm (fun k st => st = Canc \/ (st = Pending /\ is_task k = false)) False.
Definition Nk : option (id * @kind mem) -> (res lval -> body) -> Prop := fun _ _ => False.
Definition prep (s : state) (l : list id) : state := fold_left (fun s0 f => on_done s0 f (CbCount (List.length (futs s)))) l (falloc (fold_left cancel_top l (set_stopping s false)) (mk_fut Pending [] (KGather (List.length l)))).
Lemma live_shuffle s t : In t (shuffle (live s)) <-> unfinished s t.
Proof. unfold unfinished. split; intros X; [apply (Permutation_in _ (Permutation_sym (shuffled _)) X)|apply (Permutation_in _ (shuffled _) X)]. Qed.
Lemma cleanup_none s : shuffle (live s) = [] -> cleanup s = s.
Proof. intros E. unfold Cleanup_Model.cleanup. now rewrite E. Qed.
Lemma cleanup_some s : shuffle (live s) <> [] -> cleanup s = on_done (prep s (shuffle (live s))) (List.length (futs s)) CbStop.
Proof.
  intros E. unfold Cleanup_Model.cleanup, prep. destruct (shuffle (live s)) as [|x l]; [congruence|]. cbv zeta. rewrite cancels_len. reflexivity.
Qed.
Lemma prep_core s l : mstar Nk Sk (coreof s) (coreof (prep s l)).
Proof.
  unfold prep. change (coreof s) with (coreof (set_stopping s false)). set (s0 := set_stopping s false). set (s1 := fold_left cancel_top l s0). set (s2 := falloc s1 _).
  assert (M1 : mstar Nk Sk (coreof s0) (coreof s1)) by (apply (L_fold Nk Sk cancel_top l); intros; apply L_cancel; intros k; now left).
  assert (M2 : mstar Nk Sk (coreof s1) (coreof s2)) by (apply L_alloc; [reflexivity|now left|cbn; now right]).
  eapply mstar_trans; [exact M1|]. eapply mstar_trans; [exact M2|]. apply L_fold. intros. apply L_count. cbn. now right.
Qed.
Lemma prep_rest s l : rest (prep s l) = rest (set_stopping s false).
Proof.
  unfold prep. rewrite (rest_fold (fun s0 f => on_done s0 f (CbCount (List.length (futs s)))) l) by (intros; apply rest_on_done). change (rest (fold_left cancel_top l (set_stopping s false)) = rest (set_stopping s false)).
  apply rest_fold. intros. apply rest_cancel.
Qed.
Lemma prep_len s l : List.length (futs (prep s l)) = S (List.length (futs s)).
Proof. unfold prep. rewrite on_dones_len. cbn [falloc set_futs futs]. rewrite app_length, cancels_len. cbn. lia. Qed.
Lemma prep_g s l : (forall f, In f l -> f < List.length (futs s)) -> nth_error (futs (prep s l)) (List.length (futs s)) = Some (mk_fut Pending [] (KGather (List.length l))).
Proof.
  intros HL. unfold prep. set (s2 := falloc _ _). assert (E2 : nth_error (futs s2) (List.length (futs s)) = Some (mk_fut Pending [] (KGather (List.length l)))).
  { unfold s2, falloc. cbn [set_futs futs]. rewrite nth_app_new, cancels_len. cbn [set_stopping futs]. now rewrite Nat.eqb_refl. }
  generalize dependent s2. revert HL. generalize (List.length l). induction l as [|f l IH]; intros n HL s2 E2; cbn [fold_left]; auto. apply IH; [intros x Hx; apply HL; now right|].
  unfold on_done. destruct (fget s2 f) as [fu|] eqn:Ef; auto. destruct (pending fu); auto. cbn [fput set_futs futs]. unfold fget in Ef. rewrite (put_nth_get _ _ _ _ _ Ef). destruct (Nat.eqb_spec (List.length (futs s)) f) as [<-|]; auto. specialize (HL _ (or_introl eq_refl)). lia.
Qed.
Lemma live_lt s f : In f (shuffle (live s)) -> f < List.length (futs s).
Proof. intros X. apply live_shuffle in X. unfold unfinished in X. apply live_iff in X. now apply islive_len. Qed.
Lemma cleanup_put s : shuffle (live s) <> [] -> cleanup s = fput (prep s (shuffle (live s))) (List.length (futs s)) (mk_fut Pending [CbStop] (KGather (List.length (shuffle (live s))))).
Proof. intros E. rewrite cleanup_some; auto. unfold on_done, fget. rewrite prep_g by apply live_lt. reflexivity. Qed.

(** A stop callback does not matter for the invariants of tasks. *)
Lemma inv_stop c r F g k cbs : nth_error F g = Some (mk_fut Pending [] k) -> is_task k = false -> (forall t, cntb t cbs = 0) -> Inv (c, r, F) -> @Inv mem (c, r, put_nth g (mk_fut Pending cbs k) F).
Proof.
  intros E T C I. assert (IL : forall t, islive (put_nth g (mk_fut Pending cbs k) F) t = islive F t).
  { intros t. rewrite (islive_put _ _ _ _ t E). destruct (Nat.eqb_spec t g) as [->|]; auto. unfold islive. rewrite E. reflexivity. }
  assert (WO : forall t, waitof (put_nth g (mk_fut Pending cbs k) F) t = waitof F t).
  { intros t. rewrite (waitof_put _ _ _ _ t E). destruct (Nat.eqb_spec t g) as [->|]; auto. unfold waitof. rewrite E. reflexivity. }
  destruct I as [I1 I2 I3 I4 I5 I6 I7]. cbn [fst snd] in *. constructor; cbn [fst snd].
  - intros t. rewrite IL, <- (I1 t). pose proof (cntf_put t _ _ _ (mk_fut Pending cbs k) E) as X. cbn [f_cbs] in X. rewrite C in X. cbn in X. lia.
  - intros t X. rewrite WO. auto.
  - intros t e X. rewrite WO. eauto.
  - intros t f X. rewrite WO. destruct (I4 t f X) as [A [fu [B D]]]. split; auto. rewrite (put_nth_get _ _ _ _ f E). destruct (Nat.eqb_spec f g) as [->|]; [|eauto]. rewrite E in B. injection B as <-. discriminate.
  - intros t f fu X Y. rewrite WO. rewrite (put_nth_get _ _ _ _ f E) in X. destruct (Nat.eqb_spec f g) as [->|]; [|eauto]. injection X as <-. cbn [f_cbs] in Y. exfalso. specialize (C t). unfold cntb in C. destruct (filter (wakes t) cbs) eqn:Ef; [|discriminate].
    assert (Z : In (CbWake t) (filter (wakes t) cbs)) by (apply filter_In; split; auto; cbn; apply Nat.eqb_refl). rewrite Ef in Z. destruct Z.
  - intros f fu X Y. rewrite (put_nth_get _ _ _ _ f E) in X. destruct (Nat.eqb f g); [injection X as <-; discriminate|eauto].
  - intros t b X. rewrite WO. eauto.
Qed.
Lemma kin_ext s s' : Kin s -> evs s' = evs s -> qs s' = qs s -> fext (futs s) (futs s') -> Tim (coreof s') -> Kin s'.
Proof.
  intros [K1 K2 K3] E1 E2 X T. constructor.
  - intros e ev f H1 H2. rewrite E1 in H1. eapply kindof_ext; [exact X|reflexivity|]. eauto.
  - intros q qu f H1 H2. rewrite E2 in H1. eapply kindof_ext; [exact X|reflexivity|]. eauto.
  - exact T.
Qed.
Lemma cleanup_wf s : Wf s -> Wf (cleanup s).
Proof.
  intros [I K]. destruct (shuffle (live s)) as [|x0 l0] eqn:El; [rewrite cleanup_none; auto; now split|]. rewrite cleanup_put by congruence. rewrite El. set (l := x0 :: l0) in *. rewrite <- El.
  assert (HL : forall f, In f (shuffle (live s)) -> f < List.length (futs s)) by apply live_lt. pose proof (prep_g s _ HL) as G. pose proof (prep_core s (shuffle (live s))) as M. set (s3 := prep s (shuffle (live s))) in *.
  assert (R3 := prep_rest s (shuffle (live s))). fold s3 in R3. assert (I3 : Inv (coreof s3)) by (eapply mstar_Inv; eauto).
  assert (K3 : Kin s3). { apply (kin_ext s); auto; [exact (rest_evs _ _ R3)|exact (rest_qs _ _ R3)|exact (mstar_ext _ _ _ _ M)|]. apply (mstar_tim _ _ _ _ M). exact (k_ti s K). }
  split.
  - unfold fput, coreof. cbn [set_futs cur ready futs]. rewrite El in G. eapply inv_stop; [rewrite El; exact G|reflexivity|reflexivity|exact I3].
  - rewrite El in G |- *. apply (kin_ext s3); auto.
    + intros f fu E. cbn [fput set_futs futs]. rewrite (put_nth_get _ _ _ _ f G). destruct (Nat.eqb_spec f (List.length (futs s))) as [->|]; [|exists fu; split; auto; split; auto; apply kindrel_refl].
      rewrite G in E. injection E as <-. eexists. split; [reflexivity|]. split; [exact Logic.I|]. discriminate.
    + intros f Hf. cbn [coreof fst snd fput set_futs ready futs] in *. pose proof (k_ti _ K3 f Hf) as Z. unfold kindof in *. rewrite (put_nth_get _ _ _ _ f G). destruct (Nat.eqb_spec f (List.length (futs s))) as [->|]; auto. rewrite G in Z. discriminate.
Qed.
Lemma cleanup_cur s : cur (cleanup s) = cur s.
Proof.
  destruct (shuffle (live s)) as [|x0 l0] eqn:El; [now rewrite cleanup_none|]. rewrite cleanup_some by congruence. rewrite (rest_cur _ _ (rest_on_done (prep s (shuffle (live s))) _ CbStop)). exact (rest_cur _ _ (prep_rest s (shuffle (live s)))).
Qed.
Lemma cleanup_clock s : clock (cleanup s) = clock s.
Proof.
  destruct (shuffle (live s)) as [|x0 l0] eqn:El; [now rewrite cleanup_none|]. rewrite cleanup_some by congruence. change (clock (rest (on_done (prep s (shuffle (live s))) (List.length (futs s)) CbStop)) = clock s). rewrite rest_on_done, prep_rest. reflexivity.
Qed.
Lemma cleanup_nstep s : nstep (cleanup s) = nstep s.
Proof.
  destruct (shuffle (live s)) as [|x0 l0] eqn:El; [now rewrite cleanup_none|]. rewrite cleanup_some by congruence. change (nstep (rest (on_done (prep s (shuffle (live s))) (List.length (futs s)) CbStop)) = nstep s). rewrite rest_on_done, prep_rest. reflexivity.
Qed.
Lemma cleanup_task s t st cbs k w m : nth_error (futs (cleanup s)) t = Some (mkt st cbs k w m) -> exists st0 cbs0 w0 m0, nth_error (futs s) t = Some (mkt st0 cbs0 k w0 m0).
Proof.
  destruct (shuffle (live s)) as [|x0 l0] eqn:El; [rewrite cleanup_none by auto; eauto 10|]. rewrite cleanup_put by congruence. cbn [fput set_futs futs].
  pose proof (prep_g s _ (live_lt s)) as G. rewrite (put_nth_get _ _ _ _ t G). destruct (Nat.eqb t (List.length (futs s))); [discriminate|]. intros E.
  destruct (mstar_cont _ _ t _ _ (fun (H : resumes Sk) _ _ _ => H) (prep_core s (shuffle (live s))) _ _ _ _ _ E) as [X|[[w0 []] _]]. exact X.
Qed.
Lemma cleanup_clk1 s : Clk1 s -> Clk1 (cleanup s).
Proof.
  intros H t Ht. rewrite cleanup_clock in Ht. destruct (H t Ht) as [A B]. rewrite cleanup_cur. split; auto. intros st cbs k w m E. destruct (cleanup_task s t _ _ _ _ _ E) as [st0 [cbs0 [w0 [m0 E0]]]]. eauto.
Qed.

(** * The clock task does not go on *)
Definition Dm (c : id) s : Prop :=
  (exists x w, Susp c (start (BClk x)) w s /\ (MT c (futs s) \/ exists g, w = Some g /\ CF g s)) \/ cur s = Some (c, BProg (Raise CancelledError)) \/ exists st, state_of s c = Some st /\ st <> Pending.
Lemma dm_step fire c s : Wf s -> Dm c s -> Dm c (step fire s).
Proof.
  intros W [[x [w [H X]]]|[H|[st [H Hn]]]].
  - destruct H as [Hc [cbs [m E]]]. destruct (step_task shuffle dut delayers fire s c cbs _ w m W Hc E) as [[Hc' [cbs' [m' E']]]|[Hn [h [r [n [Hr [Hb [Ho [Hc' HF]]]]]]]]].
    + left. exists x, w. split; [split; eauto|]. destruct X as [X|[g [-> [fu [Eg S]]]]]; [left; now apply mt_step|right]. exists g. split; auto.
      destruct (step_fext shuffle dut delayers fire s W g fu Eg) as [fu' [Eg' [_ Pg]]]. exists fu'. split; auto. rewrite Pg; auto. unfold pending. now rewrite S.
    + right. left. rewrite Hc'. f_equal. f_equal. assert (Z : (if m then Exn CancelledError else hres (futs s) h) = Exn CancelledError); [|now rewrite Z].
      destruct X as [[st1 [cbs1 [k1 [w1 E1]]]]|[g [-> [fu [Eg S]]]]]; [rewrite E in E1; injection E1 as _ _ _ _ ->; reflexivity|]. destruct m; auto.
      destruct W as [I K]. assert (Hin : In h (snd (fst (coreof s)))) by (cbn; rewrite Hr; now left). pose proof (waitof_task _ _ _ _ _ _ _ E) as WT.
      destruct h as [y|y e|y f| | |]; try discriminate; cbn [owner] in Ho; injection Ho as ->.
      * pose proof (i_step _ I c Hin) as Y. cbn [coreof snd] in Y. congruence.
      * pose proof (i_throw _ I c e Hin) as Y. cbn [coreof snd] in Y. congruence.
      * destruct (i_wake _ I c f Hin) as [Y _]. cbn [coreof snd] in Y. rewrite WT in Y. injection Y as <-. cbn [hres]. unfold fget in Eg. rewrite Eg, S. reflexivity.
  - right. right. exists Canc. split; [|discriminate]. apply cancelled_done; auto. now left.
  - right. right. exists st. split; auto. eapply state_of_done; eauto. apply steps_step, steps_refl.
Qed.
Lemma dm_still fire c s : Wf s -> Clk1 s -> clock s = Some c -> Dm c s -> nstep (step fire s) = nstep s.
Proof.
  intros W C HC D. rewrite nstep_step. destruct (cur s) as [[t b]|] eqn:Hc; auto. destruct b as [| |x| | | |]; auto. destruct x; auto. exfalso.
  assert (t = c). { destruct (Nat.eq_dec t c) as [|N]; auto. assert (N' : clock s <> Some t) by congruence. destruct (C t N') as [A _]. now elim (A _ Hc). } subst t.
  destruct D as [[x [w [[H _] _]]]|[H|[st [H Hn]]]]; [now apply (H _ Hc)|congruence|]. destruct (cur_live _ (proj1 W) c _ Hc) as [cbs [k [m E]]]. cbn [snd coreof] in E. unfold state_of, fget in H. rewrite E in H. injection H as <-. now apply Hn.
Qed.
Lemma dm_goes c s s' : Wf s -> Clk1 s -> clock s = Some c -> Dm c s -> goes s s' -> Wf s' /\ Clk1 s' /\ clock s' = Some c /\ Dm c s' /\ nstep s' = nstep s.
Proof.
  intros W C HC D R. induction R as [s|s s1 fire R IH|s s1 R IH]; [auto|..]; destruct (IH W C HC D) as [W1 [C1 [HC1 [D1 N1]]]].
  - split; [now apply step_wf|]. split; [now apply step_clk1|]. split; [now apply clock_step|]. split; [now apply dm_step|]. rewrite dm_still with (c := c); auto.
  - split; [destruct W1 as [I [K1 K2 K3]]; split; [exact I|constructor; assumption]|]. split; [exact C1|]. split; [exact HC1|]. split; [exact D1|exact N1].
Qed.
Lemma mt_cancels t l : forall s cbs k m, In t l -> fget s t = Some (mkt Pending cbs k None m) -> MT t (futs (fold_left cancel_top l s)).
Proof.
  assert (K : forall l s, MT t (futs s) -> MT t (futs (fold_left cancel_top l s))) by (intros; apply (mt_fold t cancel_top); auto; intros; now apply mt_cancel).
  induction l as [|x l IH]; intros s cbs k m H E; [destruct H|]. cbn [fold_left]. destruct (Nat.eq_dec x t) as [->|N].
  - apply K. unfold cancel_top. destruct (List.length (futs s)); cbn [cancel]; rewrite E; cbn [pending f_st f_kind mkt k_wait fst]; unfold tput; rewrite E; cbn [fput set_futs futs f_st f_cbs k_cont]; unfold MT; rewrite (put_nth_get _ _ _ _ t E), Nat.eqb_refl; unfold mkt; eauto 10.
  - destruct H as [H|H]; [congruence|]. destruct (cancel_task (List.length (futs s)) s x t _ _ _ _ _ E) as [m' E']. eapply IH; eauto.
Qed.
Lemma mt_cancels_done t g l : forall s cbs k m fu, In t l -> fget s t = Some (mkt Pending cbs k (Some g) m) -> fget s g = Some fu -> is_task (f_kind fu) = false -> (MT t (futs (fold_left cancel_top l s)) \/ CF g (fold_left cancel_top l s)).
Proof.
  assert (K : forall l s, MT t (futs s) -> MT t (futs (fold_left cancel_top l s))) by (intros; apply (mt_fold t cancel_top); auto; intros; now apply mt_cancel).
  intros s cbs k m fu Hi Et Eg T. destruct (f_st fu) as [|r|] eqn:St.
  - right. eapply cancels_hit; eauto. exists fu. auto.
  - left. revert s cbs m fu Hi Et Eg T St. induction l as [|x l IH]; intros s cbs m fu Hi Et Eg T St; [destruct Hi|]. cbn [fold_left]. destruct (Nat.eq_dec x t) as [->|N].
    + apply K. unfold cancel_top. assert (L : exists n, List.length (futs s) = Datatypes.S n). { destruct (futs s) as [|a l1] eqn:X; [|cbn; eauto]. unfold fget in Et. rewrite X in Et. destruct t; discriminate. }
      destruct L as [n L]. rewrite L. cbn [cancel]. rewrite Et. cbn [pending f_st f_kind mkt k_wait]. assert (Q : cancel n s g = (s, false)) by (destruct n; cbn [cancel]; rewrite Eg; unfold pending; rewrite St; reflexivity). rewrite Q. cbn [fst].
      unfold tput. rewrite Et. cbn [fput set_futs futs f_st f_cbs k_cont mkt]. unfold MT. rewrite (put_nth_get _ _ _ _ t Et), Nat.eqb_refl. unfold mkt. eauto 10.
    + destruct Hi as [Hi|Hi]; [congruence|]. destruct (cancel_task (List.length (futs s)) s x t _ _ _ _ _ Et) as [m' Et'].
      assert (X := L_cancel Nk Sk (List.length (futs s)) s x (fun k => or_introl eq_refl)). destruct (mstar_ext _ _ _ _ X g fu Eg) as [fu' [Eg' [Kg Pg]]]. cbn [coreof snd] in Eg'.
      eapply (IH (cancel_top s x)); eauto; [destruct (f_kind fu), (f_kind fu'); cbn in *; auto; contradiction|]. rewrite Pg; auto. unfold pending. now rewrite St.
  - right. eapply cancels_hit; eauto. exists fu. auto.
Qed.
Lemma clock_task test m s c : steps (init test m) s -> clock s = Some c -> exists st cbs k w mu, nth_error (futs s) c = Some (mkt st cbs k w mu).
Proof.
  intros R. remember (init test m) as s0 eqn:E0. revert c. induction R as [s|s s1 fire R IH]; intros c Hc; subst s; [discriminate|]. assert (W : Wf s1) by exact (v_wf _ (proj1 (reach_all shuffle dut delayers test m s1 R))).
  destruct (clock s1) as [c1|] eqn:Ec.
  - rewrite (clock_step shuffle dut delayers fire s1 c1 Ec) in Hc. injection Hc as <-. destruct (IH eq_refl c1 eq_refl) as [st [cbs [k [w [mu E]]]]]. destruct (step_fext shuffle dut delayers fire s1 W c1 _ E) as [fu' [E' [K _]]].
    destruct fu' as [st' cbs' []]; cbn in K; try contradiction. destruct t. unfold mkt. eauto 10.
  - destruct (Live_Proofs.clock_new shuffle dut delayers fire s1 c Ec Hc) as [-> [F _]]. rewrite F, nth_app_new, Nat.eqb_refl. eauto 10.
Qed.
Lemma cleanup_dm test m s c : steps (init test m) s -> stopped s -> clock s = Some c -> between_hooks s c -> Dm c (cleanup s).
Proof.
  intros R [Hc _] HC BH. pose proof (reach_all shuffle dut delayers test m s R) as A. pose proof (v_wf _ (proj1 A)) as W.
  destruct (clock_task test m s c R HC) as [st [cbs [k [w [mu E]]]]].
  destruct (BH (mk_task k w mu)) as [x Kx]; [unfold tget, fget; rewrite E; reflexivity|]. cbn [k_cont] in Kx. subst k.
  assert (DN : st <> Pending -> Dm c (cleanup s)).
  { intros Hn. right. right. exists st. split; auto. destruct (shuffle (live s)) as [|x0 l0] eqn:El; [rewrite cleanup_none by auto; unfold state_of, fget; now rewrite E|]. rewrite cleanup_put by congruence. unfold state_of, fget. cbn [fput set_futs futs].
    pose proof (prep_g s _ (live_lt s)) as G. rewrite (put_nth_get _ _ _ _ c G). destruct (Nat.eqb_spec c (List.length (futs s))) as [->|]; [apply nth_error_Some in G || idtac; exfalso; assert (Y : nth_error (futs s) (List.length (futs s)) = None) by (now apply nth_error_None); congruence|].
    destruct (mstar_ext _ _ _ _ (prep_core s (shuffle (live s))) c _ E) as [fu' [E' [_ P]]]. cbn [coreof snd] in E'. rewrite E'. cbn. f_equal. apply P. now destruct st. }
  destruct st as [|r|]; try (apply DN; discriminate). clear DN. left. exists x, w. assert (LC : In c (shuffle (live s))) by (apply live_shuffle; unfold unfinished; apply live_iff; unfold islive; now rewrite E).
  assert (Ne : shuffle (live s) <> []) by (intros X; rewrite X in LC; destruct LC). pose proof (live_lt s c LC) as Lc.
  destruct (cancels_task (shuffle (live s)) (set_stopping s false) c _ _ _ _ _ E) as [m1 E1]. set (s1 := fold_left cancel_top (shuffle (live s)) (set_stopping s false)) in *.
  assert (G := prep_g s _ (live_lt s)). rewrite cleanup_put by auto. set (gl := shuffle (live s)) in *.
  assert (E2 : fget (falloc s1 (mk_fut Pending [] (KGather (List.length gl)))) c = Some (mkt Pending cbs (start (BClk x)) w m1)).
  { unfold fget, falloc. cbn [set_futs futs]. rewrite nth_error_app1; [exact E1|]. unfold s1. rewrite cancels_len. exact Lc. }
  destruct (on_dones_task (List.length (futs s)) gl _ c _ _ _ _ _ E2) as [cb3 E3]. change (fold_left (fun s0 f => on_done s0 f (CbCount (List.length (futs s)))) gl (falloc s1 (mk_fut Pending [] (KGather (List.length gl))))) with (prep s gl) in E3.
  assert (Q : MT c (futs s1) \/ exists g, w = Some g /\ CF g s1).
  { destruct w as [g|]; [|left; eapply mt_cancels; eauto; exact E]. destruct (reach_ng test m s R c _ _ _ _ _ E) as [fu [Eg T]]; [exists x; reflexivity|].
    destruct (mt_cancels_done c g gl (set_stopping s false) _ _ _ fu LC E Eg T) as [X|X]; eauto. }
  split.
  - split; [cbn [fput set_futs cur]; rewrite (rest_cur _ _ (prep_rest s gl)); cbn [set_stopping cur]; rewrite Hc; discriminate|]. cbn [fput set_futs futs]. rewrite (put_nth_get _ _ _ _ c G). destruct (Nat.eqb_spec c (List.length (futs s))); [lia|]. eauto.
  - destruct Q as [Q|[g [-> Q]]].
    + left. cbn [fput set_futs futs]. eapply mt_other; [exact G|reflexivity|]. unfold prep. fold s1. apply (mt_fold c (fun s0 f => on_done s0 f (CbCount (List.length (futs s))))); [intros; now apply mt_on_done|]. now apply mt_falloc.
    + right. exists g. split; auto. assert (Q3 : CF g (prep s gl)).
      { unfold prep. fold s1. assert (KK : forall z l s, CF g s -> CF g (fold_left (fun s f => @on_done mem s f (CbCount z)) l s)) by (intros z l0; induction l0 as [|y l0 IH]; intros s0 H0; cbn [fold_left]; auto; apply IH; now apply cf_on_done). apply KK. now apply cf_falloc. }
      destruct Q3 as [fu [Eg S]]. exists fu. split; auto. unfold fget in *. cbn [fput set_futs futs]. rewrite (put_nth_get _ _ _ _ g G). destruct (Nat.eqb_spec g (List.length (futs s))) as [->|]; auto. rewrite G in Eg. injection Eg as <-. discriminate.
Qed.

(** * The loop stops once *)
Definition isS (h : handle) : bool := match h with HStop => true | _ => false end.
Definition isC (c : cb) : bool := match c with CbStop => true | _ => false end.
Definition nS (r : list handle) : nat := List.length (filter isS r).
Definition nC (l : list cb) : nat := List.length (filter isC l).
Definition nF (F : list (@fut mem)) : nat := list_sum (map (fun fu => nC (f_cbs fu)) F).
Definition stk (c : @core mem) : nat := nS (snd (fst c)) + nF (snd c).
Lemma nS_app r r' : nS (r ++ r') = nS r + nS r'. Proof. unfold nS. now rewrite filter_app, app_length. Qed.
Lemma nC_app r r' : nC (r ++ r') = nC r + nC r'. Proof. unfold nC. now rewrite filter_app, app_length. Qed.
Lemma nF_app F x : nF (F ++ [x]) = nF F + nC (f_cbs x).
Proof. unfold nF. rewrite map_app. unfold list_sum. rewrite fold_right_app. simpl. rewrite Nat.add_0_r. induction (map (fun fu => nC (f_cbs fu)) F) as [|y l IH]; simpl; lia. Qed.
Lemma nF_put F f x a : nth_error F f = Some x -> nF (put_nth f a F) + nC (f_cbs x) = nF F + nC (f_cbs a).
Proof. apply (put_nth_sum (fun fu => nC (f_cbs fu))). Qed.
Lemma nS_sched f cbs : nS (map (sched f) cbs) = nC cbs.
Proof. unfold nS, nC. induction cbs as [|[] cbs IH]; simpl; auto. Qed.
Lemma m1_stk N (S : @perm mem) (c c1 : @core mem) : m1 N S c c1 -> stk c1 <= stk c.
Proof.
  intros H. unfold stk. destruct H as [c r F f st cbs k st' Ef -> Tk Hst _|c r F t st cbs k w m m' Ef _|c r F f cbs k g Ef _|c r F h Hh|c r F f st cbs k k' Ef Kc _|c r F st k Tk _ _|c r F k _ _|t b b' r F|t b r F h st cbs k0 w m k Ef Hh _|t b r F f st cbs k0 w m k cbs' kd Et Ef Hn _|t b r F cbs k w m st Ef Hst _|h t r F st cbs k w m Ho Ef _|h c r F Ho _]; cbn [fst snd] in *; rewrite ?nS_app, ?nF_app.
  - rewrite nS_sched. pose proof (nF_put _ _ _ (mk_fut st' [] k) Ef) as X. cbn [f_cbs] in X. change (nC []) with 0 in X. lia.
  - pose proof (nF_put _ _ _ (mkt st cbs k w m') Ef) as X. cbn [f_cbs mkt] in X. lia.
  - pose proof (nF_put _ _ _ (mk_fut Pending (cbs ++ [CbCount g]) k) Ef) as X. cbn [f_cbs] in X. rewrite nC_app in X. change (nC [CbCount g]) with 0 in X. lia.
  - destruct h; cbn in *; try contradiction; lia.
  - pose proof (nF_put _ _ _ (mk_fut st cbs k') Ef) as X. cbn [f_cbs] in X. lia.
  - change (nC (f_cbs (mk_fut st [] k))) with 0. lia.
  - cbn. lia.
  - lia.
  - pose proof (nF_put _ _ _ (mkt st cbs k None m) Ef) as X. cbn [f_cbs mkt] in X. destruct Hh; subst h; cbn; lia.
  - assert (E1 : nth_error (put_nth t (mkt st cbs k (Some f) m) F) f = Some (mk_fut Pending cbs' kd)) by (rewrite (put_nth_get _ _ _ _ f Et); destruct (Nat.eqb_spec f t); [congruence|assumption]).
    pose proof (nF_put _ _ _ (mkt st cbs k (Some f) m) Et) as X. pose proof (nF_put _ _ _ (mk_fut Pending (cbs' ++ [CbWake t]) kd) E1) as Y. cbn [f_cbs mkt] in X, Y. rewrite nC_app in Y. change (nC [CbWake t]) with 0 in Y. lia.
  - rewrite nS_sched. pose proof (nF_put _ _ _ (mkt st [] k w m) Ef) as X. cbn [f_cbs mkt] in X. change (nC []) with 0 in X. lia.
  - pose proof (nF_put _ _ _ (mkt st cbs k None false) Ef) as X. cbn [f_cbs mkt] in X. change (h :: r) with ([h] ++ r). rewrite nS_app. lia.
  - change (h :: r) with ([h] ++ r). rewrite nS_app. lia.
Qed.
Lemma mstar_stk N (S : @perm mem) (c c1 : @core mem) : mstar N S c c1 -> stk c1 <= stk c.
Proof. induction 1 as [|a b d H H0 IH]; auto. pose proof (m1_stk _ _ _ _ H). lia. Qed.
Definition Sp s : Prop := stk (coreof s) <= 1 /\ (stopping s = true -> stk (coreof s) = 0).
Lemma reach_sp test m s : steps (init test m) s -> Sp s.
Proof.
  intros R. assert (X : Wf s /\ Sp s); [|apply X]. apply (steps_ind_inv shuffle dut delayers (fun s => Wf s /\ Sp s) _ _) in R; auto.
  - intros fire s0 [W [A B]]. split; [now apply step_wf|]. pose proof W as [I K]. pose proof (mstar_stk _ _ _ _ (True_ms_kin shuffle dut delayers fire s0 I K)) as L. split; [lia|]. intros ST.
    destruct (step_ready shuffle dut delayers fire s0 W) as [[t [b [L0 [_ [_ E]]]]]|[[_ [_ [_ E]]]|[[L0 [_ [_ [_ [_ E]]]]]|[[n [_ [_ [_ E]]]]|[n [h [r [L0 [Hc [Hb [Hr [_ [_ E]]]]]]]]]]]]].
    + unfold bs in E. injection E as _ E. rewrite E in ST. specialize (B ST). lia.
    + rewrite E in *. auto.
    + unfold bs in E. injection E as _ E. congruence.
    + rewrite E in *. cbn [set_batch stopping] in ST. auto.
    + rewrite E in ST. destruct h; try (specialize (B ST); lia). assert (Q : step fire s0 = set_stopping (set_batch (set_ready s0 r) n) true) by (unfold Loop_Model.step; rewrite Hc, Hb, Hr; reflexivity).
      rewrite Q. unfold stk, coreof in *. cbn [fst snd set_stopping set_batch set_ready ready futs] in *. rewrite Hr in A. change (HStop :: r) with ([HStop] ++ r) in A. rewrite nS_app in A. change (nS [HStop]) with 1 in A. lia.
  - split; [apply init_wf|]. split; [reflexivity|discriminate].
Qed.
(** The loop stops only when the gather is done. *)
Section Stop.
Context (g : id).
Definition dng (F : list (@fut mem)) : Prop := exists fu, nth_error F g = Some fu /\ pending fu = false.
Definition StG (c : @core mem) : Prop := (forall f fu, nth_error (snd c) f = Some fu -> In CbStop (f_cbs fu) -> f = g) /\ (In HStop (snd (fst c)) -> dng (snd c)).
Lemma dng_put F f x a : nth_error F f = Some x -> (pending x = false -> pending a = false) -> dng F -> dng (put_nth f a F).
Proof. intros E H [fu [E0 P]]. unfold dng. rewrite (put_nth_get _ _ _ _ g E). destruct (Nat.eqb_spec g f) as [<-|]; [|eauto]. exists a. split; auto. apply H. congruence. Qed.
Lemma dng_app F x : dng F -> dng (F ++ [x]).
Proof. intros [fu [E P]]. exists fu. split; auto. rewrite nth_error_app1; auto. apply nth_error_Some. congruence. Qed.
Lemma m1_stg N (S : @perm mem) (c c1 : @core mem) : m1 N S c c1 -> StG c -> StG c1.
Proof.
  intros H [A B].
  assert (PUT : forall (F : list (@fut mem)) f x a, nth_error F f = Some x -> (forall g0 fu, nth_error F g0 = Some fu -> In CbStop (f_cbs fu) -> g0 = g) -> (In CbStop (f_cbs a) -> In CbStop (f_cbs x)) -> forall g0 fu, nth_error (put_nth f a F) g0 = Some fu -> In CbStop (f_cbs fu) -> g0 = g).
  { intros F f x a E HF Hx g0 fu Eg Hg. rewrite (put_nth_get _ _ _ _ g0 E) in Eg. destruct (Nat.eqb_spec g0 f) as [->|]; [injection Eg as <-; eauto|eauto]. }
  assert (APP : forall (F : list (@fut mem)) x, (forall g0 fu, nth_error F g0 = Some fu -> In CbStop (f_cbs fu) -> g0 = g) -> ~ In CbStop (f_cbs x) -> forall g0 fu, nth_error (F ++ [x]) g0 = Some fu -> In CbStop (f_cbs fu) -> g0 = g).
  { intros F x HF Hx g0 fu Eg Hg. rewrite nth_app_new in Eg. destruct (Nat.eqb g0 (List.length F)); [injection Eg as <-; contradiction|eauto]. }
  assert (SCH : forall f cbs, In HStop (map (sched f) cbs) -> In CbStop cbs). { intros f cbs X. apply in_map_iff in X. destruct X as [[] [X Y]]; try discriminate. exact Y. }
  destruct H as [c r F f st cbs k st' Ef -> Tk Hst _|c r F t st cbs k w m m' Ef _|c r F f cbs k g1 Ef _|c r F h Hh|c r F f st cbs k k' Ef Kc _|c r F st k Tk _ _|c r F k _ _|t b b' r F|t b r F h st cbs k0 w m k Ef Hh _|t b r F f st cbs k0 w m k cbs' kd Et Ef Hn _|t b r F cbs k w m st Ef Hst _|h t r F st cbs k w m Ho Ef _|h c r F Ho _]; cbn [fst snd] in *; split; cbn [fst snd]; auto.
  - eapply PUT; eauto. intros [].
  - intros X. apply in_app_or in X. destruct X as [X|X]; [eapply dng_put; eauto; intros _; cbn; now destruct st'|]. apply SCH in X. assert (f = g) by (eapply A; eauto). subst f. exists (mk_fut st' [] k). rewrite (put_nth_get _ _ _ _ g Ef), Nat.eqb_refl. split; auto. cbn. now destruct st'.
  - eapply PUT; eauto.
  - intros X. eapply dng_put; eauto.
  - eapply PUT; eauto. cbn. intros X. apply in_app_or in X. destruct X as [X|[X|[]]]; [auto|discriminate].
  - intros X. eapply dng_put; eauto.
  - intros X. apply in_app_or in X. destruct X as [X|[X|[]]]; auto. subst h. contradiction.
  - eapply PUT; eauto.
  - intros X. eapply dng_put; eauto.
  - apply APP; auto.
  - intros X. apply dng_app. auto.
  - apply APP; auto.
  - intros X. apply in_app_or in X. destruct X as [X|[X|[]]]; [apply dng_app; auto|discriminate].
  - eapply PUT; eauto.
  - intros X. apply in_app_or in X. destruct X as [X|[X|[]]]; [eapply dng_put; eauto|]. subst h. destruct Hh; discriminate.
  - assert (E1 : nth_error (put_nth t (mkt st cbs k (Some f) m) F) f = Some (mk_fut Pending cbs' kd)) by (rewrite (put_nth_get _ _ _ _ f Et); destruct (Nat.eqb_spec f t); [congruence|assumption]).
    eapply (PUT _ f _ _ E1); [eapply (PUT _ t _ _ Et); auto|]. cbn. intros X. apply in_app_or in X. destruct X as [X|[X|[]]]; [auto|discriminate].
  - assert (E1 : nth_error (put_nth t (mkt st cbs k (Some f) m) F) f = Some (mk_fut Pending cbs' kd)) by (rewrite (put_nth_get _ _ _ _ f Et); destruct (Nat.eqb_spec f t); [congruence|assumption]).
    intros X. eapply (dng_put _ f _ _ E1); auto. eapply (dng_put _ t _ _ Et); auto.
  - eapply PUT; eauto. intros [].
  - intros X. apply in_app_or in X. destruct X as [X|X]; [eapply dng_put; eauto; intros _; cbn; now destruct st|]. apply SCH in X. assert (t = g) by (eapply A; eauto). subst t. exists (mkt st [] k w m). rewrite (put_nth_get _ _ _ _ g Ef), Nat.eqb_refl. split; auto. cbn. now destruct st.
  - eapply PUT; eauto.
  - intros X. eapply dng_put; eauto. apply B. now right.
  - intros X. apply B. now right.
Qed.

Lemma dng_step fire s : Wf s -> dng (futs s) -> dng (futs (step fire s)).
Proof. intros W [fu [E P]]. destruct (step_fext shuffle dut delayers fire s W g fu E) as [fu' [E' [_ Q]]]. exists fu'. split; auto. unfold pending in *. now rewrite (Q P). Qed.
Definition StGE s : Prop := StG (coreof s) /\ (stopping s = true -> dng (futs s)).
Lemma stge_steps s s' : Wf s -> StGE s -> steps s s' -> StGE s'.
Proof.
  intros W0 S0 R. assert (X : Wf s' /\ StGE s'); [|apply X]. apply (steps_ind_inv shuffle dut delayers (fun s => Wf s /\ StGE s) _ _) in R; auto. clear W0 S0 R.
  intros fire s0 [W [D Q]]. split; [now apply step_wf|]. pose proof W as [I K].
  assert (D' : StG (coreof (step fire s0))) by exact (mstar_inv _ _ StG _ _ (m1_stg _ _) (True_ms_kin shuffle dut delayers fire s0 I K) D).
  assert (M : dng (futs s0) -> dng (futs (step fire s0))) by (now apply dng_step). split; auto.
  destruct (step_ready shuffle dut delayers fire s0 W) as [[t [b [L [_ [_ E]]]]]|[[_ [_ [_ E]]]|[[L [_ [_ [_ [_ E]]]]]|[[n [_ [_ [_ E]]]]|[n [h [r [L [_ [_ [Hr [_ [_ E]]]]]]]]]]]]].
  - unfold bs in E. injection E as _ E. rewrite E. auto.
  - rewrite E. auto.
  - unfold bs in E. injection E as _ E. rewrite E. discriminate.
  - rewrite E. cbn [set_batch stopping futs]. auto.
  - rewrite E. intros X. apply M. destruct h; auto. apply D. cbn [coreof fst snd]. rewrite Hr. now left.
Qed.
End Stop.
Lemma nF_le F f x : nth_error F f = Some x -> nC (f_cbs x) <= nF F.
Proof. intros E. pose proof (nF_put F f x (mk_fut (f_st x) [] (f_kind x)) E) as X. cbn [f_cbs] in X. change (nC []) with 0 in X. lia. Qed.
Lemma nC_In l : In CbStop l -> 1 <= nC l.
Proof. intros H. unfold nC. assert (X : In CbStop (filter isC l)) by (apply filter_In; auto). destruct (filter isC l); [destruct X|cbn; lia]. Qed.
Lemma nS_In l : In HStop l -> 1 <= nS l.
Proof. intros H. unfold nS. assert (X : In HStop (filter isS l)) by (apply filter_In; auto). destruct (filter isS l); [destruct X|cbn; lia]. Qed.
Lemma cleanup_stge s : shuffle (live s) <> [] -> stk (coreof s) = 0 -> StGE (List.length (futs s)) (cleanup s).
Proof.
  intros Ne Z. rewrite cleanup_put by auto. pose proof (prep_g s _ (live_lt s)) as G. pose proof (mstar_stk _ _ _ _ (prep_core s (shuffle (live s)))) as L. unfold stk in L, Z. cbn [coreof fst snd] in L, Z. split; [split|].
  - intros f fu E Hf. cbn [coreof snd fput set_futs futs] in E. rewrite (put_nth_get _ _ _ _ f G) in E. destruct (Nat.eqb_spec f (List.length (futs s))) as [->|]; auto. exfalso. pose proof (nF_le _ _ _ E). pose proof (nC_In _ Hf). lia.
  - intros X. exfalso. cbn [coreof fst snd fput set_futs ready] in X. pose proof (nS_In _ X). lia.
  - intros X. exfalso. cbn [fput set_futs stopping] in X. change (stopping (rest (prep s (shuffle (live s)))) = true) in X. rewrite prep_rest in X. discriminate.
Qed.
Lemma cleanup_gat s : Fresh s -> shuffle (live s) <> [] -> Gat (List.length (futs s)) (shuffle (live s)) (cleanup s).
Proof.
  intros FR Ne. assert (Hl := live_lt s). rewrite cleanup_put by auto. pose proof (prep_g s _ Hl) as G. set (l2 := shuffle (live s)) in *. set (g := List.length (futs s)) in *.
  set (s1 := fold_left cancel_top l2 (set_stopping s false)). assert (LN : List.length (futs s1) = g) by (unfold s1; rewrite cancels_len; reflexivity).
  assert (M1 : mstar (fun _ _ => True) Sc (coreof s) (coreof s1)) by (change (coreof s) with (coreof (set_stopping s false)); apply L_fold; intros; apply L_cancel; auto; reflexivity).
  assert (T1 : tok g (coreof s1) = 0) by (rewrite (proj1 (Sc_keep _ g _ _ M1)); apply FR; unfold g; lia). set (s2 := falloc s1 (mk_fut Pending [] (KGather (List.length l2)))).
  assert (T2 : tok g (coreof s2) = 0) by (rewrite <- T1; unfold s2, tok; cbn [fst snd coreof falloc set_futs futs ready]; rewrite tokF_app; cbn; lia).
  destruct (on_dones_count g l2 s2) as [T3 [R3 S3]]; [intros f Hf; unfold s2; cbn [falloc set_futs futs]; rewrite app_length, LN; cbn; specialize (Hl f Hf); fold g in Hl; lia|].
  change (fold_left (fun s f => on_done s f (CbCount g)) l2 s2) with (prep s l2) in *.
  assert (T4 : tok g (coreof (fput (prep s l2) g (mk_fut Pending [CbStop] (KGather (List.length l2))))) = List.length l2).
  { pose proof (tokF_put g _ _ _ (mk_fut Pending [CbStop] (KGather (List.length l2))) G) as X. cbn [f_cbs] in X. change (tokb g []) with 0 in X. change (tokb g [CbStop]) with 0 in X. rewrite T2 in T3. unfold tok, coreof in *. cbn [fst snd fput set_futs ready futs] in *. rewrite !Nat.add_0_r in X. rewrite X. exact T3. }
  split.
  - rewrite T4. eexists. split; [cbn [fput set_futs futs]; rewrite (put_nth_get _ _ _ _ g G), Nat.eqb_refl; reflexivity|]. split; [reflexivity|discriminate].
  - intros t Ht. destruct (R3 t Ht) as [fu [E P]]. exists fu. split; auto. cbn [fput set_futs futs]. rewrite (put_nth_get _ _ _ _ t G). destruct (Nat.eqb_spec t g) as [->|]; auto. specialize (Hl _ Ht). fold g in Hl. lia.
  - cbn [fput set_futs futs]. eapply allcb_put; [|exact G|cbn; intros [X|[]]; discriminate].
    change (prep s l2) with (fold_left (fun s f => on_done s f (CbCount g)) l2 s2). apply on_dones_acb; [intros; now right|]. intros y fy Ey Hy. exfalso. apply tokb_In in Hy. pose proof (tokF_le g (futs s2) y fy Ey) as Y. unfold tok in T2. cbn [coreof fst snd] in T2. lia.
  - rewrite T4. intros fx _ X. exfalso. destruct l2; [now apply Ne|discriminate].
Qed.
Lemma gat_steps g l s s' : Wf s -> Gat g l s -> steps s s' -> Gat g l s'.
Proof.
  intros W0 S0 R. assert (X : Wf s' /\ Gat g l s'); [|apply X]. apply (steps_ind_inv shuffle dut delayers (fun s => Wf s /\ Gat g l s) _ _) in R; auto. intros fire s0 [W D]. split; [now apply step_wf|now apply gat_step].
Qed.
End Clean.
