(** The main coroutine is not cancelled unless user code awaits or cancels it. *)
From Coq Require Import List Bool Arith ZArith Lia Permutation.
From Verif Require Import Py Prio_Model Loop_Model Loop_Spec Loop_Proofs Loop2_Proofs Loop3_Proofs Loop4_Proofs Loop5_Proofs Loop6_Proofs Loop7_Proofs Loop8_Proofs Loop9_Proofs Loop10_Proofs Loop2_Spec Loop3_Spec Loop13_Proofs Loop17_Proofs Loop20_Proofs Loop21_Proofs Loop22_Proofs.
Import ListNotations.
Open Scope nat_scope.

Section Main.
Context {mem : Type}.
Notation prog := (@prog mem). Notation state := (@state mem). Notation body := (@body mem). Notation task := (@task mem).
Notation fut := (@fut mem). Notation kind := (@kind mem).
Implicit Types (s : state) (F : list fut).
Context (shuffle : list id -> list id) (dut delayers : mem -> mem).
Notation step := (step shuffle dut delayers). Notation steps := (steps shuffle dut delayers).

Section Prot.
(** [f0]: the future the main coroutine waits for at the end. *)
Context (f0 : option id).
Definition wok (t : id) (w : option id) : Prop := w <> Some 0 /\ (t <> 0 -> forall f, f0 = Some f -> w <> Some f).
Record Prot F : Prop := mk_prot
  { pr_wait : forall t st cbs k w m, nth_error F t = Some (mkt st cbs k w m) -> wok t w;
    pr_main : exists st cbs k w, nth_error F 0 = Some (mkt st cbs k w false);
    pr_fut : forall f, f0 = Some f -> exists fu, nth_error F f = Some fu /\ f_kind fu = KEv 0 /\ f_st fu <> Canc }.
Lemma prot_put F i x a : nth_error F i = Some x -> Prot F -> (forall st cbs k w m, a = mkt st cbs k w m -> wok i w) -> (i = 0 -> exists st cbs k w, a = mkt st cbs k w false) -> (f0 = Some i -> f_kind a = KEv 0 /\ f_st a <> Canc) -> Prot (put_nth i a F).
Proof.
  intros E [P1 P2 P3] H1 H2 H3. constructor.
  - intros t st cbs k w m X. rewrite (put_nth_get _ _ _ _ t E) in X. destruct (Nat.eqb_spec t i) as [->|]; [injection X as ->; eauto|eauto].
  - rewrite (put_nth_get _ _ _ _ 0 E). destruct (Nat.eqb_spec 0 i) as [<-|]; auto. destruct (H2 eq_refl) as [st [cbs [k [w ->]]]]. eauto 10.
  - intros f X. rewrite (put_nth_get _ _ _ _ f E). destruct (Nat.eqb_spec f i) as [->|]; auto. exists a. split; auto.
Qed.
Lemma prot_app F x : Prot F -> (forall st cbs k w m, x = mkt st cbs k w m -> w = None) -> Prot (F ++ [x]).
Proof.
  intros [P1 P2 P3] H. constructor.
  - intros t st cbs k w m X. rewrite nth_app_new in X. destruct (Nat.eqb_spec t (List.length F)); [|eauto]. injection X as ->. rewrite (H _ _ _ _ _ eq_refl). split; [discriminate|]. intros _ f _. discriminate.
  - destruct P2 as [st [cbs [k [w E]]]]. exists st, cbs, k, w. rewrite nth_error_app1; auto. apply nth_error_Some. congruence.
  - intros f X. destruct (P3 f X) as [fu [E Y]]. exists fu. rewrite nth_error_app1; auto. apply nth_error_Some. congruence.
Qed.
(** Same kind, callbacks changed. *)
Lemma prot_cbs F i st cbs kd cbs' : nth_error F i = Some (mk_fut st cbs kd) -> Prot F -> Prot (put_nth i (mk_fut st cbs' kd) F).
Proof.
  intros E P. eapply prot_put; eauto.
  - intros st1 cbs1 k w m X. injection X as -> _ ->. eapply pr_wait; eauto.
  - intros ->. destruct (pr_main _ P) as [st1 [cbs1 [k [w X]]]]. rewrite E in X. injection X as -> _ ->. unfold mkt. eauto 10.
  - intros X. destruct (pr_fut _ P i X) as [fu [E1 Y]]. rewrite E in E1. injection E1 as <-. exact Y.
Qed.
Notation P s := (Prot (futs s)).
Lemma prot_on_done s f c : P s -> P (on_done s f c).
Proof. intros H. unfold on_done. destruct (fget s f) as [[st cbs kd]|] eqn:E; auto. destruct (pending _); auto. cbn [fput set_futs futs]. eapply prot_cbs; eauto. Qed.
Lemma prot_settle s f st : st <> Canc \/ f0 <> Some f -> P s -> P (settle s f st).
Proof.
  intros D H. unfold settle. destruct (fget s f) as [fu|] eqn:E; auto. destruct (is_task (f_kind fu)) eqn:T; auto. unfold conclude. rewrite E. destruct (pending fu); auto. cbn [push set_ready fput set_futs futs]. eapply prot_put; eauto.
  - intros st1 cbs k w m X. injection X as _ _ X. rewrite X in T. discriminate.
  - intros ->. destruct (pr_main _ H) as [st1 [cbs1 [k [w X]]]]. unfold fget in E. rewrite E in X. injection X as ->. discriminate.
  - intros X. cbn [f_kind f_st]. destruct (pr_fut _ H f X) as [fu' [E' [Y Z]]]. unfold fget in E. rewrite E in E'. injection E' as <-. split; auto. destruct D as [D|D]; [exact D|now elim D].
Qed.
Lemma prot_tput s t tk : P s -> tget s t <> None -> wok t (k_wait tk) -> (t = 0 -> k_must tk = false) -> P (tput s t tk).
Proof.
  intros H T W M. unfold tput. destruct (tget s t) as [tk0|] eqn:T0; [|congruence]. destruct (tget_fut _ _ _ T0) as [st [cbs E]]. rewrite E. cbn [fput set_futs futs f_st f_cbs]. eapply prot_put; eauto.
  - intros st1 cbs1 k w m X. injection X as _ _ ->. exact W.
  - intros ->. destruct tk as [k w m]. cbn in M. rewrite (M eq_refl). unfold mkt. eauto 10.
  - intros X. exfalso. destruct (pr_fut _ H t X) as [fu' [E' [Y _]]]. unfold fget in E. rewrite E in E'. injection E' as <-. discriminate.
Qed.
Lemma prot_wok s t tk : P s -> tget s t = Some tk -> wok t (k_wait tk).
Proof. intros H T. destruct (tget_fut _ _ _ T) as [st [cbs E]]. destruct tk as [k w m]. eapply (pr_wait _ H). exact E. Qed.
Lemma prot_must s tk : P s -> tget s 0 = Some tk -> k_must tk = false.
Proof. intros H T. destruct (tget_fut _ _ _ T) as [st [cbs E]]. destruct (pr_main _ H) as [st1 [cbs1 [k [w X]]]]. unfold fget in E. rewrite E in X. injection X as -> -> ->. reflexivity. Qed.
Lemma prot_nf0 s t tk : P s -> tget s t = Some tk -> f0 <> Some t.
Proof. intros H T X. destruct (pr_fut _ H t X) as [fu [E [Y _]]]. destruct (tget_fut _ _ _ T) as [st [cbs E1]]. unfold fget in E1. rewrite E in E1. injection E1 as ->. discriminate. Qed.
Lemma prot_len s : P s -> 0 < List.length (futs s) /\ forall f, f0 = Some f -> f < List.length (futs s).
Proof. intros H. split; [destruct (pr_main _ H) as [st [cbs [k [w E]]]]|intros f X; destruct (pr_fut _ H f X) as [fu [E _]]]; apply nth_error_Some; congruence. Qed.
Definition okf (f : id) : Prop := f <> 0 /\ f0 <> Some f.
Lemma prot_fresh s : P s -> okf (List.length (futs s)).
Proof. intros H. destruct (prot_len s H) as [H1 H2]. split; [lia|]. intros X. specialize (H2 _ X). lia. Qed.
Lemma prot_nameable s f fu : P s -> fget s f = Some fu -> nameable (f_kind fu) = true -> f0 <> Some f.
Proof. intros H E N X. destruct (pr_fut _ H f X) as [fu' [E' [Y _]]]. unfold fget in E. rewrite E in E'. injection E' as <-. rewrite Y in N. discriminate. Qed.
Lemma prot_cancel n : forall s f, okf f -> P s -> P (fst (cancel n s f)).
Proof.
  induction n as [|n IH]; intros s f [H0 H1] H; simpl; destruct (fget s f) as [fu|] eqn:E; auto; destruct (pending fu) eqn:Pe; auto; destruct (f_kind fu) as [| | | | |tk] eqn:K; simpl; try (apply prot_settle; auto; fail).
  - assert (T : tget s f = Some tk) by (unfold tget; rewrite E; destruct fu; simpl in K; now rewrite K). assert (X : P (tput s f (mk_task (k_cont tk) (k_wait tk) true))) by (apply prot_tput; auto; [congruence|exact (prot_wok s f tk H T)|congruence]). destruct (k_wait tk); exact X.
  - assert (T : tget s f = Some tk) by (unfold tget; rewrite E; destruct fu; simpl in K; now rewrite K). assert (X : P (tput s f (mk_task (k_cont tk) (k_wait tk) true))) by (apply prot_tput; auto; [congruence|exact (prot_wok s f tk H T)|congruence]). destruct (k_wait tk) as [g|] eqn:Eg; [|exact X].
    assert (G : okf g). { pose proof (prot_wok s f tk H T) as [W1 W2]. rewrite Eg in W1, W2. split; [intros ->; now apply W1|]. intros Y. exact (W2 H0 _ Y eq_refl). }
    pose proof (IH s g G H) as Z. destruct (cancel n s g) as [s1 []]; auto.
Qed.
Lemma wok_none t : wok t None. Proof. split; [discriminate|]. intros _ f _. discriminate. Qed.
Lemma wok_okf t f : okf f -> wok t (Some f). Proof. intros [H1 H2]. split; [congruence|]. intros _ g X. congruence. Qed.
Lemma prot_suspend0 s t k : P s -> P (suspend0 s t k).
Proof. intros H. unfold suspend0. destruct (tget s t) as [tk|] eqn:T; auto. cbn [set_cur push set_ready futs]. apply prot_tput; auto; [congruence|apply wok_none|]. intros ->. cbn. eapply prot_must; eauto. Qed.
Lemma prot_suspend s t f k : okf f -> P s -> P (suspend s t f k).
Proof.
  intros HF H. unfold suspend. destruct (tget s t) as [tk|] eqn:T; auto. assert (M0 : t = 0 -> k_must tk = false) by (intros ->; eapply prot_must; eauto). destruct (Nat.eqb_spec t f) as [<-|N]; [cbn [set_cur push set_ready futs]; apply prot_tput; auto; [congruence|apply wok_none]|]. cbv zeta.
  set (s1 := set_cur _ _). assert (P1 : P s1) by (unfold s1; cbn [set_cur futs]; apply prot_on_done, prot_tput; auto; [congruence|now apply wok_okf]). destruct (k_must tk) eqn:M; [|exact P1].
  pose proof (prot_cancel (List.length (futs s1)) s1 f HF P1) as P2. destruct (cancel _ s1 f) as [s2 []]; [|exact P2]. cbn [fst] in P2. destruct (tget s2 t) as [tk'|] eqn:T'; auto. apply prot_tput; auto; [congruence|exact (prot_wok s2 t tk' P2 T')].
Qed.
Lemma prot_spawn s k : P s -> P (spawn s k).
Proof. intros H. unfold spawn. cbn [push set_ready falloc set_futs futs]. apply prot_app; auto. intros st cbs k0 w m X. injection X as _ _ _ <- _. reflexivity. Qed.
Lemma prot_fold {A} (h : state -> A -> state) l : (forall s a, In a l -> P s -> P (h s a)) -> forall s, P s -> P (fold_left h l s).
Proof. induction l as [|a l IH]; intros Hh s H; cbn [fold_left]; auto. apply IH; [intros; apply Hh; auto; now right|]. apply Hh; auto. now left. Qed.
Lemma prot_ev_set s e : P s -> P (ev_set s e).
Proof. intros H. unfold ev_set. destruct (nth_error (evs s) e) as [ev|]; auto. destruct (e_val ev); auto. apply prot_fold; auto. intros s0 a _ H0. apply prot_settle; auto. left. discriminate. Qed.
Lemma prot_ev_clear s e : P s -> P (ev_clear s e). Proof. intros H. unfold ev_clear. destruct (nth_error (evs s) e); auto. Qed.
Lemma prot_wake_next l : forall s, P s -> P (fst (wake_next s l)).
Proof. induction l as [|f l IH]; intros s H; simpl; auto. destruct (fpending s f); auto. apply prot_settle; auto. left. discriminate. Qed.
Lemma prot_q_wake s q : P s -> P (q_wake s q).
Proof. intros H. unfold q_wake. destruct (nth_error (qs s) q) as [qu|]; auto. pose proof (prot_wake_next (q_getters qu) s H) as X. destruct (wake_next s (q_getters qu)) as [s1 l]. exact X. Qed.
Lemma prot_falloc s st cbs kd : is_task kd = false -> P s -> P (falloc s (mk_fut st cbs kd)).
Proof. intros T H. unfold falloc. cbn [set_futs futs]. apply prot_app; auto. intros st1 cbs1 k w m X. injection X as _ _ ->. discriminate. Qed.
Lemma prot_q_get s t q k : P s -> P (q_get s t q k).
Proof. intros H. unfold q_get. destruct (nth_error (qs s) q) as [qu|]; auto. destruct (q_items qu); auto. apply prot_suspend; [now apply prot_fresh|]. change (P (falloc s (mk_fut Pending [] (KQueue q)))). now apply prot_falloc. Qed.
Lemma prot_finish s t r : P s -> tget s t <> None -> P (finish s t r).
Proof.
  intros H T. unfold finish. change (P (conclude s t (match r with Exn CancelledError => Canc | Exn e => Finished (Exn e) | Ok v => match tget s t with Some k => if k_must k then Canc else Finished (Ok v) | None => Finished (Ok v) end end))). set (st := match r with Ok _ => _ | Exn _ => _ end). clearbody st.
  unfold conclude. destruct (tget s t) as [tk|] eqn:T0; [|congruence]. destruct (tget_fut _ _ _ T0) as [st1 [cbs E]]. rewrite E. destruct (pending _); auto. cbn [push set_ready fput set_futs futs f_kind]. eapply prot_put; eauto.
  - intros st2 cbs2 k w m X. injection X as _ _ ->. exact (prot_wok s t _ H T0).
  - intros ->. pose proof (prot_must s tk H T0) as X. destruct tk as [k w m]. cbn in X. subst m. unfold mkt. eauto 10.
  - intros X. now elim (prot_nf0 s t tk H T0).
Qed.
Lemma prot_op s t o k : hands_off_op o -> P s -> P (exec_op s t o k).
Proof.
  intros HO H. unfold exec_op. destruct o as [f|m|fl| |p|f|f| |e|e|e| |q v|q|q| |h z [|]|l| |]; try exact H.
  - destruct (f (mm s)); exact H.
  - now apply prot_suspend0.
  - cbn [go set_cur futs]. now apply prot_spawn.
  - destruct (fget s f) as [fu|] eqn:E; [|exact H]. destruct (nameable (f_kind fu)) eqn:N; simpl; [|exact H]. destruct (pending fu); [|exact H]. apply prot_suspend; auto. split; auto. eapply prot_nameable; eauto.
  - destruct (fget s f) as [fu|] eqn:E; [|exact H]. destruct (nameable (f_kind fu)) eqn:N; simpl; [|exact H]. apply prot_cancel; auto. split; auto. eapply prot_nameable; eauto.
  - destruct (nth_error (evs s) e) as [ev|]; [|exact H]. destruct (e_priv ev); [exact H|]. exact (prot_ev_set s e H).
  - destruct (nth_error (evs s) e) as [ev|]; [|exact H]. destruct (e_priv ev); [exact H|]. exact (prot_ev_clear s e H).
  - destruct (nth_error (evs s) e) as [ev|]; [|exact H]. destruct (e_val ev); [exact H|]. apply prot_suspend; [now apply prot_fresh|]. change (P (falloc s (mk_fut Pending [] (KEv e)))). now apply prot_falloc.
  - destruct (nth_error (qs s) q) as [qu|]; [|exact H]. cbn [go set_cur futs]. apply prot_q_wake. exact H.
  - now apply prot_q_get.
  - destruct (nth_error (qs s) q); exact H.
  - cbn [go set_cur futs]. now apply prot_falloc.
  - destruct (nodup _ _) as [|x l']; [cbn [go set_cur futs]; now apply prot_falloc|]. cbn [go set_cur futs]. apply (prot_fold (fun s0 f => on_done s0 f (CbCount (List.length (futs s))))); [intros; now apply prot_on_done|now apply prot_falloc].
  - destruct (clock s); [exact H|]. cbn [go set_cur set_clock futs]. now apply prot_spawn.
Qed.
Context (shuffled : forall l, Permutation l (shuffle l)).
Lemma prot_clk s t c : P s -> P (exec_clk shuffle dut delayers s t c).
Proof.
  intros H. destruct c as [| | |[|[h ev] todo] sb| | | |last]; cbn [exec_clk]; try exact H.
  - destruct (tdone s); [exact H|now apply prot_suspend0].
  - now apply prot_suspend0.
  - destruct (has_unwait s t || flag s); exact H.
  - fold (others shuffle s t). assert (OK : forall x, In x (others shuffle s t) -> okf x).
    { intros x Hx. apply (others_iff shuffle shuffled) in Hx. destruct Hx as [U [_ N]]. split; auto. unfold unfinished in U. apply live_iff in U. destruct (live_task _ _ U) as [cbs [k [w [m E]]]]. apply (prot_nf0 s x (mk_task k w m) H). unfold tget, fget. rewrite E. reflexivity. }
    assert (P1 : P (fold_left cancel_top (others shuffle s t) s)) by (apply prot_fold; auto; intros s0 a Ha H0; now apply prot_cancel; auto).
    destruct (others shuffle s t) as [|x l]; [now apply prot_suspend0|]. apply prot_suspend; [now apply prot_fresh|]. apply (prot_fold (fun s0 f => on_done s0 f (CbCount (List.length (futs (fold_left cancel_top (x :: l) s)))))); [intros; now apply prot_on_done|]. now apply prot_falloc.
  - now apply prot_suspend0.
  - cbn [go set_cur futs]. apply prot_ev_clear, prot_ev_set. exact H.
Qed.
Definition bodyok (b : body) : Prop := match b with BProg (Op o _) | BHook (Op o _) _ _ _ | BTest (Op o _) => hands_off_op o | _ => True end.
Lemma prot_step fire s : All s -> (forall t b, cur s = Some (t, b) -> bodyok b) -> P s -> P (step fire s).
Proof.
  intros [EV C] HB H. pose proof (v_wf _ EV) as W. pose proof W as [I K]. unfold Loop_Model.step. destruct (cur s) as [[t b]|] eqn:Hc.
  - specialize (HB _ _ eq_refl). destruct (cur_live _ I t b Hc) as [cbs0 [k0 [m0 E0]]]. cbn [coreof snd] in E0. assert (T : tget s t <> None) by (unfold tget, fget; rewrite E0; discriminate).
    pose proof (v_done _ EV _ _ Hc) as CD.
    destruct b as [[v|e|o kk]|[v|e|o kk] ev todo sb|c|e f r kk|q f [v|e] kk|test|[v|e|o kk]]; cbn [exec_body bodyok] in *; try (now apply prot_finish); try (now apply prot_op); try exact H.
    + destruct ev as [e|]; [|exact H]. cbn [go set_cur futs]. apply prot_ev_set. exact H.
    + now apply prot_clk.
    + destruct (nth_error (evs s) e); exact H.
    + now apply prot_q_get.
    + destruct CD as [fu [Ef [Pf Kf]]]. assert (X : settle s f Canc = s) by (unfold settle, fget; rewrite Ef, Kf; cbn [is_task]; unfold conclude, fget; rewrite Ef, Pf; reflexivity). rewrite X.
      set (s2 := match nth_error (qs s) q with Some _ => _ | None => _ end). assert (P2 : P s2) by (unfold s2; destruct (nth_error (qs s) q); exact H). cbn [go set_cur futs].
      destruct (nth_error (qs s2) q) as [qu|]; [|exact P2]. destruct (fget s2 f) as [fu2|]; [|exact P2]. destruct (q_items qu); [exact P2|]. destruct (f_st fu2); try exact P2. now apply prot_q_wake.
    + destruct (clock s); [apply prot_op; auto; exact Logic.I|apply prot_finish; auto].
  - destruct (batch s) as [|n].
    + destruct (stopping s); auto. cbv zeta. cbn [set_batch futs]. apply prot_fold; auto. intros s0 a _ H0. unfold fire1. destruct (fget s0 a) as [[st cbs []]|] eqn:E; auto. cbn [push set_ready fput set_futs futs]. eapply prot_put; eauto; [discriminate| |].
      * intros ->. destruct (pr_main _ H0) as [st1 [cbs1 [k [w X]]]]. unfold fget in E. rewrite E in X. discriminate.
      * intros X. destruct (pr_fut _ H0 a X) as [fu [E1 [Y _]]]. unfold fget in E. rewrite E in E1. injection E1 as <-. discriminate.
    + destruct (ready s) as [|h r] eqn:Hr; [exact H|]. set (s0 := set_batch (set_ready s r) n). assert (P0 : P s0) by exact H.
      assert (RS : forall x y, P (resume s0 x y)).
      { intros x y. unfold resume. destruct (tget s0 x) as [tk|] eqn:T; auto. cbn [go set_cur futs]. apply prot_tput; auto; [congruence|apply wok_none]. }
      destruct h as [x|x e|x f|g| |f]; cbn [run_handle]; auto.
      * destruct (fget s0 g) as [[st cbs []]|] eqn:E; auto. destruct need as [|n']; auto. assert (P1 : P (fput s0 g (mk_fut st cbs (KGather n')))).
        { cbn [fput set_futs futs]. eapply prot_put; eauto; [discriminate| |].
          - intros ->. destruct (pr_main _ P0) as [st1 [cbs1 [k [w X]]]]. unfold fget in E. rewrite E in X. discriminate.
          - intros X. destruct (pr_fut _ P0 g X) as [fu [E1 [Y _]]]. unfold fget in E. rewrite E in E1. injection E1 as <-. discriminate. }
        destruct n'; auto. apply prot_settle; auto. left. discriminate.
      * apply prot_settle; auto. left. discriminate.
Qed.
End Prot.

(** A task waits for a future that exists. *)
Definition Rng F : Prop := forall t st cbs k w m, nth_error F t = Some (mkt st cbs k w m) -> forall g, w = Some g -> g < List.length F.
Lemma m1_rng N S (c c1 : @core mem) : m1 N S c c1 -> Rng (snd c) -> Rng (snd c1).
Proof.
  intros H A. destruct H; cbn [snd] in *; auto; intros x st0 cbs0 k1 w0 m0 E; rewrite ?put_nth_length, ?app_length.
  - rewrite (put_nth_get _ _ _ _ x H) in E. destruct (Nat.eqb x f); [|eauto]. injection E as <- _ E. subst k. discriminate.
  - rewrite (put_nth_get _ _ _ _ x H) in E. destruct (Nat.eqb x t); [|eauto]. injection E as <- <- <- <- <-. eauto.
  - rewrite (put_nth_get _ _ _ _ x H) in E. destruct (Nat.eqb_spec x f) as [->|]; [|eauto]. injection E as _ _ ->. eapply A. exact H.
  - rewrite (put_nth_get _ _ _ _ x H) in E. destruct (Nat.eqb x f); [|eauto]. injection E as <- <- ->. destruct k; simpl in *; contradiction.
  - rewrite nth_app_new in E. destruct (Nat.eqb x (List.length F)); [|intros g X; pose proof (A _ _ _ _ _ _ E g X); lia]. injection E as _ _ ->. discriminate.
  - rewrite nth_app_new in E. destruct (Nat.eqb x (List.length F)); [|intros g X; pose proof (A _ _ _ _ _ _ E g X); lia]. injection E as _ _ _ <- _. discriminate.
  - rewrite (put_nth_get _ _ _ _ x H) in E. destruct (Nat.eqb x t); [|eauto]. injection E as _ _ _ <- _. discriminate.
  - assert (E1 : nth_error (put_nth t (mkt st cbs k (Some f) m) F) f = Some (mk_fut Pending cbs' kd)).
    { rewrite (put_nth_get _ _ _ _ f H). destruct (Nat.eqb_spec f t); [congruence|assumption]. }
    rewrite (put_nth_get _ _ _ _ x E1) in E. destruct (Nat.eqb_spec x f) as [->|].
    + injection E as _ _ ->. eapply A. exact H0.
    + rewrite (put_nth_get _ _ _ _ x H) in E. destruct (Nat.eqb x t); [|eauto]. injection E as _ _ _ <- _. intros g X. injection X as <-. apply nth_error_Some. congruence.
  - rewrite (put_nth_get _ _ _ _ x H) in E. destruct (Nat.eqb x t); [|eauto]. injection E as _ _ <- <- _. eauto.
  - rewrite (put_nth_get _ _ _ _ x H0) in E. destruct (Nat.eqb x t); [|eauto]. injection E as _ _ _ <- _. discriminate.
Qed.
Lemma reach_rng test m s : steps (init test m) s -> Rng (futs s).
Proof.
  intros R. assert (X : Wf s /\ Rng (futs s)); [|apply X]. apply (steps_ind_inv shuffle dut delayers (fun s => Wf s /\ Rng (futs s)) _ _) in R; auto.
  - intros fire s0 [W A]. split; [now apply step_wf|]. destruct W as [I K]. exact (mstar_inv _ _ (fun c => Rng (snd c)) _ _ (m1_rng _ _) (True_ms_kin shuffle dut delayers fire s0 I K) A).
  - split; [apply init_wf|]. intros [|[|t]] st cbs k w mu E; cbn in E; try discriminate. injection E as _ _ _ <- _. discriminate.
Qed.
Lemma body_hands b : @goodb mem hands_off_op (fun _ _ => True) b -> bodyok b.
Proof. destruct b as [[v|e|o kk]|[v|e|o kk] ev todo sb|c|e f r kk|q f r kk|test|[v|e|o kk]]; cbn [goodb bodyok]; auto; intros H; [apply allp_op in H|destruct H as [[H _] _]; cbn [fst] in H; apply allp_op in H|apply allp_op in H]; apply H. Qed.
Lemma reach_hands test m s : hands_off test -> steps (init test m) s -> forall t b, cur s = Some (t, b) -> bodyok b.
Proof.
  intros T R t b Hc. apply body_hands. refine (g_cur _ _ s (reach_good shuffle dut delayers hands_off_op (fun _ _ => True) _ _ test m s T R) t b Hc); auto.
Qed.
Lemma untouched_ok test m s : untouched shuffle dut delayers test m -> steps (init test m) s -> forall t b, cur s = Some (t, b) -> bodyok b.
Proof. intros U R t b Hc. specialize (fun o => U s o R). unfold current_op in U. rewrite Hc in U. destruct b as [[v|e|o kk]|[v|e|o kk] ev todo sb|c|e f r kk|q f r kk|te|[v|e|o kk]]; cbn [bodyok]; auto. Qed.
Lemma hands_untouched test m : hands_off test -> untouched shuffle dut delayers test m.
Proof.
  intros T s o R X. unfold current_op in X. destruct (cur s) as [[t b]|] eqn:Hc; [|discriminate]. pose proof (reach_hands test m s T R t b Hc) as Y.
  destruct b as [[v|e|o' kk]|[v|e|o' kk] ev todo sb|c|e f r kk|q f r kk|te|[v|e|o' kk]]; try discriminate; injection X as <-; exact Y.
Qed.
Lemma init_prot test m : Prot None (futs (init test m : state)).
Proof.
  constructor; cbn [init futs].
  - intros [|[|t]] st cbs k w mu E; cbn in E; try discriminate. injection E as _ _ _ <- _. apply wok_none.
  - unfold mkt. cbn. eauto 10.
  - discriminate.
Qed.
Context (shuffled : forall l, Permutation l (shuffle l)).
Lemma reach_prot test m s : untouched shuffle dut delayers test m -> steps (init test m) s -> Prot None (futs s).
Proof.
  intros T R. remember (init test m) as i eqn:Ei. induction R as [a|a s1 fire R IH]; subst a; [apply init_prot|].
  apply prot_step; auto; [eapply reach_all; eauto|eapply untouched_ok; eauto].
Qed.
Lemma steps_mono s s' : steps s s' -> nstep s <= nstep s'.
Proof. induction 1 as [s|s s1 fire R IH]; auto. rewrite nstep_step. destruct (cur s1) as [[t [| |[]| | | | ]]|]; lia. Qed.
Lemma reach_once test m s : steps (init test m) s -> Once test s.
Proof. intros R. exact (ba_once _ _ (reach_base shuffle dut delayers test m s R)). Qed.
Lemma steps_tdone test m s s' : steps (init test m) s -> tdone s = Some true -> steps s s' -> tdone s' = Some true.
Proof. intros R T R2. induction R2 as [s|s s1 fire R2 IH]; auto. eapply step_tdone; auto. eapply reach_once. eapply steps_trans; eauto. Qed.
(** The rest of main_coro after the test has returned [v]. *)
Definition kbv (v : lval) (r : res lval) : body := BProg (match r with Ok _ => Ret v | Exn e => Raise e end).
Lemma ret_tdone fire s v : cur s = Some (0, BTest (Ret v)) -> tdone (step fire s) = Some true.
Proof. intros Hc. rewrite (fr_tdone _ _ (step_fr shuffle dut delayers fire s)). unfold seff. rewrite Hc. reflexivity. Qed.
Lemma cur_pending s t b : All s -> cur s = Some (t, b) -> state_of s t = Some Pending.
Proof. intros A Hc. destruct (cur_live _ (proj1 (v_wf _ (proj1 A))) t b Hc) as [cbs [k [m E]]]. cbn [snd coreof] in E. unfold state_of, fget. now rewrite E. Qed.
Lemma ret_waits fire s v : test_returned s v -> clock s <> None -> step fire s = exec_op (set_tdone s (Some true)) 0 (OEvWait 0) (kbv v).
Proof. intros Hc Hk. unfold Loop_Model.step. rewrite Hc. cbn [exec_body]. destruct (clock s); [reflexivity|congruence]. Qed.
Lemma finish_at s t r cbs k w m : fget s t = Some (mkt Pending cbs k w m) ->
  state_of (finish s t r) t = Some (match r with Exn CancelledError => Canc | Exn e => Finished (Exn e) | Ok v => if m then Canc else Finished (Ok v) end).
Proof.
  intros E. unfold finish. change (state_of (conclude s t (match r with Exn CancelledError => Canc | Exn e => Finished (Exn e) | Ok v => match tget s t with Some k => if k_must k then Canc else Finished (Ok v) | None => Finished (Ok v) end end)) t = Some (match r with Exn CancelledError => Canc | Exn e => Finished (Exn e) | Ok v => if m then Canc else Finished (Ok v) end)).
  unfold tget. rewrite E. cbn [mkt k_must]. unfold conclude. rewrite E. cbn [mkt pending f_st f_cbs f_kind]. unfold state_of, fget. cbn [push set_ready fput set_futs futs]. rewrite (put_nth_get _ _ _ _ t E), Nat.eqb_refl. reflexivity.
Qed.
Lemma done_fut s st : state_of s 0 = Some st -> st <> Pending -> done0 s.
Proof. unfold state_of, fget, done0. destruct (nth_error (futs s) 0) as [fu|]; [|discriminate]. intros X Y. injection X as <-. exists fu. split; auto. unfold pending. destruct (f_st fu); congruence. Qed.
(** The two ways the last part of main_coro can go on. *)
Lemma main_left test m n0 v pr s s' : steps (init test m) s -> tdone s = Some true -> cur s = Some (0, BProg pr) -> (pr = Ret v /\ nstep s = S n0) \/ pr = Raise CancelledError -> steps s s' ->
  (state_of s' 0 = Some Pending /\ s' = s) \/ (state_of s' 0 = Some (Finished (Ok v)) /\ S n0 <= nstep s' <= S (S n0)) \/
  (state_of s' 0 = Some Canc /\ (pr = Ret v -> exists tk, tget s 0 = Some tk /\ k_must tk = true)).
Proof.
  intros R TD Hc HP R2. pose proof (reach_all shuffle dut delayers test m s R) as A. destruct (steps_first shuffle dut delayers s s' R2) as [->|[fire R3]]; [left; split; auto; eapply cur_pending; eauto|right].
  destruct (cur_live _ (proj1 (v_wf _ (proj1 A))) 0 _ Hc) as [cbs [k [mu E]]]. cbn [snd coreof] in E.
  assert (R4 : steps (init test m) (step fire s)) by (apply steps_step; exact R). pose proof (v_wf _ (proj1 (reach_all shuffle dut delayers test m _ R4))) as W.
  assert (TD4 : tdone (step fire s) = Some true) by (eapply step_tdone; auto; eapply reach_once; eauto). assert (NS : nstep (step fire s) = nstep s) by (rewrite nstep_step, Hc; reflexivity).
  destruct HP as [[-> N]| ->].
  - assert (X : step fire s = finish s 0 (Ok v)) by (unfold Loop_Model.step; now rewrite Hc). pose proof (finish_at s 0 (Ok v) cbs k None mu E) as Y. rewrite <- X in Y. destruct mu.
    + right. split; [eapply state_of_done; eauto; discriminate|]. intros _. exists (mk_task k None true). split; auto. unfold tget, fget. now rewrite E.
    + left. split; [eapply state_of_done; eauto; discriminate|]. pose proof (steps_mono _ _ R3). assert (DN : done0 (step fire s)) by (apply (done_fut _ _ Y); discriminate). pose proof (after_main shuffle dut delayers test m _ s' R4 DN TD4 R3). lia.
  - assert (X : step fire s = finish s 0 (Exn CancelledError)) by (unfold Loop_Model.step; now rewrite Hc). pose proof (finish_at s 0 (Exn CancelledError) cbs k None mu E) as Y. rewrite <- X in Y. right. split; [eapply state_of_done; eauto; discriminate|discriminate].
Qed.
(** The result of the main coroutine. *)
Lemma main_result test m s v s' : steps (init test m) s -> test_returned s v -> clock s <> None -> steps s s' ->
  state_of s' 0 = Some Pending \/ (state_of s' 0 = Some (Finished (Ok v)) /\ S (nstep s) <= nstep s' <= S (S (nstep s))) \/ state_of s' 0 = Some Canc.
Proof.
  intros R Hc Hk R2. pose proof (reach_all shuffle dut delayers test m s R) as A.
  assert (HO : forall fire, exists s0, futs s0 = futs s /\ evs s0 = evs s /\ nstep s0 = nstep s /\ step fire s = exec_op s0 0 (OEvWait 0) (kbv v)) by (intros fire; exists (set_tdone s (Some true)); repeat split; auto; now apply ret_waits).
  destruct (wait_once shuffle dut delayers 0 (kbv v) _ s s' A Hc HO R2) as [->|[[f [fu [cbs [mu [_ [E _]]]]]]|[[f [r [X _]]]|[s1 [fire [R3 [R4 L]]]]]]].
  - left. eapply cur_pending; eauto.
  - left. unfold state_of, fget. now rewrite E.
  - left. eapply cur_pending; [|exact X]. eapply steps_all; eauto.
  - assert (R1 : steps (init test m) s1) by (exact (steps_trans _ _ _ _ _ _ R R3)). assert (R5 : steps (init test m) (step fire s1)) by (apply steps_step; exact R1).
    assert (TD1 : tdone s1 = Some true).
    { destruct (steps_first shuffle dut delayers s s1 R3) as [->|[fi R6]].
      - exfalso. destruct L as [f [r [L _]]]. unfold test_returned in Hc. congruence.
      - apply (steps_tdone test m (step fi s)); auto; [apply steps_step; exact R|]. eapply ret_tdone. exact Hc. }
    assert (TD : tdone (step fire s1) = Some true) by (eapply step_tdone; auto; eapply reach_once; eauto).
    pose proof (leaving_step shuffle dut delayers fire _ _ _ _ L) as LL. unfold Left_, kbv, CE in LL.
    assert (LL' : exists pr, cur (step fire s1) = Some (0, BProg pr) /\ ((pr = Ret v /\ nstep (step fire s1) = S (nstep s)) \/ pr = Raise CancelledError)) by (destruct LL as [[X N]|X]; eauto 6).
    destruct LL' as [pr [X Y]]. destruct (main_left test m (nstep s) v pr _ s' R5 TD X Y R4) as [[Z _]|[Z|[Z _]]]; auto.
Qed.
(** With [untouched]: task 0 is the only one waiting for its future. *)
Definition MW (f : id) (n0 : nat) (v : lval) s : Prop := Prot (Some f) (futs s) /\
  ((InWait n0 0 (kbv v) s /\ waits_for s 0 f) \/ ((exists f', cur s = Some (0, BEv 0 f' (Ok (VBool true)) (kbv v))) /\ nstep s = S n0) \/ (cur s = Some (0, BProg (Ret v)) /\ nstep s = S n0)).
Lemma mw_enter test m fire s v : untouched shuffle dut delayers test m -> steps (init test m) s -> test_returned s v -> clock s <> None -> MW (List.length (futs s)) (nstep s) v (step fire s).
Proof.
  intros T R Hc Hk. pose proof (reach_all shuffle dut delayers test m s R) as A. pose proof (reach_prot test m s T R) as P0. pose proof (ret_waits fire s v Hc Hk) as X. set (s0 := set_tdone s (Some true)) in X.
  destruct (cur_live _ (proj1 (v_wf _ (proj1 A))) 0 _ Hc) as [cbs [k [mu E]]]. cbn [snd coreof] in E. destruct (v_zero _ (proj1 A)) as [ws Z].
  assert (IW : InWait (nstep s) 0 (kbv v) (step fire s)) by (rewrite X; change (nstep s) with (nstep s0); eapply wait_enter; [exact E|exact Z]).
  assert (mu = false). { destruct (pr_main _ _ P0) as [st1 [cbs1 [k1 [w1 Y]]]]. rewrite E in Y. now injection Y as _ _ _ _ ->. } subst mu.
  assert (Lt : 0 < List.length (futs s)) by (apply nth_error_Some; congruence). set (f := List.length (futs s)) in *.
  assert (FE : futs (step fire s) = put_nth f (mk_fut Pending [CbWake 0] (KEv 0)) (put_nth 0 (mkt Pending cbs (fun r => BEv 0 f r (kbv v)) (Some f) false) (futs s ++ [mk_fut Pending [] (KEv 0)]))).
  { rewrite X. unfold exec_op. change (evs s0) with (evs s). rewrite Z. cbn [e_val e_waiters e_priv]. change (List.length (futs s0)) with f. set (s1 := eput _ _ _).
    assert (E1 : fget s1 0 = Some (mkt Pending cbs k None false)). { unfold fget. change (futs s1) with (futs s ++ [mk_fut Pending [] (KEv 0)]). rewrite nth_app_new. fold f. destruct (Nat.eqb_spec 0 f); [lia|exact E]. }
    unfold suspend. unfold tget. rewrite E1. cbn [mkt]. destruct (Nat.eqb_spec 0 f) as [Y|_]; [lia|]. unfold tput. rewrite E1. cbn [f_st f_cbs mkt k_must].
    set (s2 := fput s1 0 _). assert (F2 : fget s2 f = Some (mk_fut Pending [] (KEv 0))).
    { unfold s2, fget. cbn [fput set_futs futs]. rewrite (put_nth_get _ _ _ _ f E1). destruct (Nat.eqb_spec f 0); [lia|]. change (futs s1) with (futs s ++ [mk_fut Pending [] (KEv 0)]). rewrite nth_app_new. fold f. now rewrite Nat.eqb_refl. }
    unfold on_done. rewrite F2. reflexivity. }
  assert (GET : forall x, nth_error (futs (step fire s)) x = if Nat.eqb x f then Some (mk_fut Pending [CbWake 0] (KEv 0)) else if Nat.eqb x 0 then Some (mkt Pending cbs (fun r => BEv 0 f r (kbv v)) (Some f) false) else nth_error (futs s) x).
  { intros x. rewrite FE. assert (G0 : nth_error (futs s ++ [mk_fut Pending [] (KEv 0)]) 0 = Some (mkt Pending cbs k None false)) by (rewrite nth_app_new; fold f; destruct (Nat.eqb_spec 0 f); [lia|exact E]).
    assert (G1 : nth_error (put_nth 0 (mkt Pending cbs (fun r => BEv 0 f r (kbv v)) (Some f) false) (futs s ++ [mk_fut Pending [] (KEv 0)])) f = Some (mk_fut Pending [] (KEv 0))) by (rewrite (put_nth_get _ _ _ _ f G0), nth_app_new; fold f; destruct (Nat.eqb_spec f 0); [lia|now rewrite Nat.eqb_refl]).
    rewrite (put_nth_get _ _ _ _ x G1), (put_nth_get _ _ _ _ x G0), nth_app_new. fold f. destruct (Nat.eqb x f); auto. }
  split; [constructor|left; split; [exact IW|]].
  - intros t st cbs1 k1 w m1 Y. rewrite GET in Y. destruct (Nat.eqb_spec t f); [discriminate|]. destruct (Nat.eqb_spec t 0) as [->|N].
    + injection Y as _ _ _ <- _. split; [intros Q; injection Q as Q; lia|congruence].
    + destruct (pr_wait _ _ P0 _ _ _ _ _ _ Y) as [W1 _]. split; auto. intros _ f' Q. injection Q as <-. intros ->.
      pose proof (reach_rng test m s R _ _ _ _ _ _ Y f eq_refl). lia.
  - exists Pending, cbs, (fun r => BEv 0 f r (kbv v)), (Some f). rewrite GET. destruct (Nat.eqb_spec 0 f); [lia|reflexivity].
  - intros f' Q. injection Q as <-. rewrite GET, Nat.eqb_refl. eexists. split; [reflexivity|]. split; [reflexivity|discriminate].
  - exists (mk_task (fun r => BEv 0 f r (kbv v)) (Some f) false). split; auto. unfold tget, fget. rewrite GET. destruct (Nat.eqb_spec 0 f); [lia|reflexivity].
Qed.
Lemma mw_step test m fire f n0 v s : untouched shuffle dut delayers test m -> steps (init test m) s -> MW f n0 v s -> MW f n0 v (step fire s) \/ state_of (step fire s) 0 = Some (Finished (Ok v)) /\ nstep (step fire s) = S n0.
Proof.
  intros T R [P0 H]. pose proof (reach_all shuffle dut delayers test m s R) as A. pose proof (v_wf _ (proj1 A)) as W.
  assert (P1 : Prot (Some f) (futs (step fire s))) by (apply prot_step; auto; eapply untouched_ok; eauto).
  destruct H as [[IW WF]|[[[f' Hc] N]|[Hc N]]].
  - left. split; auto. pose proof IW as [g [fu [cbs [mu [Hn [E [Ef [Kf Ph]]]]]]]].
    assert (g = f). { destruct WF as [tk [X Y]]. unfold tget, fget in X. rewrite E in X. injection X as <-. cbn [k_wait] in Y. congruence. } subst g.
    assert (SU : Susp 0 (fun r => BEv 0 f r (kbv v)) (Some f) s) by (split; eauto).
    destruct (inwait_step shuffle dut delayers fire n0 0 (kbv v) s A IW) as [X|X]; destruct (susp_step shuffle dut delayers fire 0 _ (Some f) s W SU) as [Y|[r [Y1 [Y2 [Y3 _]]]]].
    + left. split; auto. destruct Y as [_ [cbs' [mu' Y]]]. exists (mk_task (fun r => BEv 0 f r (kbv v)) (Some f) mu'). split; auto. unfold tget, fget. now rewrite Y.
    + exfalso. destruct X as [g [fu' [cbs' [mu' [X _]]]]]. exact (X _ Y1).
    + exfalso. destruct X as [g [r [X _]]]. destruct Y as [Y _]. exact (Y _ X).
    + right; left. destruct X as [g [r' [X Z]]]. rewrite X in Y1. injection Y1 as _ <-. assert (Q : r' = Ok (VBool true)).
      { destruct Y2 as [[_ [tk [Q1 Q2]]]|[st [Q1 [Q2 Q3]]]].
        - exfalso. rewrite (prot_must (Some f) s tk P0 Q1) in Q2. discriminate.
        - unfold state_of, fget in Q1. rewrite Ef in Q1. injection Q1 as <-. destruct (pr_fut _ _ P0 f eq_refl) as [fu2 [Q4 [_ Q5]]]. rewrite Ef in Q4. injection Q4 as <-.
          destruct Ph as [[Q6 _]|[[Q6 _]|Q6]]; [now elim Q2|rewrite Q6 in Q3; exact Q3|now elim Q5]. }
      subst r'. destruct Z as [[_ Z]|Z]; [|discriminate]. split; eauto.
  - left. split; auto. right; right. rewrite nstep_step, Hc. split; auto. unfold Loop_Model.step. rewrite Hc. reflexivity.
  - right. rewrite nstep_step, Hc. split; auto. destruct (cur_live _ (proj1 W) 0 _ Hc) as [cbs [k [mu E]]]. cbn [snd coreof] in E.
    assert (mu = false). { destruct (pr_main _ _ P0) as [st1 [cbs1 [k1 [w1 Y]]]]. rewrite E in Y. now injection Y as _ _ _ _ ->. } subst mu.
    pose proof (finish_at s 0 (Ok v) cbs k None false E) as Y. unfold Loop_Model.step. rewrite Hc. exact Y.
Qed.
Lemma mw_pending test m f n0 v s : steps (init test m) s -> MW f n0 v s -> state_of s 0 = Some Pending /\ n0 <= nstep s <= S n0.
Proof.
  intros R [P0 H]. pose proof (reach_all shuffle dut delayers test m s R) as A. destruct H as [[[g [fu [cbs [mu [Hn [E [Ef [Kf Ph]]]]]]]] WF]|[[[f' Hc] N]|[Hc N]]].
  - split; [unfold state_of, fget; now rewrite E|]. destruct Ph as [[_ N]|[[_ [N _]]|N]]; try lia. exfalso. assert (g = f) by (destruct WF as [tk [X Y]]; unfold tget, fget in X; rewrite E in X; injection X as <-; cbn [k_wait] in Y; congruence). subst g.
    destruct (pr_fut _ _ P0 f eq_refl) as [fu2 [Q4 [_ Q5]]]. rewrite Ef in Q4. injection Q4 as <-. now elim Q5.
  - split; [eapply cur_pending; eauto|lia].
  - split; [eapply cur_pending; eauto|lia].
Qed.
(** The main coroutine returns the value of the test. *)
Lemma main_result_off test m s v s' : untouched shuffle dut delayers test m -> steps (init test m) s -> test_returned s v -> clock s <> None -> steps s s' ->
  (state_of s' 0 = Some Pending /\ nstep s <= nstep s' <= S (nstep s)) \/ (state_of s' 0 = Some (Finished (Ok v)) /\ S (nstep s) <= nstep s' <= S (S (nstep s))).
Proof.
  intros T R Hc Hk R2. destruct (steps_first shuffle dut delayers s s' R2) as [->|[fire R3]]; [left; split; [eapply cur_pending; [eapply reach_all; exact R|exact Hc]|lia]|].
  assert (R4 : steps (init test m) (step fire s)) by (apply steps_step; exact R).
  assert (X : MW (List.length (futs s)) (nstep s) v s' \/ exists s1, steps (step fire s) s1 /\ steps s1 s' /\ state_of s1 0 = Some (Finished (Ok v)) /\ nstep s1 = S (nstep s)).
  { remember (step fire s) as a eqn:Ea. induction R3 as [a|a s1 fi R3 IH].
    - left. subst a. eapply mw_enter; eauto.
    - assert (R5 : steps s s1). { apply (steps_trans _ _ _ s a s1); auto. subst a. apply steps_step, steps_refl. } destruct (IH R5 Ea R4) as [X|[s2 [X1 [X2 [X3 X4]]]]].
      + assert (R6 : steps (init test m) s1) by (exact (steps_trans _ _ _ _ _ _ R4 R3)). destruct (mw_step test m fi _ _ _ s1 T R6 X) as [Y|[Y1 Y2]]; auto. right. exists (step fi s1). split; [apply steps_step; exact R3|]. split; [apply steps_refl|auto].
      + right. exists s2. split; auto. split; [apply steps_step; exact X2|auto]. }
  destruct X as [X|[s1 [X1 [X2 [X3 X4]]]]].
  - left. eapply mw_pending; [exact (steps_trans _ _ _ _ _ _ R R2)|exact X].
  - right. assert (R6 : steps (init test m) s1) by (exact (steps_trans _ _ _ _ _ _ R4 X1)). split.
    + eapply state_of_done; eauto; [apply (v_wf _ (proj1 (reach_all shuffle dut delayers test m s1 R6)))|discriminate].
    + pose proof (steps_mono _ _ X2). assert (DN : done0 s1) by (apply (done_fut _ _ X3); discriminate). assert (TD1 : tdone s1 = Some true) by (apply (steps_tdone test m (step fire s)); auto; eapply ret_tdone; exact Hc).
      pose proof (after_main shuffle dut delayers test m s1 s' R6 DN TD1 X2). lia.
Qed.
(** * What runs before the cancellation *)
Lemma pre_cancel test m s c : steps (init test m) s -> at_cancel s c -> exists s1 fire, steps (init test m) s1 /\ s = step fire s1 /\ cur s1 = Some (c, BClk CTail).
Proof.
  intros R Hc. unfold at_cancel in Hc. remember (init test m) as i eqn:Ei. destruct R as [a|a s1 fire R]; subst a; [discriminate|]. exists s1, fire. split; auto. split; auto.
  pose proof (reach_all shuffle dut delayers test m s1 R) as A. pose proof (v_wf _ (proj1 A)) as W. pose proof (step_all shuffle dut delayers fire s1 A) as A'.
  assert (CS : clock (step fire s1) = Some c) by (apply (clock_of _ c _ (proj2 A') Hc); intros []).
  assert (SUSP : forall c0 b w, (b = CGathered \/ b = CStep true) -> clock s1 = Some c0 -> Susp c0 (start (BClk b)) w s1 -> False).
  { intros c0 b w Hb C0 SU. pose proof (clock_step shuffle dut delayers fire s1 c0 C0) as CS0. assert (c0 = c) by congruence. subst c0. destruct (susp_step shuffle dut delayers fire c _ _ s1 W SU) as [[X _]|[r [X _]]]; [exact (X _ Hc)|].
    rewrite Hc in X. destruct r; cbn [start] in X; [|discriminate]. injection X as X. destruct Hb as [->| ->]; discriminate. }
  destruct (reach_phase shuffle dut delayers shuffled test m s1 R) as [FI|c0 Hc0 TD CS0|c0 s2 g CA SU GA|c0 s2 CA DE Ph|c0 Hc0 TD CS0].
  - destruct (cur s1) as [[t b]|] eqn:H1; [|exfalso; apply (proj2 (fine_step shuffle dut delayers fire s1 W FI ltac:(congruence)) _ _ Hc)]. assert (D : b = BClk CTail \/ b <> BClk CTail) by (destruct b as [| |[]| | | |]; auto; right; discriminate).
    destruct D as [->|D]; [|exfalso; apply (proj2 (fine_step shuffle dut delayers fire s1 W FI ltac:(congruence)) _ _ Hc)]. unfold Loop_Model.step in Hc. rewrite H1 in Hc. cbn [exec_body exec_clk go set_cur cur] in Hc. injection Hc as -> _. reflexivity.
  - exfalso. assert (X : cur (step fire s1) = None) by (unfold Loop_Model.step; rewrite Hc0; cbn [exec_body exec_clk]; destruct (shuffle _); [apply cur_suspend0|apply cur_suspend]). congruence.
  - exfalso. apply (SUSP c0 CGathered (Some g)); auto. apply CA.
  - exfalso. destruct Ph as [H1|[SU|H1]]; [|apply (SUSP c0 (CStep true) None); auto; apply CA|].
    + unfold Loop_Model.step in Hc. rewrite H1 in Hc. cbn [exec_body exec_clk] in Hc. rewrite cur_suspend0 in Hc. discriminate.
    + unfold Loop_Model.step in Hc. rewrite H1 in Hc. discriminate.
  - exfalso. unfold Loop_Model.step in Hc. rewrite Hc0 in Hc. discriminate.
Qed.
Lemma cancel_quiet test m s c : tame test -> steps (init test m) s -> at_cancel s c ->
  (forall t, islive (futs s) t = true -> t <> c -> exists f fu, waitof (futs s) t = Some (Some f) /\ nth_error (futs s) f = Some fu /\ (f_st fu = Pending \/ f_st fu = Canc)) /\
  (forall h t, In h (ready s) -> owner h = Some t -> exists f fu, waitof (futs s) t = Some (Some f) /\ nth_error (futs s) f = Some fu /\ f_st fu = Canc).
Proof.
  intros T R Hc. destruct (pre_cancel test m s c R Hc) as [s1 [fire [R1 [-> H1]]]]. destruct (reach_linked _ _ _ _ _ _ R) as [W Lk]. destruct (reach_p33 _ _ _ _ _ _ T R1) as [_ [_ P]].
  assert (Q : quietF (futs (step fire s1)) c) by (assert (X : futs (step fire s1) = futs s1) by (unfold Loop_Model.step; rewrite H1; reflexivity); rewrite X; exact (p_stage _ P _ _ H1 eq_refl)). split.
  - intros t L Hn. destruct (Q t L Hn) as [f [Wt F]].
    destruct (live_task _ _ L) as [cbs [k [w [mu E]]]]. rewrite (waitof_task _ _ _ _ _ _ _ E) in Wt. injection Wt as ->.
    assert (Hcn : forall b, cur (step fire s1) <> Some (t, b)) by (intros b; unfold at_cancel in Hc; congruence).
    destruct (proj1 Lk t _ _ _ _ E Hcn) as [kd [fu [Ef _]]]. cbn [snd coreof] in Ef. exists f, fu. split; [apply (waitof_task _ _ _ _ _ _ _ E)|]. split; auto.
    specialize (F fu). destruct (f_st fu); auto. exfalso; eapply F; eauto.
  - intros h t Hh Ho. destruct (quiet_ready _ _ _ W Hc Q h t Hh Ho) as [f [fu [_ X]]]. eauto.
Qed.
(** * The loop stops only when the main coroutine is done *)
Definition dn F : Prop := exists fu, nth_error F 0 = Some fu /\ pending fu = false.
Definition StD (c : @core mem) : Prop := (forall f fu, nth_error (snd c) f = Some fu -> In CbStop (f_cbs fu) -> f = 0) /\ (In HStop (snd (fst c)) -> dn (snd c)).
Lemma dn_put F f x a : nth_error F f = Some x -> (pending x = false -> pending a = false) -> dn F -> dn (put_nth f a F).
Proof. intros E H [fu [E0 P]]. unfold dn. rewrite (put_nth_get _ _ _ _ 0 E). destruct (Nat.eqb_spec 0 f) as [<-|]; [|eauto]. exists a. split; auto. apply H. congruence. Qed.
Lemma dn_app F x : dn F -> dn (F ++ [x]).
Proof. intros [fu [E P]]. exists fu. split; auto. rewrite nth_error_app1; auto. apply nth_error_Some. congruence. Qed.
Lemma m1_std N (S : @perm mem) (c c1 : @core mem) : m1 N S c c1 -> StD c -> StD c1.
Proof.
  intros H [A B].
  assert (PUT : forall F f x a, nth_error F f = Some x -> (forall g fu, nth_error F g = Some fu -> In CbStop (f_cbs fu) -> g = 0) -> (In CbStop (f_cbs a) -> In CbStop (f_cbs x)) -> forall g fu, nth_error (put_nth f a F) g = Some fu -> In CbStop (f_cbs fu) -> g = 0).
  { intros F f x a E HF Hx g fu Eg Hg. rewrite (put_nth_get _ _ _ _ g E) in Eg. destruct (Nat.eqb_spec g f) as [->|]; [injection Eg as <-; eauto|eauto]. }
  assert (APP : forall F x, (forall g fu, nth_error F g = Some fu -> In CbStop (f_cbs fu) -> g = 0) -> ~ In CbStop (f_cbs x) -> forall g fu, nth_error (F ++ [x]) g = Some fu -> In CbStop (f_cbs fu) -> g = 0).
  { intros F x HF Hx g fu Eg Hg. rewrite nth_app_new in Eg. destruct (Nat.eqb g (List.length F)); [injection Eg as <-; contradiction|eauto]. }
  assert (SCH : forall f cbs, In HStop (map (sched f) cbs) -> In CbStop cbs). { intros f cbs X. apply in_map_iff in X. destruct X as [[] [X Y]]; try discriminate. exact Y. }
  destruct H as [c r F f st cbs k st' Ef -> Tk Hst _|c r F t st cbs k w m m' Ef _|c r F f cbs k g Ef _|c r F h Hh|c r F f st cbs k k' Ef Kc _|c r F st k Tk _ _|c r F k _ _|t b b' r F|t b r F h st cbs k0 w m k Ef Hh _|t b r F f st cbs k0 w m k cbs' kd Et Ef Hn _|t b r F cbs k w m st Ef Hst _|h t r F st cbs k w m Ho Ef _|h c r F Ho _]; cbn [fst snd] in *; split; cbn [fst snd]; auto.
  - eapply PUT; eauto. intros [].
  - intros X. apply in_app_or in X. destruct X as [X|X]; [eapply dn_put; eauto; intros _; cbn; now destruct st'|]. apply SCH in X. assert (f = 0) by (eapply A; eauto). subst f. exists (mk_fut st' [] k). rewrite (put_nth_get _ _ _ _ 0 Ef), Nat.eqb_refl. split; auto. cbn. now destruct st'.
  - eapply PUT; eauto.
  - intros X. eapply dn_put; eauto.
  - eapply PUT; eauto. cbn. intros X. apply in_app_or in X. destruct X as [X|[X|[]]]; [auto|discriminate].
  - intros X. eapply dn_put; eauto.
  - intros X. apply in_app_or in X. destruct X as [X|[X|[]]]; auto. subst h. contradiction.
  - eapply PUT; eauto.
  - intros X. eapply dn_put; eauto.
  - apply APP; auto.
  - intros X. apply dn_app. auto.
  - apply APP; auto.
  - intros X. apply in_app_or in X. destruct X as [X|[X|[]]]; [apply dn_app; auto|discriminate].
  - eapply PUT; eauto.
  - intros X. apply in_app_or in X. destruct X as [X|[X|[]]]; [eapply dn_put; eauto|]. subst h. destruct Hh; discriminate.
  - assert (E1 : nth_error (put_nth t (mkt st cbs k (Some f) m) F) f = Some (mk_fut Pending cbs' kd)) by (rewrite (put_nth_get _ _ _ _ f Et); destruct (Nat.eqb_spec f t); [congruence|assumption]).
    eapply (PUT _ f _ _ E1); [eapply (PUT _ t _ _ Et); auto|]. cbn. intros X. apply in_app_or in X. destruct X as [X|[X|[]]]; [auto|discriminate].
  - assert (E1 : nth_error (put_nth t (mkt st cbs k (Some f) m) F) f = Some (mk_fut Pending cbs' kd)) by (rewrite (put_nth_get _ _ _ _ f Et); destruct (Nat.eqb_spec f t); [congruence|assumption]).
    intros X. eapply (dn_put _ f _ _ E1); auto. eapply (dn_put _ t _ _ Et); auto.
  - eapply PUT; eauto. intros [].
  - intros X. apply in_app_or in X. destruct X as [X|X]; [eapply dn_put; eauto; intros _; cbn; now destruct st|]. apply SCH in X. assert (t = 0) by (eapply A; eauto). subst t. exists (mkt st [] k w m). rewrite (put_nth_get _ _ _ _ 0 Ef), Nat.eqb_refl. split; auto. cbn. now destruct st.
  - eapply PUT; eauto.
  - intros X. eapply dn_put; eauto. apply B. now right.
  - intros X. apply B. now right.
Qed.
Definition StE s : Prop := StD (coreof s) /\ (stopping s = true -> dn (futs s)).
Lemma reach_ste test m s : steps (init test m) s -> StE s.
Proof.
  intros R. assert (X : Wf s /\ StE s); [|apply X]. apply (steps_ind_inv shuffle dut delayers (fun s => Wf s /\ StE s) _ _) in R; auto.
  - intros fire s0 [W [D Q]]. split; [now apply step_wf|]. pose proof W as [I K].
    assert (D' : StD (coreof (step fire s0))) by exact (mstar_inv _ _ StD _ _ (m1_std _ _) (True_ms_kin shuffle dut delayers fire s0 I K) D).
    assert (M : dn (futs s0) -> dn (futs (step fire s0))) by (apply done0_step; auto). split; auto.
    destruct (step_ready shuffle dut delayers fire s0 W) as [[t [b [L [_ [_ E]]]]]|[[_ [_ [_ E]]]|[[L [_ [_ [_ [_ E]]]]]|[[n [_ [_ [_ E]]]]|[n [h [r [L [_ [_ [Hr [_ [_ E]]]]]]]]]]]]].
    + unfold bs in E. injection E as _ E. rewrite E. auto.
    + rewrite E. auto.
    + unfold bs in E. injection E as _ E. rewrite E. discriminate.
    + rewrite E. cbn [set_batch stopping futs]. auto.
    + rewrite E. intros X. apply M. destruct h; auto. apply D. cbn [coreof fst snd]. rewrite Hr. now left.
  - split; [apply init_wf|]. split; [split|]; cbn; try discriminate; [|intros [X|[]]; discriminate]. intros [|[|f]] fu E; cbn in E; auto; discriminate.
Qed.
Lemma stopped_done test m s : steps (init test m) s -> stopping s = true -> done0 s.
Proof. intros R. exact (proj2 (reach_ste test m s R)). Qed.
End Main.
