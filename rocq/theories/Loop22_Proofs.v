(** How the loop stops once the main coroutine is done. *)
From Coq Require Import List Bool Arith ZArith Lia.
From Verif Require Import Py Prio_Model Loop_Model Loop_Spec Loop_Proofs Loop2_Proofs Loop3_Proofs Loop4_Proofs Loop5_Proofs Loop6_Proofs Loop7_Proofs Loop8_Proofs Loop9_Proofs Loop10_Proofs Loop2_Spec Loop13_Proofs Loop17_Proofs Loop20_Proofs Loop21_Proofs.
Import ListNotations.
Open Scope nat_scope.

Section Stop.
Context {mem : Type}.
Notation prog := (@prog mem). Notation state := (@state mem). Notation body := (@body mem). Notation task := (@task mem).
Notation fut := (@fut mem). Notation kind := (@kind mem).
Implicit Types (s : state) (F : list fut).
Context (shuffle : list id -> list id) (dut delayers : mem -> mem).
Notation step := (step shuffle dut delayers). Notation steps := (steps shuffle dut delayers).

(** * The iteration of the loop does not change while a task runs *)
Definition bs s : nat * bool := (batch s, stopping s).
Lemma bs_rest s s' : rest s = rest s' -> bs s = bs s'. Proof. intros H. change (bs (rest s) = bs (rest s')). now rewrite H. Qed.
Lemma bs_settle s f st : bs (settle s f st) = bs s. Proof. apply bs_rest, rest_settle. Qed.
Lemma bs_suspend0 s t k : bs (suspend0 s t k) = bs s.
Proof. unfold suspend0. destruct (tget s t) as [tk|]; [|reflexivity]. transitivity (bs (tput s t (mk_task k None (k_must tk)))); [reflexivity|]. apply bs_rest, rest_tput. Qed.
Lemma bs_suspend s t f k : bs (suspend s t f k) = bs s.
Proof.
  unfold suspend. destruct (tget s t) as [tk|]; [|reflexivity]. destruct (Nat.eqb t f); [transitivity (bs (tput s t (mk_task k None (k_must tk)))); [reflexivity|apply bs_rest, rest_tput]|]. cbv zeta.
  set (s1 := set_cur _ _). assert (B1 : bs s1 = bs s) by (unfold s1; transitivity (bs (on_done (tput s t (mk_task k (Some f) (k_must tk))) f (CbWake t))); [reflexivity|]; rewrite (bs_rest _ _ (rest_on_done _ f (CbWake t))); apply bs_rest, rest_tput).
  destruct (k_must tk); [|exact B1]. pose proof (bs_rest _ _ (rest_cancel (List.length (futs s1)) s1 f)) as R. destruct (cancel _ s1 f) as [s2 ok]. cbn [fst] in R. rewrite <- B1, <- R. destruct ok; [|reflexivity]. destruct (tget s2 t); [|reflexivity]. apply bs_rest, rest_tput.
Qed.
Lemma bs_ev_set s e : bs (ev_set s e) = bs s. Proof. destruct (ev_set_rest s e) as [R|[ev [_ R]]]; rewrite (bs_rest _ _ R); reflexivity. Qed.
Lemma bs_ev_clear s e : bs (ev_clear s e) = bs s. Proof. unfold ev_clear. destruct (nth_error (evs s) e); reflexivity. Qed.
Lemma bs_q_wake s q : bs (q_wake s q) = bs s.
Proof. unfold q_wake. destruct (nth_error (qs s) q) as [qu|]; [|reflexivity]. pose proof (bs_rest _ _ (rest_wake (q_getters qu) s)) as R. destruct (wake_next s (q_getters qu)) as [s1 l]. exact R. Qed.
Lemma bs_q_get s t q k : bs (q_get s t q k) = bs s.
Proof. unfold q_get. destruct (nth_error (qs s) q) as [qu|]; [|reflexivity]. destruct (q_items qu); [|reflexivity]. rewrite bs_suspend. reflexivity. Qed.
Lemma bs_fold {A} (h : state -> A -> state) l : (forall s a, bs (h s a) = bs s) -> forall s, bs (fold_left h l s) = bs s.
Proof. intros H. induction l as [|a l IH]; intros s; cbn [fold_left]; auto. rewrite IH. apply H. Qed.
Lemma bs_finish s t r : bs (finish s t r) = bs s.
Proof. unfold finish. change (bs (conclude s t (match r with Exn CancelledError => Canc | Exn e => Finished (Exn e) | Ok v => match tget s t with Some k => if k_must k then Canc else Finished (Ok v) | None => Finished (Ok v) end end)) = bs s). unfold conclude. destruct (fget s t) as [fu|]; [|reflexivity]. destruct (pending fu); reflexivity. Qed.
Lemma bs_op s t o k : bs (exec_op s t o k) = bs s.
Proof.
  unfold exec_op. destruct o as [f|m|fl| |p|f|f| |e|e|e| |q v|q|q| |h z [|]|l| |]; try reflexivity.
  - destruct (f (mm s)); reflexivity.
  - apply bs_suspend0.
  - destruct (fget s f) as [fu|]; [|reflexivity]. destruct (negb _); [reflexivity|]. destruct (pending fu); [apply bs_suspend|reflexivity].
  - destruct (fget s f) as [fu|]; [|reflexivity]. destruct (negb _); [reflexivity|]. transitivity (bs (cancel_top s f)); [reflexivity|]. apply bs_rest, rest_cancel.
  - destruct (nth_error (evs s) e) as [ev|]; [|reflexivity]. destruct (e_priv ev); [reflexivity|]. transitivity (bs (ev_set s e)); [reflexivity|apply bs_ev_set].
  - destruct (nth_error (evs s) e) as [ev|]; [|reflexivity]. destruct (e_priv ev); [reflexivity|]. transitivity (bs (ev_clear s e)); [reflexivity|apply bs_ev_clear].
  - destruct (nth_error (evs s) e) as [ev|]; [|reflexivity]. destruct (e_val ev); [reflexivity|]. rewrite bs_suspend. reflexivity.
  - destruct (nth_error (qs s) q) as [qu|]; [|reflexivity]. transitivity (bs (q_wake (qput s q (mk_queue (q_items qu ++ [v]) (q_getters qu))) q)); [reflexivity|rewrite bs_q_wake; reflexivity].
  - apply bs_q_get.
  - destruct (nth_error (qs s) q); reflexivity.
  - destruct (nodup _ _) as [|x l']; [reflexivity|]. set (s1 := falloc s _). transitivity (bs s1); [|reflexivity]. transitivity (bs (fold_left (fun s f => on_done s f (CbCount (List.length (futs s))))  [] s1)); [|reflexivity].
    match goal with |- bs (go ?x _ _) = _ => transitivity (bs x) end; [reflexivity|]. apply (bs_fold (fun s0 f => on_done s0 f (CbCount (List.length (futs s))))). intros s0 a. apply bs_rest, rest_on_done.
  - destruct (clock s); reflexivity.
Qed.
Lemma bs_clk s t c : bs (exec_clk shuffle dut delayers s t c) = bs s.
Proof.
  destruct c as [| | |[|[h ev] todo] sb| | | |last]; cbn [exec_clk]; try reflexivity.
  - destruct (tdone s); [reflexivity|apply bs_suspend0].
  - rewrite bs_suspend0. reflexivity.
  - destruct (has_unwait s t || flag s); reflexivity.
  - set (l := shuffle _). assert (B : bs (fold_left cancel_top l s) = bs s) by (apply bs_fold; intros; apply bs_rest, rest_cancel). destruct l as [|x l]; [now rewrite bs_suspend0|]. rewrite bs_suspend.
    match goal with |- bs (fold_left _ ?L ?x) = _ => transitivity (bs x) end; [|exact B]. apply (bs_fold (fun s0 f => on_done s0 f (CbCount (List.length (futs (fold_left cancel_top (x :: l) s)))))). intros s0 a. apply bs_rest, rest_on_done.
  - apply bs_suspend0.
  - match goal with |- bs (go ?x _ _) = _ => transitivity (bs x) end; [reflexivity|]. rewrite bs_ev_clear, bs_ev_set. reflexivity.
Qed.
Lemma bs_body s t b : bs (exec_body shuffle dut delayers s t b) = bs s.
Proof.
  destruct b as [[v|e|o kk]|[v|e|o kk] ev todo sb|c|e f r kk|q f [v|e] kk|test|[v|e|o kk]]; cbn [exec_body]; try apply bs_finish; try apply bs_op; try reflexivity.
  - destruct ev as [e|]; [|reflexivity]. match goal with |- bs (go ?x _ _) = _ => transitivity (bs x) end; [reflexivity|]. rewrite bs_ev_set. reflexivity.
  - apply bs_clk.
  - destruct (nth_error (evs s) e); reflexivity.
  - apply bs_q_get.
  - set (s1 := settle s f Canc). assert (B1 : bs s1 = bs s) by apply bs_settle. set (s2 := match nth_error (qs s1) q with Some _ => _ | None => _ end). assert (B2 : bs s2 = bs s) by (unfold s2; destruct (nth_error (qs s1) q); exact B1).
    match goal with |- bs (go ?x _ _) = _ => transitivity (bs x) end; [reflexivity|]. destruct (nth_error (qs s2) q) as [qu|]; [|exact B2]. destruct (fget s2 f) as [fu|]; [|exact B2]. destruct (q_items qu); [exact B2|]. destruct (f_st fu); try exact B2. now rewrite bs_q_wake.
  - destruct (clock s); [rewrite bs_op|rewrite bs_finish]; reflexivity.
Qed.
(** New handles go to the end of the ready queue. *)
Lemma m1_app N (S : @perm mem) (c c1 : @core mem) : ~ resumes S -> m1 N S c c1 -> exists L, snd (fst c1) = snd (fst c) ++ L.
Proof. intros HR H. destruct H; cbn [fst snd]; eauto; try (exists []; now rewrite app_nil_r); contradiction. Qed.
Lemma mstar_app N (S : @perm mem) (c c1 : @core mem) : ~ resumes S -> mstar N S c c1 -> exists L, snd (fst c1) = snd (fst c) ++ L.
Proof. intros HR H. induction H as [c|c c1 c2 H _ [L IH]]; [exists []; now rewrite app_nil_r|]. destruct (m1_app _ _ _ _ HR H) as [L1 E]. exists (L1 ++ L). now rewrite app_assoc, <- E. Qed.
Lemma settle_ready s f st : exists L, ready (settle s f st) = ready s ++ L.
Proof. unfold settle. destruct (fget s f) as [fu|]; [|exists []; now rewrite app_nil_r]. destruct (is_task (f_kind fu)); [exists []; now rewrite app_nil_r|]. unfold conclude. destruct (fget s f) as [fu'|]; [|exists []; now rewrite app_nil_r]. destruct (pending fu'); [|exists []; now rewrite app_nil_r]. eexists. reflexivity. Qed.
Lemma fires_ready fire : forall s, exists L, ready (fold_left fire1 fire s) = ready s ++ L.
Proof.
  induction fire as [|f l IH]; intros s; cbn [fold_left]; [exists []; now rewrite app_nil_r|]. destruct (IH (fire1 s f)) as [L E]. rewrite E. unfold fire1. destruct (fget s f) as [[st cbs []]|]; eauto. cbn [push set_ready ready fput set_futs]. rewrite <- app_assoc. eauto.
Qed.
(** The cases of a step. *)
Lemma step_ready fire s : Wf s ->
  (exists t b L, cur s = Some (t, b) /\ ready (step fire s) = ready s ++ L /\ bs (step fire s) = bs s) \/
  (cur s = None /\ batch s = 0 /\ stopping s = true /\ step fire s = s) \/
  (exists L, cur s = None /\ batch s = 0 /\ stopping s = false /\ ready (step fire s) = ready s ++ L /\ bs (step fire s) = (List.length (ready s ++ L), false)) \/
  (exists n, cur s = None /\ batch s = S n /\ ready s = [] /\ step fire s = set_batch s 0) \/
  (exists n h r L, cur s = None /\ batch s = S n /\ ready s = h :: r /\ ready (step fire s) = r ++ L /\ batch (step fire s) = n /\ stopping (step fire s) = (match h with HStop => true | _ => stopping s end)).
Proof.
  intros W. pose proof W as [I K]. destruct (cur s) as [[t b]|] eqn:Hc.
  - left. exists t, b. assert (NR : ~ resumes (Sof s)) by (cbn; rewrite Hc; discriminate). destruct (mstar_app _ _ _ _ NR (True_ms_kin shuffle dut delayers fire s I K)) as [L E]. exists L. split; auto. split; [exact E|].
    unfold Loop_Model.step. rewrite Hc. apply bs_body.
  - right. unfold Loop_Model.step. rewrite Hc. destruct (batch s) as [|n] eqn:Hb.
    + destruct (stopping s) eqn:Hs; [left; auto|]. right. left. destruct (fires_ready fire s) as [L E]. exists L. cbv zeta. cbn [ready set_batch]. rewrite E. repeat split; auto. unfold bs. cbn [batch stopping set_batch]. f_equal.
      pose proof (bs_rest _ _ (rest_fold fire1 fire s fire1_rest)) as X. unfold bs in X. congruence.
    + right. right. destruct (ready s) as [|h r] eqn:Hr; [left; exists n; auto|]. right. exists n, h, r. set (s0 := set_batch (set_ready s r) n).
      assert (Z : forall x y, ready (resume s0 x y) = r ++ [] /\ batch (resume s0 x y) = n /\ stopping (resume s0 x y) = stopping s).
      { intros x y. rewrite app_nil_r. unfold resume. destruct (tget s0 x) as [tk|]; [|auto]. unfold tput. destruct (fget s0 x); auto. }
      assert (Y : forall s1 f st, ready s1 = r -> bs s1 = (n, stopping s) -> exists L, ready (settle s1 f st) = r ++ L /\ batch (settle s1 f st) = n /\ stopping (settle s1 f st) = stopping s).
      { intros s1 f st E1 E2. destruct (settle_ready s1 f st) as [L E]. exists L. rewrite <- E1. split; [exact E|]. pose proof (bs_settle s1 f st) as X. rewrite E2 in X. unfold bs in X. injection X as X1 X2. auto. }
      destruct h as [x|x e|x f|g| |f]; cbn [run_handle].
      * exists []. destruct (Z x (Ok VNone)) as [? [? ?]]; auto 10.
      * exists []. destruct (Z x (Exn e)) as [? [? ?]]; auto 10.
      * exists []. destruct (Z x (match fget s0 f with Some fu => outcome (f_st fu) | None => Exn TypeError end)) as [? [? ?]]; auto 10.
      * assert (D : exists L, ready s0 = r ++ L /\ batch s0 = n /\ stopping s0 = stopping s) by (exists []; rewrite app_nil_r; auto). destruct (fget s0 g) as [[st cbs []]|]; try (destruct D as [L D]; exists L; tauto).
        destruct need as [|n']; [destruct D as [L D]; exists L; tauto|]. destruct n'; [|destruct D as [L D]; exists L; tauto].
        destruct (Y (fput s0 g (mk_fut st cbs (KGather 0))) g (Finished (Ok VNone)) eq_refl eq_refl) as [L [? [? ?]]]. exists L. auto 10.
      * exists []. rewrite app_nil_r. auto 10.
      * destruct (Y s0 f (Finished (Ok VNone)) eq_refl eq_refl) as [L [? [? ?]]]. exists L. auto 10.
Qed.
(** * The callback that stops the loop *)
Definition Bt s : Prop := batch s <= List.length (ready s).
Lemma bt_step fire s : Wf s -> Bt s -> Bt (step fire s).
Proof.
  intros W B. unfold Bt in *. destruct (step_ready fire s W) as [[t [b [L [_ [E1 E2]]]]]|[[_ [_ [_ E]]]|[[L [_ [_ [_ [E1 E2]]]]]|[[n [_ [H [H1 _]]]]|[n [h [r [L [_ [H1 [H2 [E1 [E2 _]]]]]]]]]]]]].
  - unfold bs in E2. injection E2 as -> _. rewrite E1, app_length. lia.
  - now rewrite E.
  - unfold bs in E2. injection E2 as -> _. rewrite E1. lia.
  - rewrite H, H1 in B. cbn in B. lia.
  - rewrite H1, H2 in B. cbn in B. rewrite E1, E2, app_length. lia.
Qed.
Definition StpC (c : @core mem) (stop : bool) : Prop := exists fu, nth_error (snd c) 0 = Some fu /\ is_task (f_kind fu) = true /\ (if pending fu then In CbStop (f_cbs fu) else stop = true \/ In HStop (snd (fst c))).
Definition Stp s : Prop := StpC (coreof s) (stopping s).
Lemma m1_stp N (S : @perm mem) stop (c c1 : @core mem) : m1 N S c c1 -> (forall L, snd (fst c) = HStop :: L -> stop = true \/ ~ resumes S) -> StpC c stop -> StpC c1 stop.
Proof.
  intros H HR [fu [E [T P]]].
  assert (PUT : forall F0 r' f fx (a : fut), nth_error F0 f = Some fx -> nth_error F0 0 = Some fu -> (0 = f -> fx = fu -> is_task (f_kind a) = true /\ (if pending a then In CbStop (f_cbs a) else stop = true \/ In HStop r')) -> (0 <> f -> pending fu = false -> stop = true \/ In HStop r') ->
    exists fu', nth_error (put_nth f a F0) 0 = Some fu' /\ is_task (f_kind fu') = true /\ (if pending fu' then In CbStop (f_cbs fu') else stop = true \/ In HStop r')).
  { intros F0 r' f fx a Ef E0 H1 H2. rewrite (put_nth_get _ _ _ _ 0 Ef). destruct (Nat.eqb_spec 0 f) as [<-|N0]; [rewrite Ef in E0; injection E0 as ->; exists a; split; auto|]. exists fu. split; auto. split; auto. destruct (pending fu); auto. }
  destruct H as [c r F f st cbs k st' Ef -> Tk Hst _|c r F t st cbs k w m m' Ef _|c r F f cbs k g Ef _|c r F h _|c r F f st cbs k k' Ef Kc _|c r F st k Tk _ _|c r F k _ _|t b b' r F|t b r F h st cbs k0 w m k Ef Hh _|t b r F f st cbs k0 w m k cbs' kd Et Ef Hn _|t b r F cbs k w m st Ef Hst _|h t r F st cbs k w m Ho Ef Hr|h c r F Ho Hr]; unfold StpC in *; cbn [fst snd] in *.
  - eapply PUT; eauto. + intros _ <-. cbn in T. congruence. + intros _ X. rewrite X in P. destruct P as [P|P]; auto. right. apply in_or_app. auto.
  - eapply PUT; eauto. + intros _ <-. auto. + intros _ X. now rewrite X in P.
  - eapply PUT; eauto. + intros _ <-. cbn in *. split; auto. apply in_or_app. auto. + intros _ X. now rewrite X in P.
  - exists fu. split; auto. split; auto. destruct (pending fu); auto. destruct P as [P|P]; auto. right. apply in_or_app. auto.
  - eapply PUT; eauto. + intros _ <-. cbn in *. destruct k; try discriminate. destruct k'; contradiction. + intros _ X. now rewrite X in P.
  - exists fu. rewrite nth_error_app1 by (apply nth_error_Some; congruence). auto.
  - exists fu. rewrite nth_error_app1 by (apply nth_error_Some; congruence). split; auto. split; auto. destruct (pending fu); auto. destruct P as [P|P]; auto. right. apply in_or_app. auto.
  - exists fu. auto.
  - eapply PUT; eauto. + intros _ <-. cbn in *. split; auto. destruct (pending _); auto. destruct P as [P|P]; auto. right. apply in_or_app. auto. + intros _ X. rewrite X in P. destruct P as [P|P]; auto. right. apply in_or_app. auto.
  - destruct (PUT F r t _ (mkt st cbs k (Some f) m) Et E) as [fu1 [E1 [T1 P1]]]. + intros _ <-. auto. + intros _ X. now rewrite X in P.
    + assert (Ef' : nth_error (put_nth t (mkt st cbs k (Some f) m) F) f = Some (mk_fut Pending cbs' kd)) by (rewrite (put_nth_get _ _ _ _ f Et); destruct (Nat.eqb_spec f t); congruence).
      rewrite (put_nth_get _ _ _ _ 0 Ef'). destruct (Nat.eqb_spec 0 f) as [<-|]; [|exists fu1; auto]. rewrite E1 in Ef'. injection Ef' as ->. eexists. split; [reflexivity|]. cbn in *. split; auto. apply in_or_app. auto.
  - eapply PUT; eauto.
    + intros _ <-. split; [exact T|]. cbn in P. unfold pending. cbn [f_st mkt]. assert (X : stop = true \/ In HStop (r ++ map (sched t) cbs)) by (right; apply in_or_app; right; apply in_map_iff; exists CbStop; auto). destruct st; [congruence| |]; exact X.
    + intros _ X. rewrite X in P. destruct P as [P|P]; auto. right. apply in_or_app. auto.
  - eapply PUT; eauto.
    + intros _ <-. split; [exact T|]. unfold pending in *. cbn [f_st mkt f_cbs] in *. destruct st; auto; destruct P as [P|[P|P]]; auto; subst h; discriminate.
    + intros _ X. rewrite X in P. destruct P as [P|[P|P]]; auto. subst h. discriminate.
  - exists fu. split; auto. split; auto. destruct (pending fu); auto. destruct P as [P|[P|P]]; auto. subst h. destruct (HR r eq_refl); auto.
Qed.
Lemma mstar_stp N (S : @perm mem) stop (c c1 : @core mem) : ~ resumes S -> mstar N S c c1 -> StpC c stop -> StpC c1 stop.
Proof. intros HR H. induction H as [c|c c1 c2 H _ IH]; auto. intros X. apply IH. eapply m1_stp; eauto. Qed.
Lemma stp_step fire s : Wf s -> Stp s -> Stp (step fire s).
Proof.
  intros W ST. pose proof W as [I K]. unfold Stp in *. destruct (cur s) as [[t b]|] eqn:Hc.
  - assert (NR : ~ resumes (Sof s)) by (cbn; rewrite Hc; discriminate). assert (B : stopping (step fire s) = stopping s) by (unfold Loop_Model.step; rewrite Hc; pose proof (bs_body s t b) as X; unfold bs in X; congruence).
    rewrite B. eapply mstar_stp; [exact NR|exact (True_ms_kin shuffle dut delayers fire s I K)|exact ST].
  - unfold Loop_Model.step. rewrite Hc. destruct (batch s) as [|n] eqn:Hb.
    + destruct (stopping s) eqn:Hs; [now rewrite Hs|]. cbv zeta. cbn [stopping set_batch]. assert (X : stopping (fold_left fire1 fire s) = false) by (pose proof (bs_rest _ _ (rest_fold fire1 fire s fire1_rest)) as X; unfold bs in X; congruence). rewrite X.
      change (StpC (coreof (fold_left fire1 fire s)) false). eapply (mstar_stp (fun _ _ => True) (mk_perm (fun _ _ => True) False)); [intros []| |exact ST]. apply L_fold. intros. apply fire1_ms. right. exact Logic.I.
    + destruct (ready s) as [|h r] eqn:Hr; [exact ST|]. set (s0 := set_batch (set_ready s r) n).
      assert (S0 : StpC (coreof s0) (match h with HStop => true | _ => stopping s end)).
      { destruct ST as [fu [E [T P]]]. exists fu. split; [exact E|]. split; auto. destruct (pending fu); auto. cbn [coreof fst snd s0 ready set_ready set_batch] in *. rewrite Hr in P. destruct P as [P|[->|P]]; auto. destruct h; auto. }
      assert (RS : forall x y, stopping (resume s0 x y) = stopping s /\ (StpC (coreof s0) (stopping s) -> StpC (coreof (resume s0 x y)) (stopping s))).
      { intros x y. unfold resume. destruct (tget s0 x) as [tk|] eqn:T; [|auto]. destruct (tget_fut _ _ _ T) as [st [cbs E]]. unfold tput. rewrite E. split; [reflexivity|]. intros [fu [E0 [T0 P]]]. unfold StpC. cbn [coreof fst snd go set_cur fput set_futs futs ready].
        unfold fget in E. rewrite (put_nth_get _ _ _ _ 0 E). destruct (Nat.eqb_spec 0 x) as [<-|]; [|exists fu; auto]. cbn [coreof snd] in E0. rewrite E in E0. injection E0 as <-. eexists. split; [reflexivity|]. split; auto. }
      assert (SE : forall s1 f st, st <> Pending -> stopping s1 = stopping s -> StpC (coreof s1) (stopping s) -> StpC (coreof (settle s1 f st)) (stopping (settle s1 f st))).
      { intros s1 f st Hst E1 H1. assert (E2 : stopping (settle s1 f st) = stopping s) by (pose proof (bs_settle s1 f st) as X; unfold bs in X; congruence). rewrite E2. eapply (mstar_stp (fun _ _ => True) (mk_perm (fun _ _ => True) False)); [intros []| |exact H1]. apply L_settle; auto. intros; exact Logic.I. }
      destruct h as [x|x e|x f|g| |f]; cbn [run_handle]; try (match goal with |- StpC (coreof (resume s0 x ?y)) _ => destruct (RS x y) as [R1 R2]; rewrite R1; auto end; fail).
      * destruct (fget s0 g) as [[st cbs []]|] eqn:Eg; try exact S0. destruct need as [|n']; [exact S0|]. assert (S1 : StpC (coreof (fput s0 g (mk_fut st cbs (KGather n')))) (stopping s)).
        { destruct S0 as [fu [E [T P]]]. exists fu. cbn [coreof fst snd fput set_futs futs ready] in *. unfold fget in Eg. rewrite (put_nth_get _ _ _ _ 0 Eg). destruct (Nat.eqb_spec 0 g) as [<-|]; auto. rewrite Eg in E. injection E as <-. discriminate. }
        destruct n'; [|exact S1]. apply SE; auto; discriminate.
      * exact S0.
      * apply SE; auto; discriminate.
Qed.
Lemma init_stp test m : Stp (init test m : state).
Proof. eexists. split; [reflexivity|]. cbn. auto. Qed.

(** * At most one more step after the main coroutine is done *)
Definition noc (c : id) (l : list handle) : Prop := forall h, In h l -> owner h <> Some c.
Definition now_ s : list handle := firstn (batch s) (ready s).
Definition later s : list handle := skipn (batch s) (ready s).
Definition R1 c s : Prop := stopping s = true \/ In HStop (now_ s) \/ (In HStop (later s) /\ noc c (now_ s)).
Definition R0 c s : Prop := (stopping s = true \/ In HStop (now_ s)) /\ noc c (now_ s).
Lemma queue_step fire s : Wf s -> Bt s ->
  (exists t b L, cur s = Some (t, b) /\ now_ (step fire s) = now_ s /\ later (step fire s) = later s ++ L /\ stopping (step fire s) = stopping s) \/
  (cur s = None /\ stopping s = true /\ now_ s = [] /\ step fire s = s) \/
  (exists L, cur s = None /\ stopping s = false /\ now_ s = [] /\ now_ (step fire s) = later s ++ L /\ stopping (step fire s) = false) \/
  (exists h L, cur s = None /\ now_ s = h :: now_ (step fire s) /\ later (step fire s) = later s ++ L /\ stopping (step fire s) = (match h with HStop => true | _ => stopping s end)).
Proof.
  intros W B. unfold Bt, now_, later in *. destruct (step_ready fire s W) as [[t [b [L [Hc [E1 E2]]]]]|[[Hc [Hb [Hs E]]]|[[L [Hc [Hb [Hs [E1 E2]]]]]|[[n [_ [H [H1 _]]]]|[n [h [r [L [Hc [H1 [H2 [E1 [E2 E3]]]]]]]]]]]]].
  - left. exists t, b, L. unfold bs in E2. injection E2 as -> ->. rewrite E1, firstn_app, skipn_app. replace (batch s - List.length (ready s)) with 0 by lia. cbn [firstn skipn]. now rewrite app_nil_r.
  - right. left. rewrite Hb. auto.
  - right. right. left. exists L. unfold bs in E2. injection E2 as X1 X2. rewrite X1, X2, E1, Hb. cbn [firstn skipn]. now rewrite firstn_all.
  - rewrite H, H1 in B. cbn in B. lia.
  - right. right. right. exists h, L. rewrite H1, H2 in *. cbn in B. rewrite E1, E2, E3. cbn [firstn skipn]. rewrite firstn_app, skipn_app. replace (n - List.length r) with 0 by lia. cbn [firstn skipn]. now rewrite app_nil_r.
Qed.
Lemma noc_cur s c b : Wf s -> cur s = Some (c, b) -> noc c (ready s).
Proof.
  intros [I _] Hc h Hh Ho. pose proof (i_cnt _ I c) as X. pose proof (cnth_In _ _ _ Hh Ho) as Y. cbn [coreof fst snd] in X. rewrite Hc in X. unfold cntc in X. rewrite Nat.eqb_refl in X. destruct (islive (futs s) c); lia.
Qed.
Lemma firstn_incl {A} n (l : list A) x : In x (firstn n l) -> In x l. Proof. intros H. rewrite <- (firstn_skipn n l). apply in_or_app. auto. Qed.
Lemma r0_step fire c s : Wf s -> Bt s -> R0 c s -> R0 c (step fire s).
Proof.
  intros W B [H N]. destruct (queue_step fire s W B) as [[t [b [L [_ [E1 [_ E3]]]]]]|[[_ [_ [_ ->]]]|[[L [_ [Hs [X _]]]]|[h [L [_ [X [_ E3]]]]]]]].
  - unfold R0. now rewrite E1, E3.
  - split; auto.
  - exfalso. rewrite X in H. destruct H as [H|[]]. congruence.
  - unfold R0. rewrite E3. rewrite X in H, N. split; [|intros x Hx; apply N; now right]. destruct H as [H|[->|H]]; auto. left. now destruct h.
Qed.
Lemma r1_step fire c s : Wf s -> Bt s -> R1 c s -> R1 c (step fire s).
Proof.
  intros W B H. destruct (queue_step fire s W B) as [[t [b [L [_ [E1 [E2 E3]]]]]]|[[_ [_ [_ ->]]]|[[L [_ [Hs [X [E1 E3]]]]]|[h [L [_ [X [E2 E3]]]]]]]]; auto; unfold R1 in *.
  - rewrite E1, E2, E3. destruct H as [H|[H|[H1 H2]]]; auto. right. right. split; auto. apply in_or_app. auto.
  - rewrite X in H. rewrite E1. destruct H as [H|[[]|[H1 H2]]]; [congruence|]. right. left. apply in_or_app. auto.
  - rewrite E2, E3. rewrite X in H. destruct H as [H|[[->|H]|[H1 H2]]]; auto; [left; now destruct h|]. right. right. split; [apply in_or_app; auto|]. intros x Hx. apply H2. now right.
Qed.
Definition okb (b : body) : Prop := fineb b \/ b = BClk CCancel.
Lemma okb_next s t b b' : tdone s = Some true -> okb b -> nextb s t b b' -> okb b'.
Proof.
  intros TD [H| ->] Hn; [|contradiction]. destruct b as [[v|e|o kk]|[v|e|o kk] ev todo sb|c|e f0 r0 kk|q f0 [v|e] kk|test|[v|e|o kk]]; cbn [nextb fineb] in *; try contradiction; try (subst b'; left; exact Logic.I);
    try (subst b'; left; auto; fail); try (destruct Hn as [r1 [_ ->]]; left; try exact Logic.I; auto; fail).
  destruct c as [| | |[|[h ev] todo] sb| | | |last]; try contradiction; try (subst b'; left; exact Logic.I).
  - destruct Hn as [->|[_ [_ ->]]]; left; exact Logic.I.
  - subst b'. left. destruct sb; exact Logic.I.
  - rewrite TD in Hn. subst b'. now right.
Qed.
Record Base test s : Prop := mk_base { ba_all : All s; ba_bt : Bt s; ba_stp : Stp s; ba_once : Once test s }.
Lemma base_step test fire s : Base test s -> Base test (step fire s).
Proof. intros [A B C D]. pose proof (v_wf _ (proj1 A)) as W. constructor; [now apply step_all|now apply bt_step|now apply stp_step|now apply step_once]. Qed.
Lemma reach_base test m s : steps (init test m) s -> Base test s.
Proof.
  intros R. apply (steps_ind_inv shuffle dut delayers (Base test) _ _) in R; auto; [intros; now apply base_step|]. constructor; [apply (reach_all shuffle dut delayers test m); constructor|unfold Bt; cbn; lia|apply init_stp|apply init_once].
Qed.
Definition done0 s : Prop := exists fu, nth_error (futs s) 0 = Some fu /\ pending fu = false.
Lemma done0_step fire s : Wf s -> done0 s -> done0 (step fire s).
Proof. intros W [fu [E P]]. destruct (step_fext shuffle dut delayers fire s W 0 fu E) as [fu' [E' [_ X]]]. exists fu'. split; auto. unfold pending in *. rewrite (X P). exact P. Qed.
Inductive after (n1 : nat) s : Prop :=
| af_none : nstep s = n1 -> after n1 s
| af_one c : nstep s = S n1 -> clock s = Some c -> Fine s -> R1 c s -> (forall b, cur s = Some (c, b) -> b = BClk CRound) -> after n1 s
| af_last c : nstep s = S n1 -> clock s = Some c -> R0 c s -> (forall b, cur s = Some (c, b) -> okb b) -> after n1 s.
Lemma after_step test fire n1 s : Base test s -> done0 s -> tdone s = Some true -> after n1 s -> after n1 (step fire s).
Proof.
  intros BA D TD AF. pose proof (base_step test fire s BA) as BA'. destruct BA as [A B ST O]. destruct BA' as [A' B' ST' O']. pose proof A as [EV C]. pose proof (v_wf _ EV) as W. pose proof (v_wf _ (proj1 A')) as W'. destruct AF as [N|c N CS FI HR HC|c N CS HR HC].
  - destruct (cur s) as [[t b]|] eqn:Hc; [|apply af_none; rewrite nstep_step, Hc; exact N]. assert (X : (exists l, b = BClk (CStep l)) \/ ~ (exists l, b = BClk (CStep l))) by (destruct b as [| |[]| | | |]; try (left; eexists; reflexivity); right; intros [l X]; discriminate).
    destruct X as [[l ->]|X]; [|apply af_none; rewrite nstep_step, Hc; destruct b as [| |[]| | | |]; auto; elim X; eauto].
    assert (CS : clock s = Some t) by (eapply clock_of; eauto). pose proof (clock_step shuffle dut delayers fire s t CS) as CS'. assert (Hc' : cur (step fire s) = Some (t, BClk CRound)) by (unfold Loop_Model.step; rewrite Hc; reflexivity).
    apply (af_one _ _ t); auto; [rewrite nstep_step, Hc; congruence|apply (fine_clk _ t (BClk CRound)); auto; exact Logic.I| |intros b0 Y; congruence].
    pose proof (noc_cur _ _ _ W' Hc') as NC. destruct ST' as [fu [E [T P]]]. destruct (done0_step fire s W D) as [fu' [E' P']]. cbn [coreof snd fst] in *. rewrite E in E'. injection E' as <-. rewrite P' in P. unfold R1.
    destruct P as [P|P]; auto. right. rewrite <- (firstn_skipn (batch (step fire s)) (ready (step fire s))) in P. apply in_app_or in P as [P|P]; auto. right. split; auto. intros h Hh. apply NC. eapply firstn_incl; eauto.
  - assert (NT : forall t, cur s <> Some (t, BClk CTail)) by (intros t X; assert (t = c) by (assert (clock s = Some t) by (eapply clock_of; eauto); congruence); subst; apply HC in X; discriminate).
    assert (NS : nstep (step fire s) = nstep s) by (rewrite nstep_step; destruct (cur s) as [[t b]|] eqn:Hc; auto; destruct b as [| |[]| | | |]; auto; exfalso; assert (t = c) by (assert (clock s = Some t) by (eapply clock_of; eauto); congruence); subst; specialize (HC _ eq_refl); discriminate).
    pose proof (clock_step shuffle dut delayers fire s c CS) as CS'. pose proof (fine_step shuffle dut delayers fire s W FI NT) as FI'. pose proof (r1_step fire c s W B HR) as HR'.
    assert (Q : (forall b, cur (step fire s) <> Some (c, b)) \/ exists b, cur (step fire s) = Some (c, b)).
    { destruct (cur (step fire s)) as [[t b]|]; [|left; discriminate]. destruct (Nat.eqb_spec t c) as [->|Z]; [right; eauto|left; congruence]. }
    destruct Q as [Q|[b Q]]; [apply (af_one _ _ c); auto; [congruence|intros b X; now elim (Q b)]|].
    destruct (step_cur shuffle dut delayers fire s c b W Q) as [[b0 [Hc Hn]]|[Hc [h [r0 [n [st [cbs0 [k0 [w0 [m0 [Hr [Hb [Ho _]]]]]]]]]]]]].
    + pose proof (HC _ Hc) as X. subst b0. contradiction.
    + apply (af_last _ _ c); auto; [congruence| |intros b1 X; left; eapply (proj2 FI'); eauto]. split; [|intros x Hx; apply (noc_cur _ _ _ W' Q); eapply firstn_incl; eauto].
      destruct (queue_step fire s W B) as [[t [b1 [L [X _]]]]|[[_ [_ [X _]]]|[[L [_ [_ [X _]]]]|[h0 [L [_ [X [_ E3]]]]]]]]; [congruence| | |].
      * unfold now_ in X. rewrite Hb, Hr in X. discriminate.
      * unfold now_ in X. rewrite Hb, Hr in X. discriminate.
      * assert (h0 = h) by (unfold now_ in X at 1; rewrite Hb, Hr in X; injection X as <- _; reflexivity). subst h0. rewrite E3. assert (Hh : match h with HStop => true | _ => stopping s end = stopping s) by (destruct h; try reflexivity; discriminate). rewrite Hh.
        destruct HR as [H|[H|[H1 H2]]]; auto; [rewrite X in H; destruct H as [->|H]; [discriminate|auto]|]. exfalso. apply (H2 h); [rewrite X; now left|exact Ho].
  - assert (NS : nstep (step fire s) = nstep s) by (rewrite nstep_step; destruct (cur s) as [[t b]|] eqn:Hc; auto; destruct b as [| |[]| | | |]; auto; exfalso; assert (t = c) by (assert (clock s = Some t) by (eapply clock_of; eauto); congruence); subst; specialize (HC _ eq_refl); destruct HC as [HC|HC]; [exact HC|discriminate]).
    apply (af_last _ _ c); [congruence|now apply clock_step|now apply r0_step|]. intros b Q. destruct (step_cur shuffle dut delayers fire s c b W Q) as [[b0 [Hc Hn]]|[Hc [h [r0 [n [st [cbs0 [k0 [w0 [m0 [Hr [Hb [Ho _]]]]]]]]]]]]].
    + eapply okb_next; eauto.
    + exfalso. destruct HR as [_ NC]. apply (NC h); auto. unfold now_. rewrite Hb, Hr. now left.
Qed.
Lemma after_main test m s s' : steps (init test m) s -> done0 s -> tdone s = Some true -> steps s s' -> nstep s' <= S (nstep s).
Proof.
  intros R D TD R2. assert (X : Base test s' /\ done0 s' /\ tdone s' = Some true /\ after (nstep s) s').
  { apply (steps_ind_inv shuffle dut delayers (fun x => Base test x /\ done0 x /\ tdone x = Some true /\ after (nstep s) x) s s'); auto.
    - intros fire x [H1 [H2 [H3 H4]]]. split; [now apply base_step|]. split; [apply done0_step; auto; apply (v_wf _ (proj1 (ba_all _ _ H1)))|]. split; [eapply step_tdone; eauto; apply H1|eapply after_step; eauto].
    - split; [eapply reach_base; eauto|]. split; auto. split; auto. now apply af_none. }
  destruct X as [_ [_ [_ [N|c N _ _ _ _|c N _ _ _]]]]; lia.
Qed.
End Stop.
