(** Following a task through an awaited coroutine. *)
From Coq Require Import List Bool Arith ZArith Lia.
From Verif Require Import Py Prio_Model Loop_Model Loop_Spec Bind_Spec Loop_Proofs Loop2_Proofs Loop3_Proofs Loop4_Proofs Loop10_Proofs Loop13_Proofs.
Import ListNotations.
Open Scope nat_scope.

Section Bind.
Context {mem : Type}.
Notation prog := (@prog mem). Notation state := (@state mem). Notation body := (@body mem). Notation task := (@task mem).
Implicit Types (s : state).
Context (shuffle : list id -> list id) (dut delayers : mem -> mem).
Notation step := (step shuffle dut delayers). Notation steps := (steps shuffle dut delayers).

(** * Where one operation leaves its task *)
Definition derived (k k' : res lval -> body) : Prop := k' = k \/ (exists e f, k' = fun r => BEv e f r k) \/ (exists q f, k' = fun r => BGet q f r k).
Lemma suspend_out s t f k cbs k0 w m : fget s t = Some (mkt Pending cbs k0 w m) -> exists w', Susp t k w' (suspend s t f k).
Proof.
  intros E. destruct (Nat.eq_dec t f) as [->|Hn]; [|eexists; eapply suspend_susp; eauto]. exists None. split; [intros b X; rewrite cur_suspend in X; discriminate|].
  unfold suspend, tget. rewrite E. cbn [mkt]. rewrite Nat.eqb_refl. cbn [k_must]. exists cbs, m. pose proof (tput_at s f (mk_task k None m) f _ E) as X. rewrite Nat.eqb_refl in X. exact X.
Qed.
Lemma falloc_task s x t fu : fget s t = Some fu -> fget (falloc s x) t = Some fu.
Proof. unfold fget. simpl. intros H. rewrite nth_error_app1; auto. apply nth_error_Some. congruence. Qed.
Lemma q_get_out s t q k cbs k0 w m : fget s t = Some (mkt Pending cbs k0 w m) ->
  (exists r, opres s (OQGet q) r /\ cur (q_get s t q k) = Some (t, k r)) \/ exists f w', Susp t (fun r => BGet q f r k) w' (q_get s t q k).
Proof.
  intros E. destruct (cur_q_get_res s t q k) as [X|[r X]]; [|left; eauto]. right. unfold q_get in *. destruct (nth_error (qs s) q) as [qu|]; [|discriminate]. destruct (q_items qu); [|discriminate].
  destruct (suspend_out (qput (falloc s (mk_fut Pending [] (KQueue q))) q (mk_queue [] (q_getters qu ++ [List.length (futs s)]))) t (List.length (futs s)) (fun r => BGet q (List.length (futs s)) r k) cbs k0 w m) as [w' S]; [exact (falloc_task _ _ _ _ E)|eauto].
Qed.
Lemma exec_op_out s t o k cbs k0 w m : fget s t = Some (mkt Pending cbs k0 w m) ->
  (exists r, opres s o r /\ cur (exec_op s t o k) = Some (t, k r)) \/ exists k' w', Susp t k' w' (exec_op s t o k) /\ derived k k'.
Proof.
  intros E. destruct (cur_op_res s t o k) as [X|[r X]]; [|left; eauto]. right. unfold exec_op in *. destruct o as [f|m0|fl| |p|f|f| |e|e|e| |q v|q|q| |h z [|]|l| |]; try discriminate X.
  - destruct (f (mm s)). discriminate.
  - exists k, None. split; [eapply suspend0_susp; eauto|now left].
  - destruct (fget s f) as [fu|]; [|discriminate]. destruct (nameable (f_kind fu)); [|discriminate]. cbn [negb] in *. destruct (pending fu); [|discriminate]. destruct (suspend_out s t f k _ _ _ _ E) as [w' S]. exists k, w'. split; auto. now left.
  - destruct (fget s f) as [fu|]; [|discriminate]. destruct (nameable (f_kind fu)); discriminate.
  - destruct (nth_error (evs s) e) as [ev|]; [|discriminate]. destruct (e_priv ev); discriminate.
  - destruct (nth_error (evs s) e) as [ev|]; [|discriminate]. destruct (e_priv ev); discriminate.
  - destruct (nth_error (evs s) e) as [ev|]; [|discriminate]. destruct (e_val ev); [discriminate|].
    destruct (suspend_out (eput (falloc s (mk_fut Pending [] (KEv e))) e (mk_event false (e_waiters ev ++ [List.length (futs s)]) (e_priv ev))) t (List.length (futs s)) (fun r => BEv e (List.length (futs s)) r k) cbs k0 w m) as [w' S]; [exact (falloc_task _ _ _ _ E)|].
    eexists _, w'. split; [exact S|]. right; left. eauto.
  - destruct (nth_error (qs s) q); discriminate.
  - destruct (q_get_out s t q k _ _ _ _ E) as [[r [_ Y]]|[f [w' S]]]; [rewrite Y in X; discriminate|]. eexists _, w'. split; [exact S|]. right; right. eauto.
  - destruct (nth_error (qs s) q); discriminate.
  - destruct (nodup _ _); discriminate.
  - destruct (clock s); discriminate.
Qed.

(** * Inside an awaited coroutine *)
Lemma upto_bindr (p : prog) K : upto any K (bindr p K).
Proof. revert p. cofix IH. intros p. rewrite bindr_unfold. destruct p as [v|e|o c]; [apply upto_end|apply upto_end|]. apply upto_op; [exact I|]. intros r. apply IH. Qed.
Lemma upto_bindr_all C (p : prog) K : allp C p -> upto C K (bindr p K).
Proof.
  revert p. cofix IH. intros p A. rewrite bindr_unfold. destruct p as [v|e|o c]; [apply upto_end|apply upto_end|]. apply upto_op; [now inversion A|]. intros r. apply IH. now inversion A.
Qed.
Section By.
Context (C : @op mem prog -> Prop).
Definition Inside t K s : Prop := (exists b, cur s = Some (t, b) /\ before C K b) \/ exists k w, Susp t k w s /\ forall r, before C K (k r).
Lemma leads_step fire s t b K : Wf s -> cur s = Some (t, b) -> leads C K b -> (exists r, b = BProg (K r) \/ b = BTest (K r)) \/ Inside t K (step fire s).
Proof.
  intros WF Hc [p [U H]]. destruct U as [r|o c HC U]; [left; eauto|right].
  destruct (cur_task s t b WF Hc) as [cbs [k0 [w [m Et]]]].
  assert (Q : forall W, wrap W -> cur s = Some (t, W (Op o c)) -> Inside t K (step fire s)).
  { intros W HW Hc'. rewrite (step_op shuffle dut delayers W fire s t _ _ HW Hc'). assert (LD : forall r, leads C K (W (c r))) by (intros r; exists (c r); split; [apply U|]; destruct HW as [->| ->]; auto).
    destruct (exec_op_out s t o (fun r => W (c r)) _ _ _ _ Et) as [[r [_ X]]|[k' [w' [S D]]]].
    - left. eexists. split; [exact X|]. destruct HW as [->| ->]; apply LD.
    - right. exists k', w'. split; auto. intros r. destruct D as [->|[[e [f ->]]|[q [f ->]]]]; auto. destruct HW as [->| ->]; apply LD. }
  destruct H as [->| ->]; eapply Q; eauto; [now left|now right].
Qed.
Lemma leads_before (K : res lval -> prog) (b : body) : leads C K b -> before C K b. Proof. intros H. pose proof H as [p [_ [->| ->]]]; exact H. Qed.
Lemma inside_step fire s t K : Wf s -> Inside t K s -> (exists r, cur s = Some (t, BProg (K r)) \/ cur s = Some (t, BTest (K r))) \/ Inside t K (step fire s).
Proof.
  intros WF [[b [Hc H]]|[k [w [S H]]]].
  - destruct (cur_task s t b WF Hc) as [cbs [k0 [w [m Et]]]]. assert (HS : step fire s = exec_body shuffle dut delayers s t b) by (unfold Loop_Model.step; now rewrite Hc).
    assert (L : leads C K b -> (exists r, cur s = Some (t, BProg (K r)) \/ cur s = Some (t, BTest (K r))) \/ Inside t K (step fire s)).
    { intros X. destruct (leads_step fire s t b K WF Hc X) as [[r [Y|Y]]|Y]; auto; left; exists r; rewrite Hc, Y; auto. }
    destruct b as [p|p ev todo sb|c|e f r kk|q f r kk|test|p]; cbn [before] in H; auto.
    + right. rewrite HS. cbn [exec_body]. left. destruct (nth_error (evs s) e); eexists; (split; [reflexivity|]); apply leads_before; auto.
    + right. rewrite HS. destruct r as [v|e].
      * cbn [exec_body]. destruct (q_get_out s t q kk _ _ _ _ Et) as [[r [_ X]]|[f' [w' S]]].
        -- left. eexists. split; [exact X|]. apply leads_before; auto.
        -- right. eexists _, w'. split; [exact S|]. auto.
      * left. cbn [exec_body]. eexists. split; [reflexivity|]. apply leads_before; auto.
  - right. destruct (susp_step shuffle dut delayers fire t k w s WF S) as [X|[r [X _]]]; [right; eauto|left; eauto].
Qed.
Lemma inside_along s s' t K : Wf s -> Inside t K s -> steps s s' ->
  (along shuffle dut delayers (Inside t K) s s' /\ Inside t K s') \/
  exists s1 r, along shuffle dut delayers (Inside t K) s s1 /\ Inside t K s1 /\ steps s1 s' /\ (cur s1 = Some (t, BProg (K r)) \/ cur s1 = Some (t, BTest (K r))).
Proof.
  intros WF H R. induction R as [s|s s1 fire R IH]; [left; split; auto; constructor|]. destruct (IH WF H) as [[P X]|[s2 [r [A [A' [B E]]]]]].
  - destruct (inside_step fire s1 t K (steps_wf shuffle dut delayers _ _ WF R) X) as [[r Y]|Y]; [right|left; split; auto; now constructor]. exists s1, r. split; auto. split; auto. split; auto. apply steps_step, steps_refl.
  - right. exists s2, r. split; auto. split; auto. split; auto. now apply steps_step.
Qed.
Lemma along_steps P s s' : along shuffle dut delayers P s s' -> steps s s'.
Proof. intros A. induction A; [apply steps_refl|]. now apply steps_step. Qed.
Lemma along_imp (P Q : state -> Prop) s s' : (forall x, steps s x -> P x -> Q x) -> along shuffle dut delayers P s s' -> along shuffle dut delayers Q s s'.
Proof. intros H A. induction A; [constructor|]. constructor; auto. apply H; auto. eapply along_steps; eauto. Qed.
Lemma inside_track s s' t K : Wf s -> Inside t K s -> steps s s' -> Inside t K s' \/ exists s1 r, steps s s1 /\ steps s1 s' /\ (cur s1 = Some (t, BProg (K r)) \/ cur s1 = Some (t, BTest (K r))).
Proof.
  intros WF H R. induction R as [s|s s1 fire R IH]; [now left|]. destruct (IH WF H) as [X|[s2 [r [A [B D]]]]].
  - destruct (inside_step fire s1 t K (steps_wf shuffle dut delayers _ _ WF R) X) as [[r Y]|Y]; [right|now left]. exists s1, r. split; auto. split; auto. apply steps_step, steps_refl.
  - right. exists s2, r. split; auto. split; auto. now apply steps_step.
Qed.
Lemma inside_awaiting s t K : Wf s -> Inside t K s -> awaiting_by C s t K.
Proof.
  intros WF [[b [Hc H]]|[k [w [S H]]]].
  - destruct (cur_task s t b WF Hc) as [cbs [k0 [w [m Et]]]]. split; [|left; eauto]. apply live_iff. unfold islive. unfold fget in Et. now rewrite Et.
  - destruct S as [S [cbs [m E]]]. split; [apply live_iff; unfold islive; now rewrite E|]. right. split; auto. exists (mk_task k w m). split; auto. unfold tget, fget. now rewrite E.
Qed.
End By.
End Bind.
