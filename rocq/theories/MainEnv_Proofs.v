(** Following the main task of run(test, env_handle). *)
From Coq Require Import List Bool Arith ZArith Lia Permutation.
From Verif Require Import Py Prio_Model Loop_Model Loop_Spec Bind_Spec Loop2_Spec Loop3_Spec MainEnv_Model MainEnv_Spec Loop_Proofs Loop2_Proofs Loop3_Proofs Loop4_Proofs Loop5_Proofs Loop6_Proofs Loop9_Proofs Loop10_Proofs Loop13_Proofs Loop16_Proofs Loop22_Proofs Loop23_Proofs Test_Proofs Fail_Spec Fail_Proofs P_Loop5.
Import ListNotations.
Open Scope nat_scope.

Section Env.
Context {mem : Type}.
Notation prog := (@prog mem). Notation state := (@state mem). Notation body := (@body mem).
Implicit Types (s : state).
Context (shuffle : list id -> list id) (dut delayers : mem -> mem).
Notation step := (step shuffle dut delayers). Notation steps := (steps shuffle dut delayers).
Context (env : prog) (test : lval -> prog) (m : mem).
Notation T := (main_env env test).
Notation in_env := (in_env env test). Notation env_returned := (env_returned shuffle dut delayers env test m). Notation env_raised := (env_raised shuffle dut delayers env test m).

Lemma susp_unfinished t k w s : Susp t k w s -> unfinished s t.
Proof. intros [_ [cbs [mu E]]]. unfold unfinished. apply live_iff. unfold islive. rewrite E. reflexivity. Qed.
Lemma cur_unfinished s t b : Wf s -> cur s = Some (t, b) -> unfinished s t.
Proof. intros W H. destruct (cur_task s t b W H) as [cbs [k [w [mu E]]]]. unfold unfinished. apply live_iff. unfold islive. unfold fget in E. rewrite E. reflexivity. Qed.
Lemma unfinished_pending s t : unfinished s t -> state_of s t = Some Pending.
Proof. unfold unfinished. intros H. apply live_iff in H. destruct (live_task _ _ H) as [cbs [k [w [mu E]]]]. unfold state_of, fget. rewrite E. reflexivity. Qed.

(** Up to the end of env_handle. *)
Lemma init_first fire : step fire (init T m) = set_batch (init T m) 1.
Proof.
  assert (F : fold_left fire1 fire (init T m) = init T m). { induction fire as [|f l IH]; auto. cbn [fold_left]. replace (fire1 (init T m) f) with (init T m : state); auto. unfold fire1, fget. destruct f as [|[|f]]; reflexivity. }
  unfold Loop_Model.step. cbn [cur init batch stopping]. cbv zeta. change (mk_state _ _ _ _ _ _ _ _ _ _ _ _ _ _ m) with (init T m) in *. rewrite F. reflexivity.
Qed.
Lemma init_second fire : cur (step fire (set_batch (init T m) 1)) = Some (0, BMain T).
Proof. reflexivity. Qed.
Lemma env_track s' : steps (init T m) s' -> in_env s' \/ exists s1 r W, wrap W /\ steps (init T m) s1 /\ steps s1 s' /\ cur s1 = Some (0, W (after_env test r)).
Proof.
  intros R. destruct (steps_first _ _ _ _ _ R) as [->|[f1 R1]]; [left; split; [left; reflexivity|]; left; eexists; split; reflexivity|].
  assert (A1 : steps (init T m) (step f1 (init T m))) by (apply steps_step, steps_refl). rewrite init_first in *.
  destruct (steps_first _ _ _ _ _ R1) as [->|[f2 R2]]; [left; split; [left; reflexivity|]; left; eexists; split; reflexivity|]. pose proof (init_second f2) as C. assert (A2 : steps (init T m) (step f2 (set_batch (init T m) 1))) by now apply steps_step.
  set (x := step f2 (set_batch (init T m) 1)) in *. clearbody x. destruct (reach_linked _ _ _ _ _ _ A2) as [W1 _]. destruct (steps_first _ _ _ _ _ R2) as [->|[f3 R3]].
  { left. split; [eapply cur_unfinished; eauto|]. right; left. exact C. }
  assert (Cx : cur (step f3 x) = Some (0, BTest T)) by (unfold Loop_Model.step; rewrite C; reflexivity).
  assert (A3 : steps (init T m) (step f3 x)) by now apply steps_step. destruct (reach_linked _ _ _ _ _ _ A3) as [W2 _].
  assert (IN : Inside any 0 (after_env test) (step f3 x)) by (left; eexists; split; [exact Cx|]; apply leads_before; eexists; split; [apply upto_bindr|]; right; reflexivity).
  destruct (inside_track shuffle dut delayers any _ s' 0 _ W2 IN R3) as [X|[s2 [r [D [E F]]]]].
  - left. assert (WS : Wf s') by (eapply steps_wf; [exact W2|exact R3]). pose proof (inside_awaiting any s' 0 _ WS X) as Y. split; [apply Y|auto].
  - right. exists s2, r. destruct F as [F|F]; [exists BProg|exists BTest]; (split; [unfold wrap; auto|]); (split; [eapply steps_trans; eauto|]); auto.
Qed.

(** The outcome of a task that is about to end. *)
Lemma raise_done e fire s t : Wf s -> runs s t (Raise e) -> failed (step fire s) t e.
Proof.
  intros W H. assert (HS : exists b, cur s = Some (t, b) /\ step fire s = finish s t (Exn e)) by (destruct H as [H|H]; eexists; (split; [exact H|]); unfold Loop_Model.step; rewrite H; reflexivity).
  destruct HS as [b [Hc ->]]. destruct (cur_task s t _ W Hc) as [cbs [k [w [mu Et]]]]. unfold failed, finish, conclude. rewrite Et.
  unfold state_of, fget, mkt. cbn [futs set_cur push set_ready fput set_futs f_kind f_cbs f_st pending]. unfold fget in Et. rewrite (put_nth_get _ _ _ _ t Et), Nat.eqb_refl. cbn. destruct e; auto.
Qed.
Lemma cancelled_done fire s t : Wf s -> runs s t (Raise CancelledError) -> state_of (step fire s) t = Some Canc.
Proof.
  intros W H. assert (HS : exists b, cur s = Some (t, b) /\ step fire s = finish s t CE) by (destruct H as [H|H]; eexists; (split; [exact H|]); unfold Loop_Model.step; rewrite H; reflexivity).
  destruct HS as [b [Hc ->]]. destruct (cur_task s t _ W Hc) as [cbs [k [w [mu Et]]]]. unfold finish, conclude. rewrite Et.
  unfold state_of, fget, mkt. cbn [futs set_cur push set_ready fput set_futs f_kind f_cbs f_st pending]. unfold fget in Et. rewrite (put_nth_get _ _ _ _ t Et), Nat.eqb_refl. reflexivity.
Qed.
Lemma failed_later e s s' t : Wf s -> failed s t e -> steps s s' -> failed s' t e.
Proof. intros W [F|[F ->]] R; [left|right; split; auto]; eapply state_of_done; eauto; discriminate. Qed.
Lemma finish_ret s t v cbs k w mu : fget s t = Some (mkt Pending cbs k w mu) -> state_of (finish s t (Ok v)) t = Some (if mu then Canc else Finished (Ok v)).
Proof.
  intros Et. unfold finish, conclude, tget. rewrite Et. unfold mkt. cbn [k_must f_kind f_cbs f_st pending].
  unfold state_of, fget. cbn [futs set_cur push set_ready fput set_futs f_kind f_cbs f_st pending]. unfold fget in Et. rewrite (put_nth_get _ _ _ _ t Et), Nat.eqb_refl. reflexivity.
Qed.

(** The main task awaits a task. *)
Context (shuffled : forall l, Permutation l (shuffle l)).
Lemma await_main W s s' f k fu : wrap W -> steps (init T m) s -> cur s = Some (0, W (Op (OAwait f) k)) -> 0 <> f -> fget s f = Some fu -> nameable (f_kind fu) = true -> steps s s' ->
  s' = s \/ Susp 0 (fun r => W (k r)) (Some f) s' \/
  (exists s1 st, steps s s1 /\ steps s1 s' /\ cur s1 = Some (0, W (k (outcome st))) /\ state_of s1 f = Some st /\ st <> Pending) \/
  (exists s1, steps s s1 /\ steps s1 s' /\ cur s1 = Some (0, W (k CE)) /\ ~ untouched shuffle dut delayers T m).
Proof.
  intros HW R0 Hc Hn Ef Nm R. destruct (reach_linked _ _ _ _ _ _ R0) as [WF _]. destruct (steps_first _ _ _ _ _ R) as [->|[fire R1]]; auto. right.
  assert (HS := step_op shuffle dut delayers W fire s 0 (OAwait f) k HW Hc). cbn [exec_op] in HS. rewrite Ef, Nm in HS. cbn [negb] in HS. assert (R2 : steps s (step fire s)) by (apply steps_step, steps_refl).
  destruct (pending fu) eqn:P.
  - destruct (cur_task s 0 _ WF Hc) as [cbs [k0 [w [mu Et]]]]. pose proof (suspend_susp s 0 f (fun r => W (k r)) _ _ _ _ Et Hn) as SU. rewrite <- HS in SU.
    destruct (susp_track shuffle dut delayers 0 _ _ _ _ (step_wf shuffle dut delayers fire s WF) SU R1) as [X|[s1 [fi [r [A [B [C [D [E G]]]]]]]]]; [now left|right].
    assert (RR : steps s s1) by (eapply steps_trans; eauto). assert (R3 : steps (init T m) s1) by (eapply steps_trans; eauto). destruct (reach_linked _ _ _ _ _ _ R3) as [W1 _]. destruct E as [[-> [tk [E1 E2]]]|[st [E1 [E2 ->]]]].
    + right. exists (step fi s1). split; [now apply steps_step|]. split; auto. split; auto. intros H. pose proof (prot_must None s1 tk (reach_prot shuffle dut delayers shuffled T m s1 H R3) E1). congruence.
    + left. exists (step fi s1), st. split; [now apply steps_step|]. split; auto. split; auto. split; auto. apply (state_of_done shuffle dut delayers s1); auto. apply steps_step, steps_refl.
  - right; left. exists (step fire s), (f_st fu). split; auto. split; auto. rewrite HS at 1. split; [reflexivity|]. split; [|unfold pending in P; destruct (f_st fu); congruence].
    rewrite HS. unfold state_of, fget. cbn [futs go set_cur]. unfold fget in Ef. now rewrite Ef.
Qed.
Lemma ret_result s s' v : steps (init T m) s -> runs s 0 (Ret v) -> steps s s' -> stopped s' -> returned s' 0 v \/ (state_of s' 0 = Some Canc /\ ~ untouched shuffle dut delayers T m).
Proof.
  intros R H R1 ST. destruct (reach_linked _ _ _ _ _ _ R) as [W _]. assert (Hc : exists b, cur s = Some (0, b)) by (destruct H as [H|H]; eauto). destruct Hc as [b Hc]. destruct (cur_task s 0 b W Hc) as [cbs [k [w [mu Et]]]].
  assert (M : untouched shuffle dut delayers T m -> mu = false) by (intros X; refine (prot_must None s (mk_task k w mu) (reach_prot shuffle dut delayers shuffled T m s X R) _); unfold tget; rewrite Et; reflexivity).
  destruct (steps_first _ _ _ _ _ R1) as [->|[fire R2]]; [destruct ST as [ST _]; congruence|]. pose proof (step_wf shuffle dut delayers fire s W) as W1.
  assert (FIN : state_of (step fire s) 0 = Some (if mu then Canc else Finished (Ok v)) -> returned s' 0 v \/ (state_of s' 0 = Some Canc /\ ~ untouched shuffle dut delayers T m)).
  { intros X. pose proof (state_of_done shuffle dut delayers _ _ _ _ W1 R2 X) as Y. destruct mu; [right|left; apply Y; discriminate]. split; [apply Y; discriminate|]. intros Z. specialize (M Z). discriminate. }
  destruct H as [H|H].
  - apply FIN. unfold Loop_Model.step. rewrite H. cbn [exec_body]. eapply finish_ret; eauto.
  - destruct (clock s) as [c|] eqn:K.
    + assert (K' : clock s <> None) by congruence. destruct (C38_result_or_cancelled shuffle dut delayers T m s v s' R H K' R1 ST) as [[X _]|X]; [now left|]. right. split; auto. intros HO.
      destruct (C38_result_partial shuffle dut delayers shuffled T m s v s' HO R H K' R1) as [_ Y]. specialize (Y ST). unfold returned in Y. congruence.
    + apply FIN. unfold Loop_Model.step. rewrite H. cbn [exec_body]. rewrite K. eapply finish_ret. exact Et.
Qed.

(** From the end of env_handle on. *)
Lemma test_track s1 s' a W : wrap W -> steps (init T m) s1 -> cur s1 = Some (0, W (after_env test (Ok a))) -> steps s1 s' ->
  let i := List.length (futs s1) in
  s' = s1 \/ (unfinished s' 0 /\ (runs s' 0 (await_test i) \/ waits_for s' 0 i)) \/
  (exists s2 v, steps s1 s2 /\ steps s2 s' /\ runs s2 0 (Ret v) /\ returned s2 i v) \/
  (exists s2 e, steps s1 s2 /\ steps s2 s' /\ runs s2 0 (Raise e) /\ failed s2 i e) \/
  (exists s2, steps s1 s2 /\ steps s2 s' /\ runs s2 0 (Raise CancelledError) /\ ~ untouched shuffle dut delayers T m).
Proof.
  intros HW R0 Hc R i. destruct (steps_first _ _ _ _ _ R) as [->|[fire R1]]; auto. right. destruct (reach_linked _ _ _ _ _ _ R0) as [W1 _].
  assert (HS := step_op shuffle dut delayers W fire s1 0 _ _ HW Hc). cbn [exec_op] in HS. set (x := step fire s1) in *.
  assert (Lx : 0 < i). { unfold i. destruct (cur_task s1 0 _ W1 Hc) as [cbs [k [w [mu E]]]]. unfold fget in E. apply nth_error_Some. congruence. }
  assert (Cx : cur x = Some (0, W (await_test i))) by (rewrite HS; cbn [go set_cur cur]; fold i; destruct i; [lia|reflexivity]).
  assert (Fx : exists fu, fget x i = Some fu /\ nameable (f_kind fu) = true). { rewrite HS. eexists. unfold fget. cbn. rewrite nth_error_app2, Nat.sub_diag by (unfold i; lia). split; reflexivity. }
  destruct Fx as [fu [Fx Nx]]. assert (Rx : steps (init T m) x) by now apply steps_step. destruct (reach_linked _ _ _ _ _ _ Rx) as [Wx _]. assert (Sx : steps s1 x) by (apply steps_step, steps_refl).
  assert (RW : forall y p, cur y = Some (0, W p) -> runs y 0 p) by (intros y p; destruct HW as [->| ->]; [now left|now right]).
  assert (H0 : 0 <> i) by lia. destruct (await_main W x s' i _ fu HW Rx Cx H0 Fx Nx R1) as [->|[X|[[s2 [st [A [B [C1 [C2 C3]]]]]]|[s2 [A [B [C1 C2]]]]]]].
  - left. split; [eapply cur_unfinished; eauto|]. left. apply RW, Cx.
  - left. split; [eapply susp_unfinished; eauto|]. right. destruct X as [_ [cbs [mu E]]]. eexists. unfold tget, fget. rewrite E. split; reflexivity.
  - right. assert (A' : steps s1 s2) by (eapply steps_trans; eauto). destruct st as [|[v|e]|]; [congruence| | |]; cbn [outcome] in C1.
    + left. exists s2, v. auto.
    + right; left. exists s2, e. split; auto. split; auto. split; [auto|now left].
    + right; left. exists s2, CancelledError. split; auto. split; auto. split; [auto|now right].
  - right; right; right. exists s2. split; [eapply steps_trans; eauto|]. auto.
Qed.
End Env.
