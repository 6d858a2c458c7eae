(** Proofs about the triggers on the loop. *)
From Coq Require Import List Bool Arith ZArith Lia.
From Verif Require Import Py Prio_Model Loop_Model Loop_Spec Loop2_Spec Bind_Spec Live_Spec LoopProg_Model LTrig_Model LTrig_Spec Loop_Proofs Loop2_Proofs Loop3_Proofs Loop4_Proofs Loop5_Proofs Loop6_Proofs Loop9_Proofs Loop10_Proofs Loop13_Proofs Drv_Proofs Loop16_Proofs P_Prim P_Loop P_Loop2 P_Loop4.
Import ListNotations.
Open Scope nat_scope.

Section Trig.
Context {mem : Type} (shuffle : list id -> list id) (dut delayers : mem -> mem).
Notation steps := (steps shuffle dut delayers). Notation step := (step shuffle dut delayers). Notation prog := (@prog mem). Notation state := (@state mem). Notation body := (@body mem).
Notation moments := (moments shuffle dut delayers).
Implicit Types (s : state).
Context (test : prog) (m0 : mem).
Context (f : lval -> mem -> mem * res (option lval)) (t : id) (K : res lval -> prog) (W : prog -> body) (HW : wrap W) (x0 : lval).

Lemma watch_unfold x : watch f x = Op (asked f x) (fun r => match r with
    | Ok (VList [x']) => Op (OEvWait 0) (fun r => match r with Ok _ => watch f x' | Exn e => Raise e end)
    | Ok _ => Ret VNone
    | Exn e => Raise e end).
Proof. assert (U : forall p : prog, p = match p with Ret v => Ret v | Raise e => Raise e | Op o k => Op o k end) by (intros []; reflexivity). rewrite (U (watch f x)) at 1. reflexivity. Qed.

Lemma mom_steps n s l s' : moments t n s l s' -> steps s s'.
Proof. induction 1; auto. eapply steps_trans; eauto. Qed.
Lemma mom_more n s l s' s'' : moments t n s l s' -> steps s' s'' -> moments t n s l s''.
Proof. intros H R. destruct H; [apply mo_nil|eapply mo_next; eauto]; eapply steps_trans; eauto. Qed.

(** The moments [l] all told the task to go on. *)
Inductive goes : lval -> list state -> lval -> Prop :=
| go_nil x : goes x [] x
| go_next x l x1 y x2 : goes x l x1 -> snd (f x1 (mm y)) = Ok (Some x2) -> goes x (l ++ [y]) x2.

Definition kb (j : nat) (x : lval) (r : res lval) : body := W (bindr (match r with Ok _ => waits j (watch f x) | Exn e => Raise e end) K).
Definition inner n s s' : Prop := exists l x j, moments t n s l s' /\ goes x0 l x /\
  ((cur s' = Some (t, W (bindr (waits j (watch f x)) K)) /\ nstep s' + j = n + List.length l) \/
   exists n1, n1 + Datatypes.S j = n + List.length l /\ (InWait n1 t (kb j x) s' \/ Leaving n1 t (kb j x) s')).
Definition told (r : res (option lval)) : res lval := match r with Ok _ => Ok VNone | Exn e => Exn e end.
Definition outer n s s' : Prop := exists l x, goes x0 l x /\
  ((exists y z, moments t n s (l ++ [y]) s' /\ (forall x', snd (f x (mm y)) <> Ok (Some x')) /\ back shuffle dut delayers t K (told (snd (f x (mm y)))) y (fst (f x (mm y))) z /\ steps z s') \/
   (exists z, moments t n s l z /\ cancelled_at test t K z /\ steps z s')).

Lemma track_step n s s' fire : steps (init test m0) s' -> inner n s s' -> inner n s (step fire s') \/ outer n s (step fire s').
Proof.
  intros R0 [l [x [j [M [G H]]]]]. pose proof (reach_all _ _ _ _ _ _ R0) as A. assert (R1 : steps s' (step fire s')) by (apply steps_step, steps_refl). destruct H as [[Hc N]|[n1 [N [H|H]]]].
  - destruct j as [|j].
    + cbn [waits] in Hc. rewrite bindr_unfold, watch_unfold in Hc. assert (HS := step_op shuffle dut delayers W fire s' t _ _ HW Hc). cbn [exec_op asked] in HS. destruct (f x (mm s')) as [m' r] eqn:Ef.
      assert (TU : turn s' t) by (eexists; apply runs_wrap; eauto).
      assert (NS : nstep (step fire s') = nstep s') by (rewrite HS; reflexivity). assert (MO : moments t n s (l ++ [s']) (step fire s')) by (eapply mo_next; eauto; lia).
      destruct r as [[x'|]|e].
      * left. exists (l ++ [s']), x', 1. split; auto. split; [eapply go_next; eauto; now rewrite Ef|]. left. split.
        -- rewrite HS. cbn [cur go set_cur]. reflexivity.
        -- rewrite app_length, NS. cbn. lia.
      * right. exists l, x. split; auto. left. exists s', (step fire s'). rewrite Ef. cbn [fst snd told]. split; auto. split; [discriminate|]. split; [|apply steps_refl]. split; auto. split; auto. split; [rewrite HS; reflexivity|].
        apply runs_wrap. exists W. split; auto. rewrite HS. cbn [cur go set_cur]. rewrite (bindr_unfold (Ret VNone)). reflexivity.
      * right. exists l, x. split; auto. left. exists s', (step fire s'). rewrite Ef. cbn [fst snd told]. split; auto. split; [discriminate|]. split; [|apply steps_refl]. split; auto. split; auto. split; [rewrite HS; reflexivity|].
        apply runs_wrap. exists W. split; auto. rewrite HS. cbn [cur go set_cur]. rewrite (bindr_unfold (Raise e)). reflexivity.
    + left. exists l, x, j. split; [eapply mom_more; eauto|]. split; auto. right. exists (nstep s'). split; [lia|]. left.
      cbn [waits] in Hc. rewrite bindr_unfold in Hc. unfold Let in Hc. assert (HS := step_op shuffle dut delayers W fire s' t _ _ HW Hc).
      destruct (cur_live _ (proj1 (v_wf _ (proj1 A))) t _ Hc) as [cbs [k [mu E]]]. cbn [snd coreof] in E. destruct (v_zero _ (proj1 A)) as [ws Z]. rewrite HS. exact (wait_enter s' t (kb j x) _ _ _ _ E Z).
  - left. exists l, x, j. split; [eapply mom_more; eauto|]. split; auto. right. exists n1. split; auto. eapply inwait_step; eauto.
  - destruct H as [fu [r [H1 H2]]]. assert (X : cur (step fire s') = Some (t, kb j x r)) by (unfold Loop_Model.step; rewrite H1; cbn [exec_body]; destruct (nth_error (evs s') 0); destruct H2 as [[-> _]| ->]; reflexivity).
    assert (Y : nstep (step fire s') = nstep s') by (rewrite nstep_step, H1; reflexivity). destruct H2 as [[-> H2]| ->].
    + left. exists l, x, j. split; [eapply mom_more; eauto|]. split; auto. left. split; [exact X|lia].
    + right. exists l, x. split; auto. right. exists (step fire s'). split; [eapply mom_more; eauto|]. split; [|apply steps_refl]. split.
      * apply runs_wrap. exists W. split; auto. rewrite X. unfold kb, CE. rewrite bindr_unfold. reflexivity.
      * intros NT. assert (T0 : tdone s' = Some true) by (destruct (reach_nc _ _ _ _ _ _ NT R0) as [_ [_ [_ [_ [Z|Z]]]]]; auto; exfalso; pose proof (n_cur _ Z _ _ H1) as [Q _]; now apply Q).
        unfold test_over, Loop_Model.step. rewrite H1. cbn [exec_body]. destruct (nth_error (evs s') 0); exact T0.
Qed.
Lemma outer_step n s s' fire : outer n s s' -> outer n s (step fire s').
Proof.
  intros [l [x [G H]]]. assert (R1 : steps s' (step fire s')) by (apply steps_step, steps_refl). exists l, x. split; auto. destruct H as [[y [z [A [B [C D]]]]]|[z [A [B C]]]]; [left; exists y, z|right; exists z].
  - split; [eapply mom_more; eauto|]. split; auto. split; auto. eapply steps_trans; eauto.
  - split; auto. split; auto. eapply steps_trans; eauto.
Qed.
Lemma track n d s s' : steps (init test m0) s -> cur s = Some (t, W (bindr (waits d (watch f x0)) K)) -> n = nstep s + d -> steps s s' -> inner n s s' \/ outer n s s'.
Proof.
  intros R0 Hc -> R. induction R as [s|s s1 fire R IH].
  - left. exists [], x0, d. split; [apply mo_nil, steps_refl|]. split; [constructor|]. left. split; [exact Hc|cbn; lia].
  - destruct (IH R0 Hc) as [X|X]; [|right; now apply outer_step]. apply track_step; auto. eapply steps_trans; eauto.
Qed.
Lemma upto_watch x : upto any K (bindr (watch f x) K).
Proof.
  revert x. cofix CH. intros x. rewrite bindr_unfold, watch_unfold. apply upto_op; [exact Logic.I|]. intros r. rewrite bindr_unfold.
  destruct r as [[| | | |[|x' [|]]]|e]; try apply upto_end. apply upto_op; [exact Logic.I|]. intros [v|e]; [apply CH|]. rewrite bindr_unfold. apply upto_end.
Qed.
Lemma upto_waits j x : upto any K (bindr (waits j (watch f x)) K).
Proof. induction j as [|j IH]; [apply upto_watch|]. cbn [waits]. unfold Let. rewrite bindr_unfold. apply upto_op; [exact Logic.I|]. intros [v|e]; cbn [thenv]; [exact IH|]. rewrite bindr_unfold. apply upto_end. Qed.
Lemma leads_kb j x r : leads any K (kb j x r).
Proof. unfold kb. eexists. split; [|destruct HW as [->| ->]; [left|right]; reflexivity]. destruct r; [apply upto_waits|]. rewrite bindr_unfold. apply upto_end. Qed.
Lemma inner_inside n s s' : steps (init test m0) s' -> inner n s s' -> exists l x, moments t n s l s' /\ goes x0 l x /\ awaiting s' t K /\ seen_all test n (List.length l) s'.
Proof.
  intros R0 [l [x [j [M [G H]]]]]. exists l, x. split; auto. split; auto. destruct H as [[Hc N]|[n1 [N H]]].
  - split.
    + eapply inside_awaits; eauto. left. eexists. split; [exact Hc|]. destruct HW as [->| ->]; (eexists; split; [apply (upto_waits j x)|]); auto.
    + intros c _ [l0 HS] _. rewrite Hc in HS. destruct HW as [->| ->]; discriminate.
  - split.
    + eapply inside_awaits; eauto. destruct H as [[fu [fu1 [cbs [mu [H1 [H2 _]]]]]]|[fu [r [H1 _]]]].
      * right. exists (fun r => BEv 0 fu r (kb j x)), (Some fu). split; [split; [exact H1|]; eexists _, _; exact H2|]. intros r r'. apply leads_kb.
      * left. eexists. split; [exact H1|]. intros r'. apply leads_kb.
    + intros c NT AT NO. destruct H as [[fu [fu1 [cbs [mu [H1 [H2 [H3 [H4 H5]]]]]]]]|[fu [r [H1 _]]]].
      * destruct H5 as [[_ H5]|[[_ [_ EA]]|H5]]; [lia| |].
        -- exfalso. destruct AT as [l0 HS]. exact (proj2 EA _ _ HS).
        -- exfalso. apply NO. apply (canc_tdone shuffle dut delayers test m0 s' fu); auto. unfold state_of, fget. now rewrite H3, <- H5.
      * exfalso. destruct AT as [l0 HS]. congruence.
Qed.
End Trig.
