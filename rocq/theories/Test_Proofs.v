(** The test runs in task 0 only, and not after it has ended. *)
From Coq Require Import List String Bool Arith ZArith Lia.
From Verif Require Import Py Prio_Model Loop_Model Loop_Spec Loop2_Spec Loop_Proofs Loop2_Proofs Loop3_Proofs Loop4_Proofs Loop5_Proofs Loop8_Proofs Loop9_Proofs Loop10_Proofs Loop13_Proofs Loop16_Proofs Loop18_Proofs Exec_Model Exec_Spec Exec_Proofs.
Import ListNotations.
Open Scope nat_scope.

Section Test.
Context {mem : Type}.
Notation prog := (@prog mem). Notation state := (@state mem). Notation body := (@body mem). Notation kind := (@kind mem).
Implicit Types (s : state).
Context (shuffle : list id -> list id) (dut delayers : mem -> mem).
Notation step := (step shuffle dut delayers). Notation steps := (steps shuffle dut delayers).

Fixpoint notestb (b : body) : Prop := match b with BTest _ | BMain _ => False | BEv _ _ _ k | BGet _ _ _ k => forall r, notestb (k r) | _ => True end.
Definition notestk (k : res lval -> body) : Prop := forall r, notestb (k r).
Definition One s : Prop := forall t, t <> 0 -> (forall b, cur s = Some (t, b) -> notestb b) /\ (forall st cbs k w m, nth_error (futs s) t = Some (mkt st cbs k w m) -> notestk k).
Lemma notest_stores (b : body) : ~ spawns b -> notestb b -> stores (fun _ => notestk) b.
Proof.
  assert (O : forall o k, ~ spawning o -> notestk k -> opstores (fun _ => notestk) o k).
  { intros o k H H0. destruct o; simpl in *; auto; try (exfalso; apply H; exact I); intros f0 r; exact H0. }
  destruct b as [[v|e|o kk]|[v|e|o kk] ev todo sb|c|e f r kk|q f [v|e] kk|test|[v|e|o kk]]; cbn [spawns notestb stores opstores]; intros HS H; auto; try contradiction; try (apply O; [exact HS|intros r; exact I]).
  - destruct c; auto; try (intros [|]; exact I). split; [|split]; [intros g n [|]|intros [|]|intros [|]]; exact I.
  - intros f0 r0. exact H.
Qed.
Lemma nextb_notest s t b b' : nextb s t b b' -> notestb b -> notestb b'.
Proof.
  intros Hn H. destruct b as [[v|e|o kk]|[v|e|o kk] ev todo sb|c|e f r kk|q f [v|e] kk|test|[v|e|o kk]]; cbn [nextb notestb] in *; try contradiction; try (subst b'; auto; exact I);
    try (destruct Hn as [r [_ ->]]; try exact I; auto; fail).
  destruct c as [| | |[|[h ev] todo] sb| | | |last]; try contradiction; try (subst b'; exact I). destruct Hn as [->|[_ [_ ->]]]; exact I.
Qed.
Lemma step_one fire s : Wf s -> One s -> One (step fire s).
Proof.
  intros W C t Ht. pose proof W as [I K]. destruct (C t Ht) as [C1 C2]. split.
  - intros b' Hc'. destruct (step_cur shuffle dut delayers fire s t b' W Hc') as [[b [Hc Hn]]|[Hc [h [r [n [st [cbs [k [w [m [Hr [Hb [Ho [E ->]]]]]]]]]]]]]].
    + eapply nextb_notest; eauto.
    + exact (C2 _ _ _ _ _ E _).
  - intros st cbs k w m E. destruct (cur s) as [[t0 b]|] eqn:Hc.
    + destruct (spawns_dec b) as [HS|HS].
      * destruct (spawn_futs shuffle dut delayers s t0 b fire Hc HS) as [[p X]|[X|[X0 X]]]; rewrite X in E; eauto; rewrite nth_app_new in E; destruct (Nat.eqb_spec t (List.length (futs s))) as [->|]; eauto;
          injection E as _ _ <- _ _; intros [v|e]; exact Logic.I.
      * set (N := fun (_ : option (id * kind)) (k : res lval -> body) => t0 <> 0 -> notestk k).
        assert (HN : forall t b, cur s = Some (t, b) -> stores N b).
        { intros t1 b1 X. rewrite Hc in X. injection X as <- <-. destruct (Nat.eqb_spec t0 0) as [Q|Q].
          - assert (Y : forall w k, N w k) by (intros w0 k0 Z; contradiction).
            clear - Y. destruct b as [[v|e|o kk]|[v|e|o kk] ev todo sb|[]|e f r kk|q f [v|e] kk|test|[v|e|o kk]]; cbn [stores opstores]; auto; try (destruct o; cbn [opstores]; auto).
          - pose proof (notest_stores b HS (proj1 (C t0 Q) b Hc)) as X. clear - X. destruct b as [[v|e|o kk]|[v|e|o kk] ev todo sb|[]|e f r kk|q f [v|e] kk|test|[v|e|o kk]]; cbn [stores opstores] in *; unfold N; auto; try (destruct o; cbn [opstores] in *; auto; intuition auto; fail); intuition auto. }
        assert (M := step_core shuffle dut delayers N fire s I K HN).
        assert (NR : resumes (Sof s) -> forall w k, ~ N w k) by (intros X; simpl in X; congruence).
        destruct (mstar_cont N (Sof s) t _ _ NR M _ _ _ _ _ E) as [[st0 [cbs0 [w0 [m0 E0]]]]|[[w0 Nk] [[b0 Hb]|[_ [tk X]]]]].
        -- eauto.
        -- cbn [coreof fst] in Hb. rewrite Hc in Hb. injection Hb as -> <-. now apply Nk.
        -- exfalso. destruct X as [[_ X]|[[X _]|X]]; [discriminate| |].
           ++ unfold creates in X. rewrite Hc in X. destruct b as [[v|e|o kk]|[v|e|o kk] ev todo sb|[]|e f r kk|q f [v|e] kk|test|[v|e|o kk]]; simpl in X, HS; try contradiction; try discriminate; destruct X as [[p ->]| ->]; now apply HS.
           ++ unfold finals, final in X. rewrite Hc in X. destruct b as [[v|[] |o kk]|[v|e|o kk] ev todo sb|[]|e f r kk|q f [v|e] kk|test|[v|[] |o kk]]; try contradiction; simpl in X; try discriminate; destruct (k_must tk); discriminate.
    + assert (M := step_core shuffle dut delayers (fun _ _ => False) fire s I K ltac:(intros ? ? X; congruence)).
      destruct (mstar_cont (fun _ _ => False) (Sof s) t _ _ ltac:(auto) M _ _ _ _ _ E) as [[st0 [cbs0 [w0 [m0 E0]]]]|[[w0 []] _]]. eauto.
Qed.
Lemma init_one test m : One (init test m : state).
Proof. intros t Ht. split; [discriminate|]. intros st cbs k w mu E. destruct t as [|[|t]]; simpl in E; try discriminate. contradiction. Qed.
(** After the end of the test task 0 does not run the test. *)
Definition Ended s : Prop := Wf s /\ One s /\ (tdone s = Some true -> Plain 0 s).
Lemma step_ended fire s : Ended s -> Ended (step fire s).
Proof.
  intros [W [O E]]. split; [now apply step_wf|]. split; [now apply step_one|]. intros TD. destruct (tdone s) as [[|]|] eqn:T; [apply plain_step; auto| |].
  all: rewrite (fr_tdone _ _ (step_fr shuffle dut delayers fire s)) in TD; unfold seff in TD; destruct (cur s) as [[t b]|] eqn:Hc; [|congruence].
  all: assert (Q : forall o, tdone (oeff s t o) = tdone s) by (intros o; destruct o as [f|m|fl| |p|f|f| |e|e|e| |q v|q|q| |h z [|]|l| |]; auto; simpl; destruct (clock s); auto).
  all: destruct b as [[v|e|o kk]|[v|e|o kk] [ev|] todo sb|[| | |[]| | | |]|e f r kk|q f [v|e] kk|test|[v|e|o kk]]; try (rewrite ?Q in TD; simpl in TD; congruence).
  all: assert (t = 0) by (destruct (Nat.eqb_spec t 0) as [|Z]; auto; exfalso; exact (proj1 (O t Z) _ Hc)); subst t.
  all: destruct (cur_task s 0 _ W Hc) as [cbs [k0 [w [m Et]]]]; assert (HS : step fire s = exec_body shuffle dut delayers s 0 (BTest (Ret v))) by (unfold Loop_Model.step; now rewrite Hc); cbn [exec_body] in HS; destruct (clock s).
  all: try (destruct (exec_op_out (set_tdone s (Some true)) 0 (OEvWait 0) (fun r => BProg (match r with Ok _ => Ret v | Exn e => Raise e end)) cbs k0 w m Et) as [[r [_ X]]|[k' [w' [S D]]]];
    [left; rewrite HS; eexists; split; [exact X|exact I]|right; left; rewrite HS; exists k', w'; split; auto; intros r; destruct D as [->|[[e [f ->]]|[q [f ->]]]]; simpl; auto]).
  all: destruct (finish_state (set_tdone s (Some true)) 0 (Ok v) _ _ _ _ Et) as [st [X [Y _]]]; right; right; exists st; rewrite HS; auto.
Qed.
Lemma reach_ended test m s : steps (init test m) s -> Ended s.
Proof. intros R. apply (steps_ind_inv shuffle dut delayers Ended _ _) in R; auto; [intros; now apply step_ended|]. split; [apply init_wf|]. split; [apply init_one|]. discriminate. Qed.
Lemma test_running test m s t p : steps (init test m) s -> cur s = Some (t, BTest p) -> t = 0 /\ tdone s <> Some true.
Proof.
  intros R Hc. destruct (reach_ended test m s R) as [W [O E]]. assert (t = 0) by (destruct (Nat.eqb_spec t 0) as [|Z]; auto; exfalso; exact (proj1 (O t Z) _ Hc)). subst t. split; auto. intros TD.
  destruct (E TD) as [[b [H P]]|[[k [w [[H _] _]]]|[st [A B]]]].
  - rewrite H in Hc. injection Hc as ->. exact P.
  - now apply H in Hc.
  - destruct (cur_task s 0 _ W Hc) as [cbs [k [w [m0 Et]]]]. unfold state_of in A. rewrite Et in A. unfold mkt in A. simpl in A. injection A as <-. contradiction.
Qed.
End Test.
