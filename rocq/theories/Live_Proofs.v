(** Progress: the clock exists only after the test has begun; the loop stops only after the main task; hooks that do not wait. *)
From Coq Require Import List Bool Arith ZArith Lia Permutation.
From Verif Require Import Py Prio_Model Loop_Model Loop_Spec Loop_Proofs Loop2_Proofs Loop3_Proofs Loop4_Proofs Loop5_Proofs Loop6_Proofs Loop7_Proofs Loop8_Proofs Loop9_Proofs Loop10_Proofs Loop2_Spec Loop13_Proofs Loop16_Proofs Loop17_Proofs Loop20_Proofs Loop21_Proofs Loop22_Proofs Live_Spec.
Import ListNotations.
Open Scope nat_scope.

Section Live2.
Context {mem : Type}.
Notation prog := (@prog mem). Notation state := (@state mem). Notation body := (@body mem). Notation task := (@task mem).
Notation fut := (@fut mem). Notation kind := (@kind mem).
Implicit Types (s : state) (F : list fut).
Context (shuffle : list id -> list id) (dut delayers : mem -> mem).
Notation step := (step shuffle dut delayers). Notation steps := (steps shuffle dut delayers).

(** * The clock is started by the test *)
Definition Bgn (test : prog) s : Prop :=
  tdone s <> None \/ (clock s = None /\ ((cur s = None /\ ready s = [HStep 0] /\ futs s = [mkt Pending [CbStop] (start (BMain test)) None false]) \/ cur s = Some (0, BMain test))).
Lemma bgn_step test fire s : Bgn test s -> Bgn test (step fire s).
Proof.
  intros [H|[CL [[Hc [Hr Hf]]|Hc]]].
  - left. rewrite (fr_tdone _ _ (step_fr shuffle dut delayers fire s)). unfold seff. destruct (cur s) as [[t b]|]; auto.
    assert (O : forall o, tdone (oeff s t o) = tdone s) by (intros o; destruct o as [f|m|fl| |p|f|f| |e|e|e| |q v|q|q| |h z [|]|l| |]; try reflexivity; cbn; destruct (clock s); reflexivity).
    destruct b as [[v|e|o kk]|[v|e|o kk] ev todo sb|c0|e f r kk|q f [v|e] kk|tst|[v|e|o kk]]; cbn [tdone]; auto; try (rewrite O; exact H).
    all: try (destruct ev; exact H); try (destruct c0 as [| | |[|[h ev] todo] sb| | | |last]; cbn; exact H); cbn; discriminate.
  - right. unfold Loop_Model.step. rewrite Hc. destruct (batch s) as [|n].
    + split; [|left]; (destruct (stopping s); [auto|]; assert (E : fold_left fire1 fire s = s); [|rewrite E; cbn; auto]);
        clear Hc Hr CL; induction fire as [|f fire IH]; [reflexivity| |reflexivity|]; simpl; (replace (fire1 s f) with s; auto; unfold fire1, fget; rewrite Hf; destruct f as [|[|f]]; reflexivity).
    + rewrite Hr. cbn [run_handle]. unfold resume, tget, fget. simpl. rewrite Hf. simpl. split; [|right; reflexivity]. unfold tput, fget. simpl. rewrite Hf. exact CL.
  - left. unfold Loop_Model.step. rewrite Hc. cbn. discriminate.
Qed.
Lemma reach_bgn test m s : steps (init test m) s -> Bgn test s.
Proof.
  intros R. apply (steps_ind_inv shuffle dut delayers (Bgn test) _ _) in R; auto; [intros; now apply bgn_step|]. right. split; [reflexivity|left]. repeat split.
Qed.
Lemma clock_begun test m s c : steps (init test m) s -> clock s = Some c -> tdone s <> None.
Proof. intros R CL. destruct (reach_bgn test m s R) as [H|[H _]]; auto. congruence. Qed.

(** * The loop stops only once the main task is done *)
Definition StO (c : @core mem) : Prop :=
  (forall f fu, nth_error (snd c) f = Some fu -> In CbStop (f_cbs fu) -> f = 0) /\
  exists fu, nth_error (snd c) 0 = Some fu /\ is_task (f_kind fu) = true /\ (In HStop (snd (fst c)) -> pending fu = false).
Lemma sto_put c1 c2 (r r' : list handle) F f fx (a : fut) : nth_error F f = Some fx -> StO (c1, r, F) -> (In CbStop (f_cbs a) -> In CbStop (f_cbs fx)) -> is_task (f_kind a) = is_task (f_kind fx) -> (pending fx = false -> pending a = false) ->
  (In HStop r' -> In HStop r \/ f = 0 /\ pending a = false) -> StO (c2, r', put_nth f a F).
Proof.
  intros E [A [fu [B [C D]]]] H1 H2 H3 H4. unfold StO. cbn [fst snd] in *. split.
  - intros x fu' Ex Hx. rewrite (put_nth_get _ _ _ _ x E) in Ex. destruct (Nat.eqb_spec x f) as [->|]; [|eauto]. injection Ex as <-. eauto.
  - rewrite (put_nth_get _ _ _ _ 0 E). destruct (Nat.eqb_spec 0 f) as [<-|Hn].
    + rewrite E in B. injection B as ->. exists a. split; auto. split; [congruence|]. intros X. destruct (H4 X) as [Y|[_ Y]]; auto.
    + exists fu. split; auto. split; auto. intros X. destruct (H4 X) as [Y|[Y _]]; auto. congruence.
Qed.
Lemma sto_ready c1 c2 (r r' : list handle) F : StO (c1, r, F) -> (In HStop r' -> In HStop r) -> StO (c2, r', F).
Proof. intros [A [fu [B [C D]]]] H. split; auto. exists fu. auto. Qed.
Lemma in_sched_stop f (l : list cb) : In HStop (map (sched f) l) -> In CbStop l.
Proof. intros H. apply in_map_iff in H as [x [E H]]. destruct x; simpl in E; try discriminate. exact H. Qed.
Lemma m1_sto N (S : @perm mem) (c c1 : @core mem) : m1 N S c c1 -> StO c -> StO c1.
Proof.
  intros H A.
  destruct H as [c r F f st cbs k st' Ef -> Tk Hst _|c r F t st cbs k w m m' Ef _|c r F f cbs k g Ef _|c r F h Hh|c r F f st cbs k k' Ef Kc _|c r F st k Tk Hs _|c r F k _ _|t b b' r F|t b r F h st cbs k0 w m k Ef Hh _|t b r F f st cbs k0 w m k cbs' kd Et Ef Hn _|t b r F cbs k w m st Ef Hst _|h t r F st cbs k w m Ho Ef Hr|h c r F Ho Hr].
  - eapply sto_put; eauto; cbn; try contradiction; [discriminate|]. intros X. apply in_app_or in X as [X|X]; auto. apply in_sched_stop in X. right. destruct A as [A _]. split; [eapply A; [exact Ef|exact X]|]. unfold pending. cbn. destruct st'; congruence.
  - eapply sto_put; eauto.
  - eapply sto_put; eauto. cbn. intros X. apply in_app_or in X as [X|[X|[]]]; auto. discriminate.
  - eapply sto_ready; eauto. intros X. apply in_app_or in X as [X|[X|[]]]; auto. subst h. contradiction.
  - eapply sto_put; eauto. cbn. destruct k, k'; cbn in *; try contradiction; reflexivity.
  - destruct A as [A [fu [B [C D]]]]. cbn [fst snd] in *. split.
    + cbn [snd]. intros x fx Ex Hx. rewrite nth_app_new in Ex. destruct (Nat.eqb x (List.length F)); [injection Ex as <-; contradiction|eauto].
    + exists fu. cbn [fst snd]. rewrite nth_error_app1 by (apply nth_error_Some; congruence). auto.
  - destruct A as [A [fu [B [C D]]]]. cbn [fst snd] in *. split.
    + cbn [snd]. intros x fx Ex Hx. rewrite nth_app_new in Ex. destruct (Nat.eqb x (List.length F)); [injection Ex as <-; contradiction|eauto].
    + exists fu. cbn [fst snd]. rewrite nth_error_app1 by (apply nth_error_Some; congruence). split; auto. split; auto. intros X. apply in_app_or in X as [X|[X|[]]]; auto. discriminate.
  - eapply sto_ready; eauto.
  - eapply sto_put; eauto. intros X. apply in_app_or in X as [X|[X|[]]]; auto. destruct Hh; subst h; discriminate.
  - eapply (sto_put (Some (t, b))); [rewrite (put_nth_get _ _ _ _ f Et); destruct (Nat.eqb_spec f t); [contradiction|exact Ef]| | | | |]; [eapply sto_put; [exact Et|exact A|..]; auto| | | |intros X; left; exact X]; cbn; auto.
    intros X. apply in_app_or in X as [X|[X|[]]]; auto. discriminate.
  - eapply sto_put; eauto; cbn; try contradiction; [discriminate|]. intros X. apply in_app_or in X as [X|X]; auto. apply in_sched_stop in X. right. destruct A as [A _]. split; [eapply A; [exact Ef|exact X]|]. unfold pending. cbn. destruct st; congruence.
  - eapply sto_put; eauto. intros X. left. now right.
  - eapply sto_ready; eauto. intros X. now right.
Qed.
Definition Sto s : Prop := StO (coreof s) /\ (stopping s = true -> done0 s).
Lemma sto_step fire s : Wf s -> Sto s -> Sto (step fire s).
Proof.
  intros W [A B]. pose proof W as [I K]. split.
  - eapply (mstar_inv _ _ StO); [|exact (True_ms_kin shuffle dut delayers fire s I K)|exact A]. intros c0 c1. apply m1_sto.
  - intros X. apply done0_step; auto. destruct (step_ready shuffle dut delayers fire s W) as [[t' [b' [L [_ [_ E]]]]]|[[_ [_ [E _]]]|[[L [_ [_ [E [_ E1]]]]]|[[k [_ [_ [_ E]]]]|[k [h [r [L [_ [_ [E1 [_ [_ E2]]]]]]]]]]]]]; auto.
    + unfold bs in E. injection E as _ E. apply B. congruence.
    + unfold bs in E1. injection E1 as _ E1. congruence.
    + rewrite E in X. cbn in X. auto.
    + rewrite E2 in X. destruct h; auto. destruct A as [_ [fu [A1 [_ A2]]]]. cbn [coreof fst snd] in *. exists fu. split; auto. apply A2. rewrite E1. now left.
Qed.
Lemma reach_sto test m s : steps (init test m) s -> Sto s.
Proof.
  intros R. assert (X : Wf s /\ Sto s); [|apply X]. revert R. pose proof (init_wf test m) as W. assert (G : Sto (init test m : state)).
  { split; [|discriminate]. split.
    - intros [|[|f]] fu E H; auto; simpl in E; try discriminate.
    - eexists. split; [reflexivity|]. split; [reflexivity|]. cbn. intros [X|[]]. discriminate. }
  intros R. apply (steps_ind_inv shuffle dut delayers (fun s => Wf s /\ Sto s) _ _) in R; auto. intros fire s0 [W0 G0]. split; [now apply step_wf|now apply sto_step].
Qed.
(** When the main coroutine ends, the loop is told to stop. *)
Definition Hs0 F : Prop := exists fu, nth_error F 0 = Some fu /\ is_task (f_kind fu) = true /\ In CbStop (f_cbs fu).
Definition HsC (c : @core mem) : Prop := In HStop (snd (fst c)) \/ Hs0 (snd c).
Definition Hs s : Prop := stopping s = true \/ HsC (coreof s).
Lemma hs0_put F f fx (a : fut) : nth_error F f = Some fx -> Hs0 F -> (f = 0 -> is_task (f_kind fx) = true -> In CbStop (f_cbs fx) -> is_task (f_kind a) = true /\ In CbStop (f_cbs a)) -> Hs0 (put_nth f a F).
Proof.
  intros E [fu [A [B C]]] H. unfold Hs0. rewrite (put_nth_get _ _ _ _ 0 E). destruct (Nat.eqb_spec 0 f) as [<-|]; [|eauto]. rewrite E in A. injection A as ->. exists a. destruct (H eq_refl B C). auto.
Qed.
Lemma hs0_new F a : Hs0 F -> Hs0 (F ++ [a]).
Proof. intros [fu [A B]]. exists fu. rewrite nth_error_app1; auto. apply nth_error_Some. congruence. Qed.
Lemma m1_hs N (S : @perm mem) (c c1 : @core mem) : ~ resumes S -> m1 N S c c1 -> HsC c -> HsC c1.
Proof.
  intros NR H [A|A].
  - left. destruct H; cbn [fst snd] in *; auto; try (apply in_or_app; now left); contradiction.
  - destruct H as [c r F f st cbs k st' Ef -> Tk Hst _|c r F t st cbs k w m m' Ef _|c r F f cbs k g Ef _|c r F h Hh|c r F f st cbs k k' Ef Kc _|c r F st k Tk Hs _|c r F k _ _|t b b' r F|t b r F h st cbs k0 w m k Ef Hh _|t b r F f st cbs k0 w m k cbs' kd Et Ef Hn _|t b r F cbs k w m st Ef Hst _|h t r F st cbs k w m Ho Ef Hr|h c r F Ho Hr]; unfold HsC; cbn [fst snd] in *; try contradiction; auto.
    + right. eapply hs0_put; eauto. cbn. congruence.
    + right. eapply hs0_put; eauto.
    + right. eapply hs0_put; eauto. cbn. intros _ X Y. split; auto. apply in_or_app. now left.
    + right. eapply hs0_put; eauto. cbn. intros _ X Y. destruct k, k'; cbn in *; try contradiction; try discriminate; auto.
    + right. now apply hs0_new.
    + right. now apply hs0_new.
    + right. eapply hs0_put; eauto.
    + right. assert (E1 : nth_error (put_nth t (mkt st cbs k (Some f) m) F) f = Some (mk_fut Pending cbs' kd)) by (rewrite (put_nth_get _ _ _ _ f Et); destruct (Nat.eqb_spec f t); [congruence|assumption]).
      eapply (hs0_put _ f _ _ E1); [eapply (hs0_put _ t _ _ Et); auto|]. cbn. intros _ X Y. split; auto. apply in_or_app. now left.
    + destruct (Nat.eq_dec t 0) as [->|Hn].
      * left. destruct A as [fu [A1 [_ A2]]]. rewrite Ef in A1. injection A1 as <-. apply in_or_app. right. apply in_map_iff. exists CbStop. auto.
      * right. eapply hs0_put; eauto. cbn. congruence.
Qed.
Lemma hs_settle s f st : Hs0 (futs s) -> Hs0 (futs (settle s f st)).
Proof.
  intros H. unfold settle, fget. destruct (nth_error (futs s) f) as [fu|] eqn:E; auto. destruct (is_task (f_kind fu)) eqn:T; auto. unfold conclude, fget. rewrite E. destruct (pending fu); auto. cbn [push set_ready fput set_futs futs]. eapply hs0_put; eauto. congruence.
Qed.
Lemma hs_fires fire : forall s, Hs0 (futs s) -> Hs0 (futs (fold_left fire1 fire s)).
Proof.
  induction fire as [|f l IH]; intros s H; cbn [fold_left]; auto. apply IH. unfold fire1, fget. destruct (nth_error (futs s) f) as [[st cbs []]|] eqn:E; auto. cbn [push set_ready fput set_futs futs]. eapply hs0_put; eauto.
Qed.
Lemma hs_step fire s : Wf s -> Hs s -> Hs (step fire s).
Proof.
  intros W H. pose proof W as [I K]. destruct (step_ready shuffle dut delayers fire s W) as [[t' [b' [L [Hc [_ E]]]]]|[[_ [_ [_ E]]]|[[L [Hc [Hb [ST [ER _]]]]]|[[k [_ [_ [Hr E]]]]|[k [h [r [L [Hc [Hb [Hr [ER [_ E2]]]]]]]]]]]]].
  - destruct H as [H|H]; [left; unfold bs in E; congruence|right]. eapply (mstar_inv _ _ HsC); [|exact (True_ms_kin shuffle dut delayers fire s I K)|exact H]. intros c0 c1. apply m1_hs. cbn. rewrite Hc. discriminate.
  - now rewrite E.
  - destruct H as [H|[H|H]]; [congruence| |]; right; [left; cbn [coreof fst snd] in *; rewrite ER; apply in_or_app; now left|right]. cbn [coreof snd] in *. unfold Loop_Model.step. rewrite Hc, Hb, ST. apply (hs_fires fire). exact H.
  - rewrite E. exact H.
  - destruct H as [H|[H|H]].
    + left. rewrite E2. destruct h; auto.
    + cbn [coreof fst snd] in H. rewrite Hr in H. destruct H as [->|H]; [left; exact E2|]. right. left. cbn [coreof fst snd]. rewrite ER. apply in_or_app. now left.
    + right. right. cbn [coreof snd] in *. unfold Loop_Model.step. rewrite Hc, Hb, Hr. set (s0 := set_batch (set_ready s r) k). assert (H0 : Hs0 (futs s0)) by exact H. clearbody s0. clear - H0.
      assert (RS : forall t r0, Hs0 (futs (resume s0 t r0))). { intros t r0. unfold resume, tget, tput, fget. destruct (nth_error (futs s0) t) as [[st cbs []]|] eqn:E; auto. cbn [go set_cur fput set_futs futs f_st f_cbs k_cont]. eapply hs0_put; eauto. }
      destruct h as [x|x e|x f|g0| |f]; cbn [run_handle]; auto; [|now apply hs_settle].
      destruct (fget s0 g0) as [[st cbs []]|] eqn:Eg; auto. destruct need as [|n']; auto. assert (X : Hs0 (futs (fput s0 g0 (mk_fut st cbs (KGather n'))))) by (cbn [fput set_futs futs]; eapply hs0_put; eauto; cbn; discriminate). destruct n'; [now apply hs_settle|exact X].
Qed.
Lemma reach_hs test m s : steps (init test m) s -> Hs s.
Proof.
  intros R. assert (X : Wf s /\ Hs s); [|apply X]. apply (steps_ind_inv shuffle dut delayers (fun s => Wf s /\ Hs s) _ _) in R; auto; [intros fire s0 [W0 G0]; split; [now apply step_wf|now apply hs_step]|].
  split; [apply init_wf|]. right. right. eexists. split; [reflexivity|]. split; [reflexivity|]. now left.
Qed.
Lemma main_ended test m s : steps (init test m) s -> ~ unfinished s 0 -> stopping s = true \/ In HStop (ready s).
Proof.
  intros R U. destruct (reach_hs test m s R) as [X|[X|[fu [A [B C]]]]]; auto. cbn [coreof snd] in A. exfalso. apply U. unfold unfinished. apply live_iff. unfold islive. rewrite A. destruct fu as [st cbs kd]. cbn [f_kind f_cbs] in *. destruct kd; try discriminate B.
  assert (W : Wf s) by (apply (v_wf _ (proj1 (reach_all shuffle dut delayers test m s R)))). destruct st; auto; (pose proof (i_cbs _ (proj1 W) 0 _ A eq_refl) as Z; cbn in Z; rewrite Z in C; contradiction).
Qed.
Lemma main_runs test m s : steps (init test m) s -> unfinished s 0 -> stopping s = false.
Proof.
  intros R U. destruct (stopping s) eqn:E; auto. destruct (reach_sto test m s R) as [_ X]. destruct (X E) as [fu [A B]]. apply live_iff in U. unfold islive in U. rewrite A in U. destruct fu as [[] ? ?]; discriminate.
Qed.

(** * Hooks that do not wait for anything *)
Definition HkL (_ : bool) (p : prog) : Prop := swift p.
Lemma swift_op (o : @op mem prog) k : swift (Op o k) -> prompt_op o /\ forall r, swift (k r).
Proof. intros H. inversion H; subst; auto. Qed.
Lemma hooks_HC (h : prog) z d : hooks_op (OPrio h z d) -> HkL d h. Proof. auto. Qed.
Lemma hooks_Hcont d o k r : HkL d (Op o k) -> HkL d (k r).
Proof. intros H. apply swift_op in H. apply H. Qed.
Lemma prompt_out s t o k cbs k0 w m : fget s t = Some (mkt Pending cbs k0 w m) -> prompt_op o -> (exists r, cur (exec_op s t o k) = Some (t, k r)) \/ Susp t k None (exec_op s t o k).
Proof.
  intros E P. destruct o as [f|m0|fl| |p|f|f| |e|e|e| |q v|q|q| |h z [|]|l| |]; cbn in P; try contradiction; cbn [exec_op]; try (left; eexists; reflexivity).
  - left. destruct (f (mm s)). eexists. reflexivity.
  - right. eapply suspend0_susp. exact E.
  - left. destruct (fget s f) as [fu|]; [|eexists; reflexivity]. destruct (nameable (f_kind fu)); eexists; reflexivity.
  - left. destruct (nth_error (evs s) e) as [ev|]; [|eexists; reflexivity]. destruct (e_priv ev); eexists; reflexivity.
  - left. destruct (nth_error (evs s) e) as [ev|]; [|eexists; reflexivity]. destruct (e_priv ev); eexists; reflexivity.
  - left. destruct (nth_error (qs s) q); eexists; reflexivity.
  - left. destruct (nth_error (qs s) q); eexists; reflexivity.
  - left. destruct (nodup _ _); eexists; reflexivity.
  - left. destruct (clock s); eexists; reflexivity.
Qed.
(** What the clock task may be about to do. *)
Definition clkb (b : body) : Prop := match b with BHook _ _ _ _ | BProg (Raise _) | BClk _ => True | _ => False end.
Definition Pr s : Prop := forall c, clock s = Some c ->
  (exists b, cur s = Some (c, b) /\ clkb b) \/ (exists k, Susp c k None s /\ forall r, clkb (k r)) \/ (exists g, Susp c (start (BClk CGathered)) (Some g) s) \/ ~ unfinished s c.
Lemma start_clkb (b : body) : clkb b -> forall r, clkb (start b r). Proof. intros H [v|e]; simpl; auto. Qed.
Lemma unfinished_step fire s t : Wf s -> ~ unfinished s t -> t < List.length (futs s) -> ~ unfinished (step fire s) t.
Proof.
  intros W H Hl U. apply H. unfold unfinished in *. rewrite live_iff in *. destruct (nth_error (futs s) t) as [fu|] eqn:E; [|apply nth_error_None in E; lia].
  destruct (step_fext shuffle dut delayers fire s W t fu E) as [fu' [E' [X Y]]]. unfold islive in *. rewrite E' in U. rewrite E. destruct fu as [st cbs kd], fu' as [st' cbs' kd']. cbn [f_st f_kind pending] in *. unfold pending in *. cbn in *.
  destruct st; [|specialize (Y eq_refl); subst st'; discriminate|specialize (Y eq_refl); subst st'; discriminate].
  destruct kd, kd'; cbn in *; auto; try contradiction; destruct st'; discriminate.
Qed.
Lemma raised_dead fire s t e : Wf s -> cur s = Some (t, BProg (Raise e)) -> ~ unfinished (step fire s) t.
Proof.
  intros [I K] Hc. destruct (cur_live _ I t _ Hc) as [cbs [k0 [mu E]]]. cbn [coreof snd] in E. unfold Loop_Model.step. rewrite Hc. cbn [exec_body].
  unfold unfinished. rewrite live_iff. unfold finish. cbn [futs set_cur]. unfold conclude, fget. rewrite E. cbn [pending f_st mkt futs set_futs push set_ready fput f_kind f_cbs]. unfold islive. rewrite (put_nth_get _ _ _ _ t E), Nat.eqb_refl. destruct e; discriminate.
Qed.
Lemma clock_new fire s c : clock s = None -> clock (step fire s) = Some c -> c = List.length (futs s) /\ futs (step fire s) = futs s ++ [mkt Pending [] (start (BClk CInit)) None false] /\ exists t b, cur s = Some (t, b).
Proof.
  intros C0 CL. destruct (cur s) as [[t b]|] eqn:Hc; [|rewrite (fr_clock _ _ (step_fr shuffle dut delayers fire s)) in CL; unfold seff in CL; rewrite Hc in CL; congruence].
  destruct (spawns_dec b) as [SP|SP].
  - destruct (spawn_futs shuffle dut delayers s t b fire Hc SP) as [[p F]|[F|[C F]]].
    + exfalso. clear - SP CL C0 Hc F. unfold Loop_Model.step in *. rewrite Hc in *. destruct b as [[v|e|o kk]|[v|e|o kk] ev todo sb|c1|e f r kk|q f [v|e] kk|test|[v|e|o kk]]; simpl in SP; try contradiction; destruct o; simpl in SP; try contradiction; cbn [exec_body exec_op] in *; try (cbn in CL; congruence); rewrite C0 in *; cbn in F; apply app_inv_head in F; injection F as F; apply (f_equal (fun k => k (Ok VNone))) in F; discriminate F.
    + exfalso. clear - SP CL C0 Hc F. unfold Loop_Model.step in *. rewrite Hc in *. destruct b as [[v|e|o kk]|[v|e|o kk] ev todo sb|c1|e f r kk|q f [v|e] kk|test|[v|e|o kk]]; simpl in SP; try contradiction; destruct o; simpl in SP; try contradiction; cbn [exec_body exec_op] in *; try (cbn in CL; congruence); rewrite C0 in *; cbn in F; apply (f_equal (@List.length _)) in F; rewrite app_length in F; cbn in F; lia.
    + rewrite C in CL. injection CL as <-. eauto 10.
  - exfalso. rewrite (fr_clock _ _ (step_fr shuffle dut delayers fire s)) in CL. unfold seff in CL. rewrite Hc in CL.
    assert (O : forall o, ~ spawning o -> clock (oeff s t o) = None) by (intros o H; destruct o as [f|m0|fl| |p|f|f| |e|e|e| |q v|q|q| |h z [|]|l| |]; cbn in *; auto; now elim H).
    destruct b as [[v|e|o kk]|[v|e|o kk] ev todo sb|c1|e f r kk|q f [v|e] kk|tst|[v|e|o kk]]; cbn in SP, CL; try congruence; try (rewrite O in CL; auto; discriminate).
    + destruct ev; cbn in CL; congruence.
    + destruct c1 as [| | |[|[h ev] todo] sb| | | |last]; cbn in CL; congruence.
Qed.
Lemma step_len fire s : Wf s -> List.length (futs s) <= List.length (futs (step fire s)).
Proof.
  intros [I K]. pose proof (True_ms_kin shuffle dut delayers fire s I K) as M. apply (mstar_inv _ _ (fun c => List.length (futs s) <= List.length (snd c))) in M; auto. intros c0 c1 H. apply m1_length in H. cbn [coreof snd] in *. lia.
Qed.
Record Pro (test : prog) s : Prop := mk_pro { pr_wf : Wf s; pr_good : Good hooks_op HkL s; pr_once : Once test s; pr_len : forall c, clock s = Some c -> c < List.length (futs s); pr_pr : Pr s }.
Lemma pro_step test fire s : Pro test s -> Pro test (step fire s).
Proof.
  intros [W G O LN P]. pose proof W as [I K]. constructor; [now apply step_wf|apply (step_good shuffle dut delayers hooks_op HkL hooks_HC hooks_Hcont); auto|now apply step_once| |].
  - intros c CL. pose proof (step_len fire s W) as LE. destruct (clock s) as [c0|] eqn:C0.
    + rewrite (clock_step shuffle dut delayers fire s c0 C0) in CL. injection CL as <-. specialize (LN c0 eq_refl). lia.
    + destruct (clock_new fire s c C0 CL) as [-> [F _]]. rewrite F, app_length. cbn. lia.
  - intros c CL. destruct (clock s) as [c0|] eqn:C0.
    + rewrite (clock_step shuffle dut delayers fire s c0 C0) in CL. injection CL as ->. specialize (P c C0). destruct P as [[b [Hc Hb]]|[[k [SU Hk]]|[[g SU]|D]]].
      * destruct (cur_live _ I c b Hc) as [cbs [k0 [mu E]]]. cbn [coreof snd] in E. pose proof (g_cur _ _ _ G _ _ Hc) as GB. unfold Loop_Model.step. rewrite Hc. destruct b as [[v|e|o kk]|[v|e|o kk] ev todo sb|x|e f r kk|q f [v|e] kk|tst|[v|e|o kk]]; cbn [clkb] in Hb; try contradiction; cbn [exec_body].
        -- right. right. right. unfold unfinished. rewrite live_iff. unfold finish. cbn [futs set_cur]. unfold conclude, fget. rewrite E. cbn [pending f_st mkt futs set_futs push set_ready fput f_kind f_cbs]. unfold islive. rewrite (put_nth_get _ _ _ _ c E), Nat.eqb_refl. destruct e; discriminate.
        -- left. destruct ev; (eexists; split; [reflexivity|exact Logic.I]).
        -- left. eexists. split; [reflexivity|exact Logic.I].
        -- destruct GB as [[_ GB] _]. cbn [fst snd] in GB. unfold HkL in GB. apply swift_op in GB as [GB _]. destruct (prompt_out s c o (fun r => BHook (kk r) ev todo sb) _ _ _ _ E GB) as [[r X]|X]; [left; eexists; split; [exact X|exact Logic.I]|].
           right. left. eexists. split; [exact X|]. intros r. exact Logic.I.
        -- assert (SU : forall s1 k, futs s1 = futs s -> (forall r, clkb (k r)) -> exists k', Susp c k' None (suspend0 s1 c k) /\ forall r, clkb (k' r)) by (intros s1 k F Hk; exists k; split; auto; eapply suspend0_susp; unfold fget; rewrite F; exact E).
           destruct x as [| | |[|[h ev] todo] sb| | | |last]; cbn [exec_clk].
           ++ destruct (tdone s); [left; eexists; split; [reflexivity|exact Logic.I]|]. right. left. apply SU; auto. apply start_clkb. exact Logic.I.
           ++ right. left. apply SU; auto. apply start_clkb. exact Logic.I.
           ++ left. destruct (has_unwait s c || flag s); (eexists; split; [reflexivity|exact Logic.I]).
           ++ left. destruct sb; (eexists; split; [reflexivity|exact Logic.I]).
           ++ left. eexists; split; [reflexivity|exact Logic.I].
           ++ left. destruct (tdone s) as [[]|]; (eexists; split; [reflexivity|exact Logic.I]).
           ++ destruct (shuffle _) as [|x l]; [right; left; apply SU; auto; apply start_clkb; exact Logic.I|]. right. right. left. eexists.
              set (l2 := x :: l). destruct (cancels_task l2 s c _ _ _ _ _ E) as [m1 E1]. pose proof (cancels_len l2 s) as LN2. set (s1 := fold_left cancel_top l2 s) in *. set (s2 := falloc s1 _).
              assert (LC : c < List.length (futs s)) by (apply nth_error_Some; congruence).
              assert (E2 : fget s2 c = Some (mkt Pending cbs k0 None m1)) by (unfold s2, fget, falloc; cbn [set_futs futs]; rewrite nth_error_app1 by lia; exact E1).
              destruct (on_dones_task (List.length (futs s1)) l2 s2 c _ _ _ _ _ E2) as [cb3 E3]. eapply suspend_susp; [exact E3|lia].
           ++ right. left. apply SU; auto. apply start_clkb. exact Logic.I.
           ++ left. eexists; split; [reflexivity|exact Logic.I].
      * destruct (susp_step shuffle dut delayers fire c k None s W SU) as [X|[r [X _]]]; [right; left; eauto|left; eauto].
      * destruct (susp_step shuffle dut delayers fire c _ _ s W SU) as [X|[r [X _]]]; [right; right; left; eauto|left]. eexists. split; [exact X|]. apply start_clkb. exact Logic.I.
      * right. right. right. apply unfinished_step; auto.
    + destruct (clock_new fire s c C0 CL) as [-> [F [t [b Hc]]]]. right. left. exists (start (BClk CInit)). split; [|apply start_clkb; exact Logic.I].
      split; [|exists [], false; rewrite F, nth_error_app2, Nat.sub_diag by lia; reflexivity].
      intros b' X. destruct (step_cur shuffle dut delayers fire s _ _ W X) as [[b1 [Y _]]|[Y _]]; [|congruence]. destruct (cur_live _ I _ _ Y) as [cbs [k0 [mu E]]]. cbn [coreof snd] in E. assert (Z : nth_error (futs s) (List.length (futs s)) <> None) by congruence. apply nth_error_Some in Z. lia.
Qed.
Lemma reach_pro test m s : allp hooks_op test -> steps (init test m) s -> Pro test s.
Proof.
  intros H R. apply (steps_ind_inv shuffle dut delayers (Pro test) _ _) in R; auto; [intros; now apply pro_step|].
  constructor; [apply init_wf|now apply init_good|apply init_once|discriminate|intros c X; discriminate].
Qed.
End Live2.
