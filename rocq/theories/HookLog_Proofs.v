(** Every registered hook is started exactly once, in its own cycle. *)
From Coq Require Import List Bool Arith ZArith Lia Permutation Sorted.
From Verif Require Import Py Prio_Model Prio_Proofs Loop_Model Loop_Spec Loop_Proofs Loop2_Proofs Loop3_Proofs Loop4_Proofs Loop5_Proofs Loop6_Proofs Loop7_Proofs Loop8_Proofs Loop9_Proofs Loop10_Proofs Loop2_Spec LoopProg_Model Loop13_Proofs Loop14_Proofs Loop15_Proofs Loop16_Proofs Loop17_Proofs Loop18_Proofs Loop20_Proofs Loop21_Proofs Loop22_Proofs Loop3_Spec Loop23_Proofs Live_Spec Live_Proofs Hook_Spec Hook_Proofs HookLog_Spec.
Import ListNotations.
Open Scope nat_scope.

(** * Sorting *)
Section Sort.
Context {A B : Type}.
Lemma pt_insert_map (f : ptask A -> ptask B) x l : (forall x, pt_prio (f x) = pt_prio x) -> map f (pt_insert x l) = pt_insert (f x) (map f l).
Proof. intros H. induction l as [|y l IH]; simpl; auto. rewrite !H. destruct (pt_prio x <=? pt_prio y)%Z; simpl; auto. now rewrite IH. Qed.
Lemma pt_sorted_map (f : ptask A -> ptask B) l : (forall x, pt_prio (f x) = pt_prio x) -> map f (pt_sorted l) = pt_sorted (map f l).
Proof. intros H. induction l as [|x l IH]; simpl; auto. rewrite pt_insert_map by auto. now rewrite IH. Qed.
End Sort.

Section Log.
Context {mem : Type}.
Notation prog := (@prog mem). Notation state := (@state mem). Notation body := (@body mem).
Notation reg := (@reg mem). Notation start_ := (@start_ mem).
Implicit Types (s : state) (g : reg).
Definition tag g : ptask reg := mk_pt g (g_prio g) None.
Definition pt g : ptask prog := mk_pt (g_hook g) (g_prio g) (g_event g).
Definition untag (x : ptask reg) : ptask prog := mk_pt (g_hook (pt_coro x)) (pt_prio x) (g_event (pt_coro x)).
Definition strip g : prog * option id := (g_hook g, g_event g).
Definition srt (l : list reg) : list reg := map pt_coro (pt_sorted (map tag l)).
Lemma srt_tag l : map tag (srt l) = pt_sorted (map tag l).
Proof.
  unfold srt. rewrite map_map. assert (H : forall x, In x (pt_sorted (map tag l)) -> tag (pt_coro x) = x).
  { intros x Hx. apply (Permutation_in _ (pt_sorted_perm _)) in Hx. apply in_map_iff in Hx as [g [<- _]]. reflexivity. }
  induction (pt_sorted (map tag l)) as [|x r IH]; simpl; auto. rewrite H by now left. f_equal. apply IH. intros y Hy. apply H. now right.
Qed.
Lemma srt_pt l : map (fun p => (pt_coro p, pt_done p)) (pt_sorted (map pt l)) = map strip (srt l).
Proof.
  replace (map pt l) with (map untag (map tag l)) by (rewrite map_map; reflexivity). rewrite <- pt_sorted_map by reflexivity. rewrite <- srt_tag, !map_map. reflexivity.
Qed.
Lemma filter_tag z l : filter (fun t => (pt_prio t =? z)%Z) (map tag l) = map tag (filter (fun g => (g_prio g =? z)%Z) l).
Proof. induction l as [|g l IH]; simpl; auto. destruct (g_prio g =? z)%Z; simpl; congruence. Qed.
Lemma map_tag_inj l r : map tag l = map tag r -> l = r.
Proof. revert r. induction l as [|g l IH]; intros [|h r] H; try discriminate; auto. injection H as -> _ H. f_equal; auto. Qed.
Lemma srt_order l : in_order l (srt l).
Proof.
  split; [|split].
  - unfold srt. replace l with (map pt_coro (map tag l)) at 2 by (rewrite map_map; apply map_id). apply Permutation_map, pt_sorted_perm.
  - pose proof (pt_sorted_sorted (map tag l)) as H. rewrite <- srt_tag in H. induction (srt l) as [|g r IH]; [constructor|]. inversion H as [|x y H1 H2]; subst. constructor; auto. apply Forall_forall. intros y Hy. rewrite Forall_forall in H2. apply (H2 (tag y)). now apply in_map.
  - intros z. apply map_tag_inj. rewrite <- !filter_tag, srt_tag. apply pt_sorted_stable.
Qed.

Context (shuffle : list id -> list id) (dut delayers : mem -> mem).
Notation step := (step shuffle dut delayers). Notation steps := (steps shuffle dut delayers).
Context (shuffled : forall l, Permutation l (shuffle l)).

Lemma prio_step fire s : prio (step fire s) = match cur s with Some (_, BClk (CPass [] _)) => [] | _ => prio s ++ map pt (reg_by s) end.
Proof.
  rewrite (fr_prio _ _ (step_fr shuffle dut delayers fire s)). unfold seff, reg_by, current_op. destruct (cur s) as [[t b]|]; [|now rewrite app_nil_r].
  assert (O : forall o, prio (oeff s t o) = prio s ++ map pt match o with OPrio h z d => [mk_reg (nstep s) h z (if d then Some (List.length (evs s)) else None)] | _ => [] end).
  { intros o. rewrite oeff_prio. destruct o; simpl; now rewrite ?app_nil_r. }
  destruct b as [[v|e|o' kk]|[v|e|o' kk] ev todo sb|c|e f r kk|q f [v|e] kk|test|[v|e|o' kk]]; simpl; try (rewrite app_nil_r; reflexivity); try apply O.
  - destruct ev; simpl; now rewrite app_nil_r.
  - destruct c as [| | |[|[h ev] todo] sb| | | |last]; simpl; now rewrite ?app_nil_r.
Qed.
Lemma tdone_still fire s : (forall t v, cur s <> Some (t, BTest (Ret v))) -> (forall t p, cur s <> Some (t, BMain p)) -> tdone (step fire s) = tdone s.
Proof.
  intros N1 N2. rewrite (fr_tdone _ _ (step_fr shuffle dut delayers fire s)). unfold seff. destruct (cur s) as [[t b]|]; auto.
  assert (O : forall o, tdone (oeff s t o) = tdone s) by (intros o; destruct o as [f|m|fl| |p|f|f| |e|e|e| |q v|q|q| |h z [|]|l| |]; auto; simpl; now destruct (clock s)).
  destruct b as [[v|e|o' kk]|[v|e|o' kk] ev todo sb|c|e f r kk|q f [v|e] kk|test|[v|e|o' kk]]; auto.
  - now destruct ev.
  - destruct c as [| | |[|[h ev] todo] sb| | | |last]; auto.
  - now elim (N2 t test).
  - now elim (N1 t v).
Qed.

(** * The invariant *)
Definition starts_of (x : nat * list reg) : list start_ := map (as_start (fst x)) (snd x).
Definition own (s : state) (pend : list reg) (outs : list (nat * list reg)) : Prop :=
  tdone s <> Some true -> Forall (fun g => g_cycle g = nstep s) pend /\ Forall (fun x => Forall (fun g => g_cycle g = fst x) (snd x)) outs.
Definition hphase (s : state) (pend : list reg) (U0 U : list start_) : Prop :=
  match cur s with
  | Some (_, BHook _ _ todo _) | Some (_, BClk (CPass todo _)) => exists d r, srt pend = d ++ r /\ map strip r = todo /\ U = U0 ++ map (as_start (nstep s)) d
  | Some (_, BClk CTail) | Some (_, BClk CCancel) | Some (_, BClk (CStep false)) => pend = [] /\ U = U0
  | _ => U = U0
  end.
Definition HInv (s : state) G U : Prop :=
  (exists chunks outs pend, G = concat chunks ++ pend /\ Forall2 (fun ch x => in_order ch (snd x)) chunks outs /\ prio s = map pt pend /\ own s pend outs /\ hphase s pend (concat (map starts_of outs)) U) \/
  (dead s /\ exists rest, Permutation (map strip G) (map hook_of U ++ rest)).
Lemma npass_phase s pend U0 U : (forall t b, cur s = Some (t, b) -> npass b) -> U = U0 -> hphase s pend U0 U.
Proof. intros H ->. unfold hphase. destruct (cur s) as [[t b]|]; auto. specialize (H t b eq_refl). destruct b as [| |[| | | | | | |[]]| | | |]; auto; contradiction. Qed.
Lemma starts_strip outs : map hook_of (concat (map starts_of outs)) = map strip (concat (map snd outs)).
Proof. induction outs as [|[n o] outs IH]; simpl; auto. rewrite !map_app, IH. f_equal. unfold starts_of. rewrite map_map. reflexivity. Qed.
Lemma chunks_perm chunks (outs : list (nat * list reg)) : Forall2 (fun ch x => in_order ch (snd x)) chunks outs -> Permutation (concat chunks) (concat (map snd outs)).
Proof. induction 1 as [|ch x chunks outs [H _] _ IH]; simpl; auto. apply Permutation_app; auto. now symmetry. Qed.
(** Whatever was started had been registered, and not been started before. *)
Lemma hinv_rest s G U : HInv s G U -> exists rest, Permutation (map strip G) (map hook_of U ++ rest).
Proof.
  intros [[chunks [outs [pend [-> [F [_ [_ P]]]]]]]|[_ X]]; auto. pose proof (chunks_perm _ _ F) as CP.
  assert (P0 : U = concat (map starts_of outs) \/ exists d r n, srt pend = d ++ r /\ U = concat (map starts_of outs) ++ map (as_start n) d).
  { unfold hphase in P. destruct (cur s) as [[t [| |[| | | | | | |[]]| | | |]]|]; auto; try (now left; destruct P); destruct P as [d [r [A [_ B]]]]; right; eauto. }
  destruct P0 as [->|[d [r [n [E ->]]]]].
  - exists (map strip pend). rewrite starts_strip, map_app. apply Permutation_app; auto. now apply Permutation_map.
  - exists (map strip r). rewrite !map_app, starts_strip, map_map, <- app_assoc. apply Permutation_app; [now apply Permutation_map|].
    change (fun x : reg => hook_of (as_start n x)) with strip. rewrite <- map_app, <- E. apply Permutation_map. symmetry. apply srt_order.
Qed.
Lemma dead_idle s : Wf s -> Clk1 s -> dead s -> start_by s = [].
Proof.
  intros W C1 [c [A [B C]]]. unfold start_by. destruct (cur s) as [[t b]|] eqn:Hc; auto. destruct b as [| |[| | |[|[h ev] todo] sb| | | |]| | | |]; auto. exfalso.
  assert (X : clock s = Some t) by (eapply clock_of; eauto; intros X; exact X). assert (c = t) by congruence. subst c. destruct C as [[e C]|C]; [congruence|]. apply C.
  pose proof W as [I K]. destruct (cur_live _ I t _ Hc) as [cbs [k [mu E]]]. cbn [coreof snd] in E. unfold unfinished. rewrite live_iff. unfold islive. rewrite E. reflexivity.
Qed.

(** The last step is made after the end of the test, the others before. *)
Lemma step_kind test m s t l : steps (init test m) s -> cur s = Some (t, BClk (CStep l)) -> if l then tdone s = Some true else tdone s <> Some true.
Proof.
  intros R Hc. pose proof (reach_phase shuffle dut delayers shuffled test m s R) as P. assert (C1 : Clk1 s) by exact (proj2 (reach_all shuffle dut delayers test m s R)).
  assert (CS : clock s = Some t) by (eapply clock_of; eauto; intros X; exact X).
  destruct P as [FI|c H _ _|c s1 g CA SU _|c s1 CA _ [H|[H|H]]|c H TD _].
  - exfalso. destruct FI as [_ FI]. specialize (FI _ _ Hc). exact FI.
  - congruence.
  - exfalso. destruct CA as [_ [_ [_ [_ [_ X]]]]]. assert (c = t) by congruence. subst c. destruct SU as [SU _]. exact (SU _ Hc).
  - congruence.
  - exfalso. destruct CA as [_ [_ [_ [_ [_ X]]]]]. assert (c = t) by congruence. subst c. destruct H as [H _]. exact (H _ Hc).
  - rewrite H in Hc. injection Hc as _ <-. destruct CA as [X1 [X2 [_ [_ [X3 _]]]]]. exact (steps_tdone shuffle dut delayers test m s1 s X1 X3 X2).
  - rewrite H in Hc. injection Hc as _ <-. exact TD.
Qed.

Lemma hinv_step test m fire s G U : plain_hooks test -> steps (init test m) s -> HInv s G U -> HInv (step fire s) (G ++ reg_by s) (U ++ start_by s).
Proof.
  intros HP R H. destruct (reach_pas shuffle dut delayers test m s HP R) as [W P]. pose proof P as [GD P1 P2]. assert (C1 : Clk1 s) by exact (proj2 (reach_all shuffle dut delayers test m s R)).
  pose proof (reach_once shuffle dut delayers test m s R) as ON. pose proof (pas_step shuffle dut delayers fire s W P) as [_ _ P2'].
  destruct H as [[chunks [outs [pend [EG [F [EP [OW PH]]]]]]]|[D [rest X]]].
  2: { right. split; [now apply dead_step|]. rewrite (dead_idle s W C1 D), app_nil_r. exists (rest ++ map strip (reg_by s)). rewrite map_app, app_assoc. now apply Permutation_app_tail. }
  assert (TD : tdone (step fire s) <> Some true -> tdone s <> Some true) by (intros X Y; apply X; eapply step_tdone; eauto).
  (** a step outside a pass *)
  assert (OUT : start_by s = [] -> U = concat (map starts_of outs) -> (forall t sb, cur s <> Some (t, BClk (CPass [] sb))) -> (forall t, cur s = Some (t, BClk (CStep false)) -> pend = []) ->
                hphase (step fire s) (pend ++ reg_by s) (concat (map starts_of outs)) U -> HInv (step fire s) (G ++ reg_by s) (U ++ start_by s)).
  { intros SB EU NP NS PH'. left. exists chunks, outs, (pend ++ reg_by s). split; [rewrite EG, app_assoc; reflexivity|]. split; auto. split; [|split].
    - rewrite prio_step, map_app, EP. destruct (cur s) as [[t [| |[| | |[|[h ev] todo] sb| | | |]| | | |]]|] eqn:Hc; auto. exfalso. eapply NP; eauto.
    - intros T. destruct (OW (TD T)) as [O1 O2]. split; auto. rewrite nstep_step. destruct (cur s) as [[t b]|] eqn:Hc.
      + assert (Q : (exists l, b = BClk (CStep l)) \/ match b with BClk (CStep _) => False | _ => True end) by (destruct b as [| |[]| | | |]; auto; left; eauto). destruct Q as [[l ->]|Q].
        * assert (RB : reg_by s = []) by (unfold reg_by, current_op; rewrite Hc; reflexivity). rewrite RB, app_nil_r. destruct l; [|rewrite (NS t eq_refl); constructor].
          exfalso. apply (TD T). exact (step_kind test m s t true R Hc).
        * replace (match b with BClk (CStep _) => S (nstep s) | _ => nstep s end) with (nstep s) by (destruct b as [| |[]| | | |]; auto; contradiction). apply Forall_app. split; auto. unfold reg_by. destruct (current_op s) as [[| | | | | | | | | | | | | | | | | | |]|]; constructor; auto.
      + apply Forall_app. split; auto. unfold reg_by, current_op. rewrite Hc. constructor.
    - rewrite SB, app_nil_r. exact PH'. }
  assert (NX : forall t b, cur s = Some (t, b) -> (forall b', nextb s t b b' -> npass b') -> forall t' b', cur (step fire s) = Some (t', b') -> npass b').
  { intros t b Hc Hn t' b' Hc'. destruct (step_cur shuffle dut delayers fire s t' b' W Hc') as [[b1 [X Y]]|[X _]]; [|congruence]. rewrite Hc in X. injection X as <- <-. auto. }
  destruct (cur s) as [[t b]|] eqn:Hc.
  2: { apply OUT; try discriminate; auto; [unfold start_by; now rewrite Hc|unfold hphase in PH; now rewrite Hc in PH|]. apply npass_phase; [|unfold hphase in PH; now rewrite Hc in PH]. intros t' b' Hc'.
    destruct (step_cur shuffle dut delayers fire s t' b' W Hc') as [[b [X _]]|[_ [h [r [n [st [cbs [k [w [mu [Hr [Hb [Ho [E ->]]]]]]]]]]]]]]; [congruence|]. eapply P1; eauto. }
  pose proof (P2 _ _ eq_refl) as NB. unfold hphase in PH. rewrite Hc in PH. specialize (NX _ _ eq_refl).
  assert (SIMPLE : start_by s = [] -> (forall sb, b <> BClk (CPass [] sb)) -> b <> BClk (CStep false) -> U = concat (map starts_of outs) -> (forall b', nextb s t b b' -> npass b') -> HInv (step fire s) (G ++ reg_by s) (U ++ start_by s)).
  { intros S1 S2 S3 S4 S5. apply OUT; auto; try (intros; intros X; injection X as _ X; eapply S2; eauto); try (intros t0 X; injection X as _ X; congruence). apply npass_phase; auto. apply NX. exact S5. }
  assert (SB0 : (forall todo sb, b <> BClk (CPass todo sb)) -> start_by s = []) by (intros X; unfold start_by; rewrite Hc; destruct b as [| |[| | |todo sb| | | |]| | | |]; auto; exfalso; eapply X; reflexivity).
  destruct b as [p0|p0 ev todo sb|c|e f r kk|q f r kk|te|p0].
  - apply SIMPLE; auto; try discriminate; [apply SB0; discriminate|]. intros b' Hn. destruct p0; cbn [nextb] in Hn; try contradiction. destruct Hn as [r [_ ->]]. exact Logic.I.
  - (* inside a hook *)
    assert (SB : start_by s = []) by (apply SB0; discriminate). destruct PH as [d [r [E1 [E2 E3]]]]. pose proof (g_cur _ _ _ GD _ _ Hc) as [[_ IN] _]. cbn [fst snd] in IN.
    assert (RB : reg_by s = []). { unfold reg_by, current_op. rewrite Hc. destruct p0 as [v|e|o k]; auto. apply instant_inv in IN as [IN _]. destruct o; auto; contradiction. }
    rewrite SB, RB, !app_nil_r. assert (N : nstep (step fire s) = nstep s) by (rewrite nstep_step, Hc; reflexivity). assert (T : tdone (step fire s) = tdone s) by (apply tdone_still; rewrite Hc; discriminate).
    assert (KEEP : (exists p1 sb1 ev1, cur (step fire s) = Some (t, BHook p1 ev1 todo sb1)) \/ (exists sb1, cur (step fire s) = Some (t, BClk (CPass todo sb1))) -> HInv (step fire s) G U).
    { intros CU. left. exists chunks, outs, pend. split; auto. split; auto. split; [rewrite prio_step, Hc, RB, app_nil_r; exact EP|]. split; [unfold own; rewrite N, T; exact OW|].
      unfold hphase. destruct CU as [[p1 [sb1 [ev1 ->]]]|[sb1 ->]]; exists d, r; rewrite N; auto. }
    destruct p0 as [v|e|o k].
    + apply KEEP. right. unfold Loop_Model.step. rewrite Hc. cbn [exec_body]. destruct ev; eexists; reflexivity.
    + assert (HI : HInv s G U). { left. exists chunks, outs, pend. split; auto. split; auto. split; auto. split; auto. unfold hphase. rewrite Hc. exists d, r. auto. }
      right. split; [|apply (hinv_rest s G U HI)]. exists t. assert (CT : clock s = Some t) by (eapply clock_of; eauto; intros X; exact X). split; [now apply clock_step|]. pose proof (clock_lt s t _ W Hc). pose proof (futs_le shuffle dut delayers fire s W).
      split; [lia|]. left. exists e. unfold Loop_Model.step. rewrite Hc. reflexivity.
    + apply KEEP. left. apply instant_inv in IN as [IN _]. destruct (instant_cur s t o (fun r => BHook (k r) ev todo sb) IN) as [x X]. exists (k x), sb, ev. unfold Loop_Model.step. rewrite Hc. exact X.
  - destruct c as [| | |todo sb| | | |l].
    + apply SIMPLE; auto; try discriminate; [apply SB0; discriminate|]. intros b' Hn. cbn [nextb] in Hn. subst b'. exact Logic.I.
    + apply SIMPLE; auto; try discriminate; [apply SB0; discriminate|]. intros b' Hn. cbn [nextb] in Hn. contradiction.
    + (* a pass begins *)
      apply OUT; auto; try discriminate; [apply SB0; discriminate|]. assert (RB : reg_by s = []) by (unfold reg_by, current_op; rewrite Hc; reflexivity). rewrite RB, app_nil_r. unfold hphase, Loop_Model.step. rewrite Hc. cbn [exec_body exec_clk].
      destruct (has_unwait s t || flag s); cbn [cur go set_cur]; [exact PH|]. exists [], (srt pend). split; auto. split; [rewrite EP; symmetry; apply srt_pt|]. cbn [map]. now rewrite app_nil_r.
    + destruct PH as [d [r [E1 [E2 E3]]]]. assert (RB : reg_by s = []) by (unfold reg_by, current_op; rewrite Hc; reflexivity). rewrite RB, app_nil_r. assert (N : nstep (step fire s) = nstep s) by (rewrite nstep_step, Hc; reflexivity). assert (T : tdone (step fire s) = tdone s) by (apply tdone_still; rewrite Hc; discriminate).
      destruct todo as [|[h ev] todo].
      * (* the pass ends *)
        destruct r; [|discriminate]. rewrite app_nil_r in E1. left. exists (chunks ++ [pend]), (outs ++ [(nstep s, d)]), []. split; [rewrite EG, concat_app; cbn [concat]; now rewrite !app_nil_r|].
        split; [apply Forall2_app; auto; constructor; [|constructor]; cbn [snd]; rewrite <- E1; apply srt_order|]. split; [rewrite prio_step, Hc; reflexivity|]. split.
        -- intros X. rewrite T in X. destruct (OW X) as [O1 O2]. split; [constructor|]. apply Forall_app. split; auto. constructor; [|constructor]. cbn [fst snd]. rewrite <- E1. apply Forall_forall. intros g Hg. rewrite Forall_forall in O1. apply O1. apply (Permutation_in _ (proj1 (srt_order pend)) Hg).
        -- assert (EU : U ++ start_by s = concat (map starts_of (outs ++ [(nstep s, d)]))) by (unfold start_by; rewrite Hc, app_nil_r, map_app, concat_app; cbn [map concat]; rewrite app_nil_r; exact E3).
           unfold hphase, Loop_Model.step. rewrite Hc. cbn [exec_body exec_clk]. destruct sb; cbn [cur go set_cur]; auto.
      * (* a hook is started *)
        destruct r as [|g r]; [discriminate|]. cbn [map] in E2. injection E2 as <- <- <-. left. exists chunks, outs, pend. split; auto. split; auto. split; [rewrite prio_step, Hc, RB, app_nil_r; exact EP|]. split; [unfold own; rewrite N, T; exact OW|].
        assert (C' : cur (step fire s) = Some (t, BHook (g_hook g) (g_event g) (map strip r) sb)) by (unfold Loop_Model.step; rewrite Hc; reflexivity). unfold hphase. rewrite C', N. exists (d ++ [g]), r. split; [rewrite <- app_assoc; exact E1|]. split; auto.
        unfold start_by. rewrite Hc, E3, map_app, <- app_assoc. reflexivity.
    + (* tail *)
      destruct PH as [-> EU]. apply OUT; auto; try discriminate; [apply SB0; discriminate|]. assert (RB : reg_by s = []) by (unfold reg_by, current_op; rewrite Hc; reflexivity). rewrite RB. unfold hphase, Loop_Model.step. rewrite Hc. cbn [exec_body exec_clk cur go set_cur]. destruct (tdone s) as [[]|]; auto.
    + destruct PH as [-> EU]. apply SIMPLE; auto; try discriminate; [apply SB0; discriminate|]. intros b' Hn. cbn [nextb] in Hn. contradiction.
    + apply SIMPLE; auto; try discriminate; [apply SB0; discriminate|]. intros b' Hn. cbn [nextb] in Hn. contradiction.
    + assert (PE : (l = false -> pend = []) /\ U = concat (map starts_of outs)) by (destruct l; [split; [discriminate|exact PH]|split; [intros _; apply PH|apply PH]]). destruct PE as [PE EU].
      apply OUT; auto; try discriminate; [apply SB0; discriminate|intros t0 X; injection X as _ ->; auto|]. unfold hphase, Loop_Model.step. rewrite Hc. cbn [exec_body exec_clk cur go set_cur]. exact EU.
  - apply SIMPLE; auto; try discriminate; [apply SB0; discriminate|]. intros b' Hn. cbn [nextb] in Hn. subst b'. apply NB.
  - apply SIMPLE; auto; try discriminate; [apply SB0; discriminate|]. intros b' Hn. destruct r as [v|e]; cbn [nextb] in Hn; [destruct Hn as [r [_ ->]]|subst b']; apply NB.
  - apply SIMPLE; auto; try discriminate; [apply SB0; discriminate|]. intros b' Hn. cbn [nextb] in Hn. subst b'. exact Logic.I.
  - apply SIMPLE; auto; try discriminate; [apply SB0; discriminate|]. intros b' Hn. destruct p0; cbn [nextb] in Hn; try contradiction; destruct Hn as [r [_ ->]]; exact Logic.I.
Qed.
Lemma log_steps test m s G U : hook_log shuffle dut delayers test m s G U -> steps (init test m) s.
Proof. induction 1; [apply steps_refl|now apply steps_step]. Qed.
Lemma log_hinv test m s G U : plain_hooks test -> hook_log shuffle dut delayers test m s G U -> HInv s G U.
Proof.
  intros HP H. induction H as [|s fire G U H IH]; [|eapply hinv_step; eauto; eapply log_steps; eauto]. left. exists [], [], []. split; auto. split; [constructor|]. split; auto. split; [split; constructor|]. reflexivity.
Qed.
End Log.
