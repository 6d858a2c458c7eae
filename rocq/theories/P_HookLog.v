(** C77: over a whole run every hook runs exactly once, in its own cycle and in priority order. *)
From Coq Require Import List Bool Arith ZArith Lia Permutation Sorted.
From Verif Require Import Py Prio_Model Loop_Model Loop_Spec Loop2_Spec Hook_Spec HookLog_Spec Loop4_Proofs Loop10_Proofs Loop17_Proofs Loop22_Proofs MainEnv_Proofs HookLog_Proofs P_Loop P_Loop5.
Import ListNotations.
Open Scope nat_scope.

Section Thms.
Context {mem : Type} (shuffle : list id -> list id) (dut delayers : mem -> mem).
Notation steps := (steps shuffle dut delayers). Notation step := (step shuffle dut delayers). Notation prog := (@prog mem). Notation state := (@state mem).
Notation hook_log := (hook_log shuffle dut delayers).
Implicit Types (s : state).
Context (shuffled : forall l, Permutation l (shuffle l)).

(** When dut.Step is about to be called: the hooks registered so far, [G], fall into successive groups.  The hooks of each group were all
    registered in the same cycle and started in this cycle, one group after the other, each by increasing priority value and in the order of
    registration among equal values.  Nothing else was started. *)
Theorem C77_groups (test : prog) m s G U c : plain_hooks test -> hook_log test m s G U -> at_cycle s c ->
  exists groups, G = concat (map (fun x => fst (snd x)) groups) /\ U = concat (map (fun x => map (as_start (fst x)) (snd (snd x))) groups) /\
    Forall (fun x => in_order (fst (snd x)) (snd (snd x)) /\ Forall (fun g => g_cycle g = fst x) (fst (snd x))) groups.
Proof.
  intros HP H Hc. pose proof (log_steps shuffle dut delayers test m s G U H) as R. assert (TD : tdone s <> Some true) by exact (step_kind shuffle dut delayers shuffled test m s c false R Hc).
  destruct (log_hinv shuffle dut delayers shuffled test m s G U HP H) as [[chunks [outs [pend [EG [F [_ [OW PH]]]]]]]|[D _]].
  - unfold hphase in PH. unfold at_cycle in Hc. rewrite Hc in PH. destruct PH as [-> EU]. rewrite app_nil_r in EG. destruct (OW TD) as [_ O]. clear OW. subst G U. clear H.
    induction F as [|ch [n o] chunks outs F1 F IH]; [exists []; repeat split; constructor|]. inversion O as [|x y O1 O2]; subst. destruct (IH O2) as [gs [A [B C]]]. exists ((n, (ch, o)) :: gs). cbn [map concat fst snd] in *. rewrite <- A, <- B.
    split; auto. split; auto. constructor; auto. cbn [fst snd]. split; auto. apply Forall_forall. intros g Hg. rewrite Forall_forall in O1. apply O1. apply (Permutation_in _ (Permutation_sym (proj1 F1)) Hg).
  - exfalso. assert (C1 : Clk1 s) by exact (proj2 (Loop10_Proofs.reach_all shuffle dut delayers test m s R)). destruct D as [c' [A [B C]]]. assert (X : clock s = Some c) by (eapply clock_of; eauto; intros X; exact X). assert (c' = c) by congruence. subst c'.
    destruct C as [[e C]|C]; [unfold at_cycle in Hc; congruence|]. apply C. destruct (reach_linked _ _ _ _ _ _ R) as [W _]. exact (cur_unfinished s c _ W Hc).
Qed.
(** In short: every hook was started exactly once, in the cycle in which it was registered. *)
Theorem C77_exactly_once (test : prog) m s G U c : plain_hooks test -> hook_log test m s G U -> at_cycle s c -> Permutation U (map (fun g => as_start (g_cycle g) g) G).
Proof.
  intros HP H Hc. destruct (C77_groups test m s G U c HP H Hc) as [gs [-> [-> F]]]. clear H. induction F as [|[n [ch o]] gs [[F1 _] F2] F IH]; cbn [map concat fst snd] in *; auto. rewrite map_app. apply Permutation_app; auto.
  replace (map (fun g => as_start (g_cycle g) g) ch) with (map (as_start n) ch); [now apply Permutation_map|]. apply map_ext_in. intros g Hg. rewrite Forall_forall in F2. now rewrite (F2 g Hg).
Qed.
(** In every state, also after the test has ended or a hook has raised: what was started had been registered and had not been started before. *)
Theorem C77_never_twice (test : prog) m s G U : plain_hooks test -> hook_log test m s G U -> exists rest, Permutation (map (fun g => (g_hook g, g_event g)) G) (map hook_of U ++ rest).
Proof. intros HP H. exact (hinv_rest s G U (log_hinv shuffle dut delayers shuffled test m s G U HP H)). Qed.
End Thms.
Print Assumptions C77_groups.
Print Assumptions C77_exactly_once.
Print Assumptions C77_never_twice.

(** * Examples *)
Fixpoint logged n (s : @state unit) (G : list (reg unit)) U := match n with 0 => (s, G, U) | Datatypes.S n => logged n (step ids keep keep [] s) (G ++ reg_by s) (U ++ start_by s) end.
Lemma logged_log test n : forall s G U, hook_log ids keep keep test tt s G U -> let '(s', G', U') := logged n s G U in hook_log ids keep keep test tt s' G' U'.
Proof. induction n as [|n IH]; intros s G U H; cbn [logged]; auto. apply IH. now apply hl_step. Qed.
Definition log_at (test : @prog unit) n := logged n (begin test) [] [].
Lemma log_at_log test n : hook_log ids keep keep test tt (fst (fst (log_at test n))) (snd (fst (log_at test n))) (snd (log_at test n)).
Proof. pose proof (logged_log test n (begin test) [] [] (hl_init _ _ _ _ _)) as H. unfold log_at. destruct (logged n (begin test) [] []) as [[s G] U]. exact H. Qed.
(** Two hooks registered in the first cycle, the second with the smaller priority value, and one in the next cycle. *)
Definition h_a : @prog unit := Op (OMark 1) (fun _ => Ret VNone). Definition h_b : @prog unit := Op (OMark 2) (fun _ => Ret VNone).
Definition t_log : @prog unit := Try OStartClock (Try (OPrio h_a 5 false) (Try (OPrio h_b 1 false) (Try (OEvWait 0) (Try (OPrio h_a 0 false) (Try (OEvWait 0) (Ret VNone)))))).
Definition cyc (s : @state unit) : bool := match cur s with Some (_, BClk (CStep false)) => true | _ => false end.
Example C77_nonvacuous : plain_hooks t_log /\ hook_log ids keep keep t_log tt (fst (fst (log_at t_log 36))) (snd (fst (log_at t_log 36))) (snd (log_at t_log 36)) /\ at_cycle (fst (fst (log_at t_log 36))) 1 /\
  snd (fst (log_at t_log 36)) = [mk_reg 0 h_a 5 None; mk_reg 0 h_b 1 None; mk_reg 1 h_a 0 None] /\ snd (log_at t_log 36) = [(0, h_b, None); (0, h_a, None); (1, h_a, None)].
Proof.
  split; [|split; [apply log_at_log|split; [vm_compute; reflexivity|split; vm_compute; reflexivity]]].
  unfold plain_hooks, t_log, Try, h_a, h_b. repeat first [apply all_ret | apply all_raise | progress intros | match goal with H : part _ _ |- _ => inversion H; subst; clear H | r : res lval |- _ => destruct r; cbn [thenv] end | apply all_op; [cbn; auto; repeat constructor| |] ].
Qed.
(** That hooks do not register hooks themselves is needed: the list is emptied after the pass, with what was added to it meanwhile (executor.py:37). *)
Definition h_reg : @prog unit := Op (OPrio h_a 0 false) (fun _ => Ret VNone).
Definition t_reg : @prog unit := Try OStartClock (Try (OPrio h_reg 0 false) (Try (OEvWait 0) (Try (OEvWait 0) (Ret VNone)))).
Theorem C77_registered_by_a_hook_is_lost : exists s G U, hook_log ids keep keep t_reg tt s G U /\ at_cycle s 1 /\ nstep s = 1 /\ prio s = [] /\ G = [mk_reg 0 h_reg 0 None; mk_reg 0 h_a 0 None] /\ U = [(0, h_reg, None)].
Proof.
  exists (fst (fst (log_at t_reg 28))), (snd (fst (log_at t_reg 28))), (snd (log_at t_reg 28)). split; [apply log_at_log|]. split; [vm_compute; reflexivity|]. split; [vm_compute; reflexivity|]. split; [vm_compute; reflexivity|]. split; vm_compute; reflexivity.
Qed.
Print Assumptions C77_registered_by_a_hook_is_lost.
