(** C104: hooks of a monitor are called for every result, whatever kind of function they are. *)
From Coq Require Import List Bool Arith ZArith Lia.
From Verif Require Import Py Prio_Model Loop_Model Loop_Spec Loop2_Spec LoopProg_Model Loop_Proofs Loop2_Proofs Loop3_Proofs Loop13_Proofs LoopRun_Model LoopRun_Proofs Mon_Model Mon_Spec Hook_Spec P_Mon P_Hook P_Loop3 P_Loop4 P_Coro P_Loop2 P_Loop HookCall_Model.
Import ListNotations.
Open Scope nat_scope.

Section Thms.
Context {mem : Type} (shuffle : list id -> list id) (dut delayers : mem -> mem).
Notation steps := (steps shuffle dut delayers). Notation step := (step shuffle dut delayers). Notation prog := (@prog mem). Notation state := (@state mem). Notation body := (@body mem).
Notation log := (log shuffle dut delayers).
Implicit Types (s : state).

Lemma hooked_registers t s s' L h z : log t s s' L -> In (h, z) (hooks L) -> exists y fire, steps s y /\ registers y h (match cur y with Some (_, BProg (Op (OPrio _ _ d) _)) => d | _ => false end) /\ steps (step fire y) s'.
Proof.
  induction 1 as [s|s s1 fire l G IH]; intros HI; [destruct HI|]. unfold hooks in HI. rewrite flat_map_app in HI. apply in_app_or in HI as [HI|HI].
  - destruct (IH HI) as [y [f [A [B C]]]]. exists y, f. split; auto. split; auto. now apply steps_step.
  - exists s1, fire. split; [eapply P_Mon.log_steps; eauto|]. split; [|apply steps_refl].
    unfold see in HI. destruct (cur s1) as [[t0 [[v|e|o k]| | | | | | ]]|] eqn:Hc; try destruct HI. destruct (Nat.eqb t0 t); [|destruct HI]. destruct o; simpl in HI; try contradiction. destruct HI as [HI|[]]. injection HI as -> ->.
    exists t0, z, k. now left.
Qed.

(** At the turn of a plain function its code runs on the memory. *)
Lemma plain_turn f args y ev fire : turn y (call_fn (Plain f) args) ev -> mm (step fire y) = fst (f args (mm y)).
Proof.
  intros [c [todo [sb Hc]]]. unfold step. rewrite Hc. unfold call_fn. simpl. destruct (f args (mm y)) as [m' [v|e]]; reflexivity.
Qed.

Context (method : mem -> mem * res lval).
(** The code of the function [f] has run on [args] between [s] and [s']. *)
Definition executed (s s' : state) (f : list lval -> mem -> mem * res lval) (args : list lval) : Prop :=
  exists y, steps s y /\ (forall fire, mm (step fire y) = fst (f args (mm y))) /\ steps y s' /\ exists ev, turn y (call_fn (Plain f) args) ev.

Section Run.
Context (test : prog) (m : mem) (t c : id) (s s' : state) (L : list (@seen mem)) (path : lval) (ms : list (@mon_model mem)) (gq : option (id * Z)).
Context (NT : nocancel test) (PH : plain_hooks test) (R0 : steps (init test m) s) (PO : ports_ok (deliveries path ms gq) s) (Hc : cur s = Some (t, BProg (monitor method (deliveries path ms gq)))).
Context (G : log t s s' L) (TD : tdone s' <> Some true) (AC : at_cycle s' c) (NX : forall e, ~ In (Exn e) (outcomes L)).
Lemma each_hook v h z : In v (values (outcomes L)) -> In (h, z) (flat_map (fun mo => map (fun h => (fst h path v, snd h)) (mo_ahooks mo) ++ match mo_hook mo with Some h => [(fst h v, snd h)] | None => [] end) ms) ->
  exists y ev, steps s y /\ steps y s' /\ turn y h ev.
Proof.
  intros Hv Hh. destruct (P_Mon.C61_every_cycle shuffle dut delayers method (deliveries path ms gq) test m t c s s' L NT R0 PO Hc G TD (ex_intro _ false AC) NX) as [_ CY].
  pose proof (P_Mon.C61_hooks path ms gq _ _ _ CY) as HK. assert (HI : In (h, z) (hooks L)) by (rewrite HK; apply in_flat_map; eauto).
  destruct (hooked_registers t s s' L h z G HI) as [x [fire [A [B C]]]]. assert (Rx : steps (init test m) x) by (eapply steps_trans; eauto).
  destruct (C74_before_step shuffle dut delayers test m h _ x fire s' c PH Rx B C (or_introl AC)) as [y [D [E F]]]. exists y. eexists. split; [eapply steps_trans; eauto|]. split; eauto.
Qed.
End Run.

(** The monitor of an agent that has models with hooks which are functions.  When dut.Step is about to be called, the function behind every monitor hook has been
    executed on every result of the monitor that is not None, and the function behind every agent hook on the path of the monitor and that result. *)
Theorem C104_called_partial (test : prog) m t c s s' L path ms gq : nocancel test -> plain_hooks test -> steps (init test m) s -> ports_ok (deliveries path ms gq) s ->
  cur s = Some (t, BProg (monitor method (deliveries path ms gq))) -> log t s s' L -> tdone s' <> Some true -> at_cycle s' c -> (forall e, ~ In (Exn e) (outcomes L)) ->
  forall v mo, In v (values (outcomes L)) -> In mo ms ->
  (forall f z, mo_hook mo = Some (mon_hook (Plain f), z) -> executed s s' f [v]) /\
  (forall f z, In (agent_hook (Plain f), z) (mo_ahooks mo) -> executed s s' f [path; v]).
Proof.
  intros NT PH R0 PO Hc G TD AC NX v mo Hv Hm. split; intros f z Hf.
  - destruct (each_hook test m t c s s' L path ms gq NT PH R0 PO Hc G TD AC NX v (mon_hook (Plain f) v) z Hv) as [y [ev [A [B C]]]].
    { apply in_flat_map. exists mo. split; auto. apply in_or_app. right. rewrite Hf. now left. }
    exists y. split; auto. split; [|split; eauto]. intros fire. eapply plain_turn. exact C.
  - destruct (each_hook test m t c s s' L path ms gq NT PH R0 PO Hc G TD AC NX v (agent_hook (Plain f) path v) z Hv) as [y [ev [A [B C]]]].
    { apply in_flat_map. exists mo. split; auto. apply in_or_app. left. change (agent_hook (Plain f) path v, z) with ((fun h : (lval -> lval -> prog) * Z => (fst h path v, snd h)) (agent_hook (Plain f), z)). apply (in_map _ _ _ Hf). }
    exists y. split; auto. split; [|split; eauto]. intros fire. eapply plain_turn. exact C.
Qed.

(** The turn of a hook that is a coroutine function passes without any of its code being executed: memory, futures, events and queues stay as they are, and no error is raised. *)
Theorem C104_coroutine b args s fire : turn s (call_fn (Coro b) args) None ->
  mm (step fire s) = mm s /\ futs (step fire s) = futs s /\ evs (step fire s) = evs s /\ qs (step fire s) = qs s /\ exists c cl, cur (step fire s) = Some (c, BClk cl).
Proof.
  intros [c [todo [sb Hc]]]. unfold step. rewrite Hc. unfold call_fn. simpl. repeat split; eauto.
Qed.
End Thms.
Print Assumptions C104_called_partial.
Print Assumptions C104_coroutine.

(** * Examples: the memory is the cycle and the values recorded so far; the monitor returns the number of every odd cycle. *)
Definition hmem : Type := nat * list lval.
Definition tick (m : hmem) : hmem := (S (fst m), snd m).
Definition same (m : hmem) : hmem := m.
Definition meth (m : hmem) : hmem * res lval := (m, Ok (if Nat.odd (fst m) then VInt (Z.of_nat (fst m)) else VNone)).
Definition record (args : list lval) (m : hmem) : hmem * res lval := ((fst m, snd m ++ args), Ok VNone).
Definition as_function : @hookfn hmem := Plain record.
Definition as_coroutine : @hookfn hmem := Coro (fun args => Op (OMem (record args)) (fun _ => Ret VNone)).
Definition hms (h : @hookfn hmem) : list (@mon_model hmem) := [hook_model [(h, 1%Z)] (Some (h, 5%Z))].
Definition hacts (h : @hookfn hmem) := deliveries (VInt 7) (hms h) None.
Definition t_hk (h : @hookfn hmem) : @prog hmem := Do OStartClock (Do (OCreate (monitor meth (hacts h))) (bindr (clock_cycles 6) (fun _ => Ret VNone))).
Definition HK (h : @hookfn hmem) (n : nat) : @state hmem := run ids tick same n (init (t_hk h) (0, [])).

Fixpoint runh (t n : nat) (x : @state hmem * list seen) : @state hmem * list seen := match n with 0 => x | S n' => runh t n' (step ids tick same [] (fst x), snd x ++ see t (fst x)) end.
Lemma runh_log t n : forall s0 s l, log ids tick same t s0 s l -> log ids tick same t s0 (fst (runh t n (s, l))) (snd (runh t n (s, l))).
Proof. induction n as [|n IH]; intros s0 s l H; simpl; auto. apply IH. now apply log_step. Qed.
Definition plain_acts (l : list (@action hmem)) : Prop := Forall (fun a => match a with AHook h _ => instant h /\ nocancel h /\ allp plain_op h | _ => True end) l.
CoFixpoint nocancel_hmon acts todo (Ha : forall v, plain_acts (acts v)) (Ht : plain_acts todo) : nocancel (mon meth acts todo).
Proof.
  rewrite mon_unfold. destruct todo as [|[q v|h z|q z v] rest].
  - apply nc_op; [exact Logic.I|intros p X; inversion X|]. intros [v|e] Hr; simpl; [|constructor; congruence]. apply nc_op; [intros x; simpl; destruct (Nat.odd (fst x)); discriminate|intros p X; inversion X|]. intros [w|e] Hr'; simpl; [|constructor; congruence].
    destruct w; apply nocancel_hmon; auto; constructor.
  - apply nc_op; [exact Logic.I|intros p X; inversion X|]. intros [w|e] Hr; simpl; [|constructor; congruence]. apply nc_op; [exact Logic.I|intros p X; inversion X|]. intros r _. apply nocancel_hmon; auto. exact (Forall_inv_tail Ht).
  - apply nc_op; [exact Logic.I|intros p X; inversion X; subst; exact (proj1 (proj2 (Forall_inv Ht)))|]. intros r Hr. apply nocancel_hmon; auto. exact (Forall_inv_tail Ht).
  - apply nc_op; [exact Logic.I|intros p X; inversion X|]. intros [w|e] Hr; simpl; [|constructor; congruence]. destruct w as [|b|n|n|l]; try (constructor; discriminate). destruct (z <=? n)%Z; [apply nocancel_hmon; auto; exact (Forall_inv_tail Ht)|].
    apply nc_op; [exact Logic.I|intros p X; inversion X|]. intros [w|e] Hr'; simpl; [|constructor; congruence]. apply nc_op; [exact Logic.I|intros p X; inversion X|]. intros r _. apply nocancel_hmon; auto. exact (Forall_inv_tail Ht).
Defined.
CoFixpoint plain_hmon acts todo (Ha : forall v, plain_acts (acts v)) (Ht : plain_acts todo) : allp plain_op (mon meth acts todo).
Proof.
  rewrite mon_unfold. destruct todo as [|[q v|h z|q z v] rest].
  - apply all_op; [exact Logic.I|intros p X; inversion X|]. intros [v|e]; simpl; [|constructor]. apply all_op; [exact Logic.I|intros p X; inversion X|]. intros [w|e]; simpl; [|constructor].
    destruct w; apply plain_hmon; auto; constructor.
  - apply all_op; [exact Logic.I|intros p X; inversion X|]. intros [w|e]; simpl; [|constructor]. apply all_op; [exact Logic.I|intros p X; inversion X|]. intros r. apply plain_hmon; auto. exact (Forall_inv_tail Ht).
  - apply all_op; [exact (proj1 (Forall_inv Ht))|intros p X; inversion X; subst; exact (proj2 (proj2 (Forall_inv Ht)))|]. intros r. apply plain_hmon; auto. exact (Forall_inv_tail Ht).
  - apply all_op; [exact Logic.I|intros p X; inversion X|]. intros [w|e]; simpl; [|constructor]. destruct w as [|b|n|n|l]; try constructor. destruct (z <=? n)%Z; [apply plain_hmon; auto; exact (Forall_inv_tail Ht)|].
    apply all_op; [exact Logic.I|intros p X; inversion X|]. intros [w|e]; simpl; [|constructor]. apply all_op; [exact Logic.I|intros p X; inversion X|]. intros r. apply plain_hmon; auto. exact (Forall_inv_tail Ht).
Defined.
Lemma plain_hacts v : plain_acts (hacts as_function v).
Proof.
  assert (H : forall args, instant (call_fn as_function args) /\ nocancel (call_fn as_function args) /\ allp plain_op (call_fn as_function args)).
  { intros args. unfold as_function, call_fn. split; [apply in_op; [exact Logic.I|intros [?|?]; constructor]|]. split; [|apply all_op; [exact Logic.I|intros ? X; inversion X|intros [?|?]; constructor]].
    apply nc_op; [intros x; discriminate|intros ? X; inversion X|]. intros [?|?] Hr; constructor. congruence. }
  unfold hacts, hms, hook_model, deliveries. simpl. constructor; [apply (H [VInt 7; v])|]. constructor; [apply (H [v])|constructor].
Qed.
Lemma t_hk_class : nocancel (t_hk as_function) /\ plain_hooks (t_hk as_function).
Proof.
  assert (X : nocancel (monitor meth (hacts as_function))) by (apply nocancel_hmon; [apply plain_hacts|constructor]). assert (Y : allp plain_op (monitor meth (hacts as_function))) by (apply plain_hmon; [apply plain_hacts|constructor]).
  split; unfold t_hk.
  - unfold Do. apply nc_op; [exact Logic.I|intros p P; inversion P|intros _ _]. apply nc_op; [exact Logic.I|intros p P; inversion P; subst; exact X|intros _ _]. apply nocancel_bindr; [apply nocancel_cycles|intros; apply nc_ret].
  - unfold plain_hooks, Do. apply all_op; [exact Logic.I|intros p P; inversion P|intros _]. apply all_op; [exact Logic.I|intros p P; inversion P; subst; exact Y|intros _]. apply allp_bindr; [|intros; constructor].
    cbn [clock_cycles]. unfold Let. repeat (apply all_op; [exact Logic.I|intros p P; inversion P|intros [?|?]; cbn [thenv]; [|constructor]]). constructor.
Qed.
(** Four cycles of a monitor with an agent hook and a monitor hook that are functions: both have recorded the results of the cycles 1 and 3. *)
Example C104_nonvacuous : nocancel (t_hk as_function) /\ plain_hooks (t_hk as_function) /\ exists s s' L, steps ids tick same (init (t_hk as_function) (0, [])) s /\ ports_ok (hacts as_function) s /\
  cur s = Some (2, BProg (monitor meth (hacts as_function))) /\ log ids tick same 2 s s' L /\ at_cycle s' 1 /\ tdone s' = Some false /\ outcomes L = [Ok (VInt 1); Ok VNone; Ok (VInt 3); Ok VNone] /\
  mo_hook (hd (hook_model [] None) (hms as_function)) = Some (mon_hook (Plain record), 5%Z) /\ In (agent_hook (Plain record), 1%Z) (mo_ahooks (hd (hook_model [] None) (hms as_function))) /\
  snd (mm s') = [VInt 7; VInt 1; VInt 1; VInt 7; VInt 3; VInt 3].
Proof.
  split; [apply t_hk_class|]. split; [apply t_hk_class|]. exists (HK as_function 11), (fst (runh 2 78 (HK as_function 11, []))), (snd (runh 2 78 (HK as_function 11, []))).
  split; [apply run_steps|]. split; [intros v a q Ha Hq; unfold hacts, hms, hook_model, deliveries in Ha; simpl in Ha; destruct Ha as [<-|[<-|[]]]; destruct Hq|]. split; [vm_compute; reflexivity|]. split; [apply runh_log; constructor|].
  split; [vm_compute; reflexivity|]. split; [vm_compute; reflexivity|]. split; [vm_compute; reflexivity|]. split; [reflexivity|]. split; [now left|]. vm_compute. reflexivity.
Qed.

(** Full statement: whatever kind of function the hooks of a model are, when the test is over they have been executed on every result of the monitor, or an error was raised.
    Refuted: with a coroutine function as agent hook and monitor hook the test ends without an error, the turn of both has come in every cycle with a result, and nothing was recorded; the same test with a function
    records everything. *)
Theorem C104_refuted : exists s s', steps ids tick same (init (t_hk as_coroutine) (0, [])) s /\ state_of s 0 = Some (Finished (Ok VNone)) /\ snd (mm s) = [] /\
  (forall t e, state_of s t <> Some (Finished (Exn e))) /\ (exists y, steps ids tick same (init (t_hk as_coroutine) (0, [])) y /\ turn y (mon_hook as_coroutine (VInt 1)) None) /\
  steps ids tick same (init (t_hk as_function) (0, [])) s' /\ state_of s' 0 = Some (Finished (Ok VNone)) /\
  snd (mm s') = [VInt 7; VInt 1; VInt 1; VInt 7; VInt 3; VInt 3; VInt 7; VInt 5; VInt 5].
Proof.
  exists (HK as_coroutine 140), (HK as_function 152). split; [apply run_steps|]. split; [vm_compute; reflexivity|]. split; [vm_compute; reflexivity|]. split.
  { intros t e X. assert (Y : existsb (fun st => match st with Finished (Exn _) => true | _ => false end) (map f_st (futs (HK as_coroutine 140))) = false) by (vm_compute; reflexivity).
    unfold state_of, fget in X. destruct (nth_error (futs (HK as_coroutine 140)) t) as [fu|] eqn:N; [|discriminate X]. injection X as X. apply nth_error_In in N. apply (in_map f_st) in N. rewrite X in N.
    assert (Z0 : existsb (fun st => match st with Finished (Exn _) => true | _ => false end) (map f_st (futs (HK as_coroutine 140))) = true) by (apply existsb_exists; eexists; split; [exact N|reflexivity]). congruence. }
  split; [exists (HK as_coroutine 34); split; [apply run_steps|do 3 eexists; vm_compute; reflexivity]|]. split; [apply run_steps|]. split; vm_compute; reflexivity.
Qed.
Print Assumptions C104_refuted.
