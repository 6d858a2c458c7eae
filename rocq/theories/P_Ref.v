(** C90: a reference model that reads its ports in a loop keeps up with the test. *)
From Coq Require Import List Bool Arith ZArith Lia.
From Verif Require Import Py Prio_Model Loop_Model Loop_Spec Loop2_Spec LoopProg_Model Loop_Proofs Loop5_Proofs LoopRun_Model LoopRun_Proofs P_Loop P_Loop2 WMon_Spec WMon_Proofs Ref_Model Ref_Spec Ref_Proofs.
From Verif Require P_Comp.
Import ListNotations.
Open Scope nat_scope.

Lemma column_full k j (xss : list (list stamped)) : (forall xs, In xs xss -> List.length xs = k) -> j < k -> List.length (column j xss) = List.length xss.
Proof.
  intros H Lt. induction xss as [|xs xss IH]; auto. change (column j (xs :: xss)) with (match nth_error xs j with Some x => [x] | None => [] end ++ column j xss).
  rewrite app_length, IH by (intros; apply H; now right). destruct (nth_error xs j) eqn:E; auto. apply nth_error_None in E. rewrite (H xs) in E by now left. lia.
Qed.

Section Thms.
Context {mem : Type} (shuffle : list id -> list id) (dut delayers : mem -> mem).
Notation steps := (steps shuffle dut delayers). Notation prog := (@prog mem). Notation state := (@state mem).
Notation traffic := (traffic shuffle dut delayers).
Implicit Types (s : state).

Lemma served_len ports handle n0 xss n l : @served mem ports handle n0 xss n l -> forall xs, In xs xss -> List.length xs = List.length ports.
Proof. induction 1 as [|xss n l xs n1 l1 lm w SV IH LE RD PF]; intros ys; [intros []|]. intros H. apply in_app_iff in H as [H|[<-|[]]]; auto. Qed.
(** The cycle in which the last round was processed: the latest cycle in which one of the values so far was put. *)
Definition latest (n0 : nat) (xs : list stamped) : nat := fold_left (fun a x => max a (fst x)) xs n0.
Lemma reads_latest n xs n1 (l : list (@did mem)) : reads n xs n1 l -> n1 = latest n (map snd xs).
Proof. induction 1 as [|xs n1 l q c v g g' H IH]; auto. rewrite map_app. unfold latest in *. rewrite fold_left_app. cbn [fold_left map snd fst]. f_equal. exact IH. Qed.
Theorem C90_cycle ports handle n0 xss n l : @served mem ports handle n0 xss n l -> n = latest n0 (concat xss).
Proof.
  induction 1 as [|xss n l xs n1 l1 lm w SV IH LE RD PF]; auto. rewrite concat_app. cbn [concat]. rewrite app_nil_r. transitivity (latest n xs).
  - rewrite (reads_latest _ _ _ _ RD). f_equal. clear - LE. revert xs LE. induction ports as [|q ports IH]; intros [|x xs] LE; simpl in *; try discriminate; auto. f_equal. apply IH. lia.
  - unfold latest in *. rewrite fold_left_app. exact (f_equal (fold_left _ xs) IH).
Qed.

Context (q0 : id) (more : list id) (handle : list lval -> prog).
Notation ports := (ports q0 more). Notation ref_main := (ref_main q0 more handle).

(** At any time before the test is over: what was read from the ports is what was put, in order, nothing is lost or read twice; [l] are the
    complete rounds and [got] what has been read in the present one. *)
Theorem C90_in_order (SH : forall l, Permutation.Permutation l (shuffle l)) (test : prog) m t s s' L P : tame test -> nocancel test -> NoDup ports -> (forall vs, prompt (handle vs)) ->
  steps (init test m) s -> (forall q, In q ports -> q < List.length (qs s)) -> cur s = Some (t, BProg ref_main) -> traffic t ports s s' L P -> tdone s' <> Some true ->
  exists xss n l got n1 l1 l2, served ports handle (nstep s) xss n l /\ reads n (combine ports got) n1 l1 /\ L = l ++ l1 ++ l2 /\
    forall j q, nth_error ports j = Some q -> exists rest, sent s P q = column j (xss ++ [got]) ++ rest /\ ((forall e, ~ failed s' t e) -> exists r0, map snd rest = r0 ++ items s' q /\ List.length r0 <= 1).
Proof.
  intros TM NT ND PR R0 EX Hc G TD. destruct (track shuffle dut delayers q0 more handle SH test m TM NT ND PR t s s' L P R0 EX Hc G) as [ST _].
  destruct ST as [X|xss n l got n1 l1 SV LG RE LF Hc' N HL|xss n l got n1 l1 q f SV Hq RE LF LN W HL|xss n l got n1 l1 q c v SV Hq RE LF Hc' N HL|xss n l got n1 l1 lm p SV LG RE LF PA PP Hc' N HL|xss n l got n1 l1 lm e SV LG RE LF PF FA HL].
  - contradiction.
  - exists xss, n, l, got, n1, l1, []. rewrite app_nil_r. split; auto. split; auto. split; auto. intros j q Hj. destruct (LF j q Hj) as [rest [A [B _]]]. exists rest. split; auto. intros _. exists []. auto.
  - exists xss, n, l, got, n1, l1, [mk_did n1 (OQGet q) None]. split; auto. split; auto. split; auto. intros j q' Hj. destruct (LF j q' Hj) as [rest [A [B _]]]. exists rest. split; auto. intros _. exists []. auto.
  - exists xss, n, l, got, n1, l1, [mk_did n1 (OQGet q) None]. split; auto. split; auto. split; auto. intros j q' Hj. destruct (LF j q' Hj) as [rest [A [B _]]]. destruct (Nat.eq_dec j (List.length got)) as [->|NE].
    + rewrite column_add in A. exists ((c, v) :: rest). split; [rewrite A, <- app_assoc; reflexivity|]. intros _. exists [v]. simpl. rewrite B. auto.
    + rewrite column_keep in A by auto. exists rest. split; auto. intros _. exists []. auto.
  - exists xss, n, l, got, n1, l1, lm. split; auto. split; auto. split; auto. intros j q' Hj. destruct (LF j q' Hj) as [rest [A [B _]]]. exists rest. split; auto. intros _. exists []. auto.
  - exists xss, n, l, got, n1, l1, lm. split; auto. split; auto. split; auto. intros j q' Hj. destruct (LF j q' Hj) as [rest A]. exists rest. split; auto. intros X. exfalso. exact (X e FA).
Qed.
(** Whenever the clock advances during the test: the model waits at a port, everything put into that port has been read, and all that
    was read before it has been processed, round by round, the values of a round in the cycle in which the last of them was put
    ([reads], [served]); or the processing of a round has raised an exception. *)
Theorem C90_keeps_up (SH : forall l, Permutation.Permutation l (shuffle l)) (test : prog) m t c s s' L P : tame test -> nocancel test -> NoDup ports -> (forall vs, prompt (handle vs)) ->
  steps (init test m) s -> (forall q, In q ports -> q < List.length (qs s)) -> cur s = Some (t, BProg ref_main) -> traffic t ports s s' L P -> at_cycle s' c ->
  (exists xss n l got n1 l1 q, served ports handle (nstep s) xss n l /\ nth_error ports (List.length got) = Some q /\ reads n (combine ports got) n1 l1 /\ L = l ++ l1 ++ [mk_did n1 (OQGet q) None] /\
     waits_to_get s' t q /\ items s' q = [] /\ forall j q', nth_error ports j = Some q' -> exists rest, sent s P q' = column j (xss ++ [got]) ++ rest /\ map snd rest = items s' q') \/
  (exists xss n l xs n1 l1 lm e, served ports handle (nstep s) xss n l /\ List.length xs = List.length ports /\ reads n (combine ports xs) n1 l1 /\ performs n1 (handle (map snd xs)) lm (Exn e) n1 /\ L = l ++ l1 ++ lm /\
     failed s' t e /\ forall j q, nth_error ports j = Some q -> exists rest, sent s P q = column j (xss ++ [xs]) ++ rest).
Proof.
  intros TM NT ND PR R0 EX Hc G AC. destruct (track shuffle dut delayers q0 more handle SH test m TM NT ND PR t s s' L P R0 EX Hc G) as [ST _]. assert (R1 : steps (init test m) s') by (eapply Loop10_Proofs.steps_trans; [exact R0|eapply traffic_steps; eauto]).
  assert (NC : forall b, (forall c, b <> BClk c) -> cur s' <> Some (t, b)) by (intros b NB X; rewrite AC in X; injection X as _ X; eapply NB; eauto).
  destruct ST as [X|xss n l got n1 l1 SV LG RE LF Hc' N HL|xss n l got n1 l1 q f SV Hq RE LF LN W HL|xss n l got n1 l1 q c' v SV Hq RE LF Hc' N HL|xss n l got n1 l1 lm p SV LG RE LF PA PP Hc' N HL|xss n l got n1 l1 lm e SV LG RE LF PF FA HL].
  - exfalso. exact (cycle_tdone _ _ _ _ _ _ _ TM R1 AC X).
  - exfalso. eapply NC; [|exact Hc']. discriminate.
  - destruct W as [[w SU]|[r Hc']]; [|exfalso; eapply NC; [|exact Hc']; discriminate]. destruct (wait_cycle shuffle dut delayers test m s' c t q f _ w TM NT R1 AC SU) as [W0 I0].
    left. exists xss, n, l, got, n1, l1, q. split; auto. split; auto. split; auto. split; auto. split; auto. split; auto. intros j q' Hj. destruct (LF j q' Hj) as [rest [A [B _]]]. eauto.
  - exfalso. eapply NC; [|exact Hc']. discriminate.
  - exfalso. eapply NC; [|exact Hc']. discriminate.
  - right. exists xss, n, l, got, n1, l1, lm, e. auto 10.
Qed.
(** So every complete set of values is processed before the clock advances: if at least [k] values were put into each port, [k] rounds
    are over (unless the processing of one has failed). *)
Theorem C90_all_processed (SH : forall l, Permutation.Permutation l (shuffle l)) (test : prog) m t c s s' L P k : tame test -> nocancel test -> NoDup ports -> (forall vs, prompt (handle vs)) ->
  steps (init test m) s -> (forall q, In q ports -> q < List.length (qs s)) -> cur s = Some (t, BProg ref_main) -> traffic t ports s s' L P -> at_cycle s' c ->
  (forall q, In q ports -> k <= List.length (sent s P q)) -> (forall e, ~ failed s' t e) ->
  exists xss n l l', served ports handle (nstep s) xss n l /\ L = l ++ l' /\ k <= List.length xss /\ n = latest (nstep s) (concat xss) /\
    forall j q, nth_error ports j = Some q -> firstn (List.length xss) (sent s P q) = column j xss.
Proof.
  intros TM NT ND PR R0 EX Hc G AC K NF. destruct (C90_keeps_up SH test m t c s s' L P TM NT ND PR R0 EX Hc G AC) as [[xss [n [l [got [n1 [l1 [q [SV [Hq [RE [HL [_ [I0 H]]]]]]]]]]]]]|[xss [n [l [xs [n1 [l1 [lm [e [_ [_ [_ [_ [_ [F _]]]]]]]]]]]]]]]; [|exfalso; exact (NF e F)].
  exists xss, n, l, (l1 ++ [mk_did n1 (OQGet q) None]). split; auto. split; auto. assert (LE := served_len _ _ _ _ _ _ SV). split; [|split].
  - specialize (K q (nth_error_In _ _ Hq)). destruct (H _ _ Hq) as [rest [A B]]. rewrite I0 in B. destruct rest; [|discriminate]. rewrite A, app_nil_r, column_app, column_one in K.
    replace (nth_error got (List.length got)) with (@None stamped) in K by (symmetry; apply nth_error_None; lia). rewrite app_nil_r in K. rewrite (column_full (List.length ports)) in K; auto. apply nth_error_Some. congruence.
  - eapply C90_cycle; eauto.
  - intros j q' Hj. destruct (H _ _ Hj) as [rest [A _]]. assert (Lj : j < List.length ports) by (apply nth_error_Some; congruence). rewrite A, column_app, <- !app_assoc. rewrite <- (column_full (List.length ports) j xss LE Lj), firstn_app, firstn_all, Nat.sub_diag. simpl. apply app_nil_r.
Qed.
End Thms.
Print Assumptions C90_cycle.
Print Assumptions C90_in_order.
Print Assumptions C90_keeps_up.
Print Assumptions C90_all_processed.

(** The model of the adder example with values 7, 8, 9 at the driver port 0 and 7, 8, 1 at the monitor port 1; it asserts that the values of a
    round are equal. *)
Definition compare2 (vs : list lval) : @prog nat := match vs with [VInt a; VInt b] => if Z.eqb a b then Op (OMark 1) (fun _ => Ret VNone) else Raise AssertionError | _ => Raise TypeError end.
Definition send (q : id) (z : Z) (p : @prog nat) : @prog nat := bindr (queue_put q (VInt z)) (fun _ => p).
Definition pause (n : nat) (p : @prog nat) : @prog nat := bindr (clock_cycles n) (fun _ => p).
Definition t_ref : @prog nat := Do OStartClock (Do OQNew (Do OQNew (Do (OCreate (ref_main 0 [1] compare2)) (send 0 7 (pause 2 (send 0 8 (send 1 7 (pause 1 (send 0 9 (pause 1 (send 1 8 (pause 2 (send 1 1 (pause 2 (Ret VNone))))))))))))))).
Definition watch : Type := (@state nat * (list (@did nat) * list (id * stamped)))%type.
Fixpoint runt (t n : nat) (x : watch) : watch := match n with 0 => x | S n' => let s := fst x in runt t n' (step ids Nat.succ (fun c => c) [] s, (fst (snd x) ++ does t s, snd (snd x) ++ puts s)) end.
Fixpoint alone (t n : nat) (s : @state nat) : bool := match n with 0 => true | S n' => (negb (looksb s 0 || looksb s 1) || match cur s with Some (t', _) => Nat.eqb t' t | None => false end) && alone t n' (step ids Nat.succ (fun c => c) [] s) end.
Lemma runt_traffic t n : forall s0 s L P, traffic ids Nat.succ (fun c => c) t [0; 1] s0 s L P -> alone t n s = true ->
  traffic ids Nat.succ (fun c => c) t [0; 1] s0 (fst (runt t n (s, (L, P)))) (fst (snd (runt t n (s, (L, P))))) (snd (snd (runt t n (s, (L, P))))).
Proof.
  induction n as [|n IH]; intros s0 s L P H A; auto. cbn [alone] in A. apply andb_true_iff in A as [A B]. cbn [runt fst snd]. apply IH; auto. apply tr_step; auto. intros q Hq LB.
  destruct (cur s) as [[t' b]|].
  - apply orb_true_iff in A as [A|A]; [|apply Nat.eqb_eq in A; subst; eauto]. apply negb_true_iff, orb_false_iff in A as [A0 A1]. destruct Hq as [<-|[<-|[]]]; congruence.
  - rewrite orb_false_r in A. apply negb_true_iff, orb_false_iff in A as [A0 A1]. destruct Hq as [<-|[<-|[]]]; congruence.
Qed.
Definition Rf (n : nat) : @state nat := run ids Nat.succ (fun c => c) n (init t_ref 0).
CoFixpoint tame_serve {mem} q0 more (handle : list lval -> @prog mem) x (Hh : forall vs, tame (handle vs)) (Hx : match x with Handling p => tame p | _ => True end) : tame (serve q0 more handle x).
Proof.
  rewrite serve_unfold. assert (Hy : match settled q0 more handle x with Handling p => tame p | _ => True end) by (destruct x as [[|q todo] got|[v|e|o k]]; simpl; auto; specialize (Hh got); destruct (handle got); auto).
  destruct (settled q0 more handle x) as [[|q todo] got|[v|e|o k]]; try constructor; try (inversion Hy; subst; assumption); try (intros p X; inversion X; fail).
  - intros [v|e]; [|constructor]. apply all_op; [exact Logic.I|intros p X; inversion X|]. intros r. apply tame_serve; auto.
  - inversion Hy as [| |o' k' A B C]; subst. intros r. apply tame_serve; [assumption|apply C].
Defined.
CoFixpoint nocancel_serve {mem} q0 more (handle : list lval -> @prog mem) x (Hh : forall vs, nocancel (handle vs)) (Hx : match x with Handling p => nocancel p | _ => True end) : nocancel (serve q0 more handle x).
Proof.
  rewrite serve_unfold. assert (Hy : match settled q0 more handle x with Handling p => nocancel p | _ => True end) by (destruct x as [[|q todo] got|[v|e|o k]]; simpl; auto; specialize (Hh got); destruct (handle got); auto).
  destruct (settled q0 more handle x) as [[|q todo] got|[v|e|o k]]; try (constructor; fail); [|inversion Hy; subst; now constructor|].
  - apply nc_op; [exact Logic.I|intros p X; inversion X|]. intros [v|e] Hr; [|constructor; congruence]. apply nc_op; [exact Logic.I|intros p X; inversion X|]. intros r _. apply nocancel_serve; auto.
  - inversion Hy as [| |o' k' A B C]; subst. apply nc_op; [assumption|assumption|]. intros r Hr. apply nocancel_serve; [assumption|apply C; assumption].
Defined.
Lemma compare2_prompt vs : prompt (compare2 vs).
Proof. unfold compare2. destruct vs as [|[| |a| |] [|[| |b| |] [|]]]; try constructor. destruct (Z.eqb a b); constructor; auto. intros r. constructor. Qed.
Lemma compare2_tame vs : tame (compare2 vs).
Proof. unfold compare2. destruct vs as [|[| |a| |] [|[| |b| |] [|]]]; try constructor. destruct (Z.eqb a b); [|constructor]. apply all_op; [exact Logic.I|intros p X; inversion X|]. intros r. constructor. Qed.
Lemma compare2_nocancel vs : nocancel (compare2 vs).
Proof. unfold compare2. destruct vs as [|[| |a| |] [|[| |b| |] [|]]]; try (constructor; discriminate). destruct (Z.eqb a b); [|constructor; discriminate]. apply nc_op; [exact Logic.I|intros p X; inversion X|]. intros r _. constructor. Qed.
Example C90_nonvacuous : tame t_ref /\ nocancel t_ref /\ NoDup (ports 0 [1]) /\ (forall vs, prompt (compare2 vs)) /\ exists s s1 s2 L1 L2 P1 P2, steps ids Nat.succ (fun c => c) (init t_ref 0) s /\ (forall q, In q (ports 0 [1]) -> q < List.length (qs s)) /\
  cur s = Some (2, BProg (ref_main 0 [1] compare2)) /\ traffic ids Nat.succ (fun c => c) 2 (ports 0 [1]) s s1 L1 P1 /\ traffic ids Nat.succ (fun c => c) 2 (ports 0 [1]) s s2 L2 P2 /\ at_cycle s1 1 /\ at_cycle s2 1 /\ nstep s = 0 /\ nstep s1 = 4 /\ nstep s2 = 6 /\
  sent s P1 0 = [(0, VInt 7); (2, VInt 8); (3, VInt 9)] /\ sent s P1 1 = [(2, VInt 7); (4, VInt 8)] /\ marks s1 = [(2, 1, 2); (2, 1, 4)] /\ state_of s1 2 = Some Pending /\
  sent s P2 1 = [(2, VInt 7); (4, VInt 8); (6, VInt 1)] /\ failed s2 2 AssertionError.
Proof.
  split; [|split; [|split; [|split; [exact compare2_prompt|]]]].
  - assert (X : tame (ref_main 0 [1] compare2)) by (apply tame_serve; [exact compare2_tame|exact Logic.I]). unfold t_ref, send, pause, queue_put, Let, Do.
    repeat first [exact X | apply P_Comp.tame_cycles | apply P_Comp.tame_bindr | progress intros | match goal with H : part _ _ |- _ => inversion H; subst; clear H end | apply all_ret | apply all_raise | match goal with |- allp _ (thenv _ ?r) => destruct r; cbn [thenv] | |- tame (thenv _ ?r) => destruct r; cbn [thenv] end | apply all_op; [exact Logic.I| |]].
  - assert (X : nocancel (ref_main 0 [1] compare2)) by (apply nocancel_serve; [exact compare2_nocancel|exact Logic.I]). unfold t_ref, send, pause, queue_put, Let, Do.
    repeat first [exact X | apply nocancel_cycles | apply nocancel_bindr | progress intros | match goal with H : part _ _ |- _ => inversion H; subst; clear H end | apply nc_ret | apply nc_raise; congruence | match goal with |- nocancel (thenv _ ?r) => destruct r; cbn [thenv] end | apply nc_op; [exact Logic.I| |]].
  - repeat constructor; simpl; intuition discriminate.
  - exists (Rf 15), (fst (runt 2 94 (Rf 15, ([], [])))), (fst (runt 2 128 (Rf 15, ([], [])))), (fst (snd (runt 2 94 (Rf 15, ([], []))))), (fst (snd (runt 2 128 (Rf 15, ([], []))))), (snd (snd (runt 2 94 (Rf 15, ([], []))))), (snd (snd (runt 2 128 (Rf 15, ([], []))))).
    split; [apply run_steps|]. split; [intros q Hq; replace (List.length (qs (Rf 15))) with 2 by (vm_compute; reflexivity); simpl in Hq; intuition lia|]. split; [vm_compute; reflexivity|].
    split; [apply runt_traffic; [constructor|vm_compute; reflexivity]|]. split; [apply runt_traffic; [constructor|vm_compute; reflexivity]|]. split; [vm_compute; reflexivity|]. split; [vm_compute; reflexivity|]. repeat (split; [vm_compute; reflexivity|]). left. vm_compute. reflexivity.
Qed.
