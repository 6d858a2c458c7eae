(** The rounds of a reference model that reads ports. *)
From Coq Require Import List Bool Arith ZArith Lia.
From Verif Require Import Py Prio_Model Loop_Model Loop_Spec Loop2_Spec LoopProg_Model Loop_Proofs Loop2_Proofs Loop3_Proofs Loop4_Proofs Loop5_Proofs Loop6_Proofs Loop7_Proofs Loop9_Proofs Loop10_Proofs Loop13_Proofs Loop16_Proofs LoopRun_Model LoopRun_Proofs
  WMon_Spec WMon_Proofs Ref_Model Ref_Spec.
From Verif Require P_Mon P_Loop3 Comp_Proofs.
Import ListNotations.
Open Scope nat_scope.

Section Prog.
Context {mem : Type} (q0 : id) (more : list id) (handle : list lval -> @prog mem).
Notation prog := (@prog mem). Notation serve := (serve q0 more handle). Notation ports := (ports q0 more). Notation settled := (settled q0 more handle).
Definition gotk (todo : list id) (got : list lval) (r : res lval) : prog :=
  match r with Ok v => Op (OFlag true) (fun _ => serve (Reading todo (got ++ [v]))) | Exn e => Raise e end.
Lemma serve_unfold x : serve x =
  match settled x with
  | Reading [] _ => Ret VNone
  | Reading (q :: todo) got => Op (OQGet q) (gotk todo got)
  | Handling (Ret v) => Ret v
  | Handling (Raise e) => Raise e
  | Handling (Op o k) => Op o (fun r => serve (Handling (k r)))
  end.
Proof.
  assert (U : forall q : prog, q = match q with Ret v => Ret v | Raise e => Raise e | Op o c => Op o c end) by (intros []; reflexivity).
  rewrite (U (serve x)). destruct x as [[|q todo] got|[v|e|o k]]; cbn; try reflexivity. destruct (handle got) as [v|e|o k]; reflexivity.
Qed.
Lemma serve_read q todo got : serve (Reading (q :: todo) got) = Op (OQGet q) (gotk todo got).
Proof. now rewrite serve_unfold. Qed.
Lemma serve_full got : serve (Reading [] got) = serve (Handling (handle got)).
Proof. rewrite (serve_unfold (Reading [] got)), (serve_unfold (Handling _)). cbn [settled]. now destruct (handle got). Qed.
Lemma serve_again v : serve (Handling (Ret v)) = serve (Reading ports []).
Proof. now rewrite (serve_unfold (Handling _)), serve_read. Qed.
Lemma serve_raise e : serve (Handling (Raise e)) = Raise e.
Proof. now rewrite serve_unfold. Qed.
Lemma serve_op o k : serve (Handling (Op o k)) = Op o (fun r => serve (Handling (k r))).
Proof. now rewrite serve_unfold. Qed.
End Prog.

(** * Lists *)
Lemma column_app j xss yss : column j (xss ++ yss) = column j xss ++ column j yss. Proof. apply flat_map_app. Qed.
Lemma column_one j xs : column j [xs] = match nth_error xs j with Some x => [x] | None => [] end.
Proof. unfold column. simpl. now rewrite app_nil_r. Qed.
Lemma column_none j xss : column j (xss ++ [[]]) = column j xss.
Proof. rewrite column_app, column_one. destruct j; now rewrite app_nil_r. Qed.
Lemma column_add xss got (x : stamped) : column (List.length got) (xss ++ [got ++ [x]]) = column (List.length got) (xss ++ [got]) ++ [x].
Proof.
  rewrite !column_app, !column_one. rewrite nth_error_app2 by lia. rewrite Nat.sub_diag. replace (nth_error got (List.length got)) with (@None stamped) by (symmetry; apply nth_error_None; lia). simpl. now rewrite app_nil_r.
Qed.
Lemma column_keep j xss got (x : stamped) : j <> List.length got -> column j (xss ++ [got ++ [x]]) = column j (xss ++ [got]).
Proof.
  intros H. rewrite !column_app, !column_one. f_equal. destruct (Nat.lt_ge_cases j (List.length got)).
  - now rewrite nth_error_app1.
  - replace (nth_error got j) with (@None stamped) by (symmetry; apply nth_error_None; lia). replace (nth_error (got ++ [x]) j) with (@None stamped); auto. symmetry. apply nth_error_None. rewrite app_length. simpl. lia.
Qed.
Lemma combine_snoc {A B} (l : list A) : forall (m : list B) a b, nth_error l (List.length m) = Some a -> combine l (m ++ [b]) = combine l m ++ [(a, b)].
Proof. induction l as [|x l IH]; intros [|y m] a b H; simpl in *; try discriminate; [injection H as ->; now destruct l|]. now rewrite (IH m a b H). Qed.
Lemma skipn_nth {A} (l : list A) : forall n a, nth_error l n = Some a -> skipn n l = a :: skipn (S n) l.
Proof. induction l as [|x l IH]; intros [|n] a H; simpl in *; try discriminate; [now injection H as ->|]. now apply IH. Qed.
Lemma at_port_app q P1 P2 : at_port q (P1 ++ P2) = at_port q P1 ++ at_port q P2. Proof. apply flat_map_app. Qed.

Section Steps.
Context {mem : Type} (shuffle : list id -> list id) (dut delayers : mem -> mem).
Notation steps := (steps shuffle dut delayers). Notation step := (step shuffle dut delayers). Notation prog := (@prog mem). Notation state := (@state mem). Notation body := (@body mem).
Implicit Types (s : state).

Lemma puts_by s q : map snd (at_port q (puts s)) = put_by s q.
Proof.
  unfold puts, put_by. destruct (current_op s) as [o|]; auto. destruct o as [| | | | | | | | | | | |q1 v1| | | | | | | ]; auto. destruct (Nat.eqb_spec q1 q) as [->|N].
  - destruct (Nat.ltb q (List.length (qs s))); simpl; auto. unfold at_port. simpl. now rewrite Nat.eqb_refl.
  - destruct (Nat.ltb q1 (List.length (qs s))); auto. unfold at_port. simpl. apply Nat.eqb_neq in N. now rewrite N.
Qed.
Lemma puts_now s q : Forall (fun x => fst x = nstep s) (at_port q (puts s)).
Proof.
  unfold puts. destruct (current_op s) as [o|]; [|constructor]. destruct o as [| | | | | | | | | | | |q1 v1| | | | | | | ]; try constructor. destruct (Nat.ltb q1 (List.length (qs s))); [|constructor]. unfold at_port. simpl. destruct (Nat.eqb q1 q); simpl; repeat constructor.
Qed.
Lemma looks_one s q q' : looksb s q = true -> looksb s q' = true -> q = q'.
Proof.
  unfold looksb, current_op. destruct (cur s) as [[t b]|]; [|discriminate]. destruct b as [[v|e|o kk]|[v|e|o kk] ev todo sb|c|e f r kk|x f [v|e] kk|test|[v|e|o kk]]; try discriminate;
    try (destruct o; try discriminate); intros A B; apply Nat.eqb_eq in A; apply Nat.eqb_eq in B; congruence.
Qed.
Lemma got_looks s q : got_by s q = [] \/ looksb s q = true.
Proof. unfold got_by. destruct (looksb s q); auto. Qed.
Lemma looks_op s t o (k : res lval -> prog) q : cur s = Some (t, BProg (Op o k)) -> waiting o = false -> looksb s q = false.
Proof. intros H W. unfold looksb, current_op. rewrite H. now destruct o. Qed.

(** A task in get() when the clock advances. *)
Lemma susp_get test m s t q f kb w : steps (init test m) s -> Susp t (fun r => BGet q f r kb) w s -> w = Some f /\ exists fu, fget s f = Some fu /\ f_kind fu = KQueue q.
Proof.
  intros R0 [Hc [cbs [mu E]]]. pose proof (v_linked _ (proj1 (reach_all _ _ _ _ _ _ R0))) as [L _]. pose proof (L t _ _ _ _ E Hc) as X. destruct w as [g|].
  - destruct X as [kd [fu [Ef [Kr Fi]]]]. cbn [snd coreof] in Ef. destruct kd; simpl in Fi; try (specialize (Fi (Ok VNone)); discriminate Fi); destruct Fi as [kk [Fi _]]; apply (f_equal (fun h => h (Ok VNone))) in Fi; try discriminate Fi.
    injection Fi as <- <- <-. split; auto. exists fu. split; auto. destruct (f_kind fu); simpl in Kr; try contradiction. congruence.
  - simpl in X. specialize (X (Ok VNone)). discriminate X.
Qed.
Lemma wait_cycle test m s c t q f kb w : tame test -> nocancel test -> steps (init test m) s -> at_cycle s c -> Susp t (fun r => BGet q f r kb) w s -> waits_to_get s t q /\ items s q = [].
Proof.
  intros T NT R0 AC SU. destruct (susp_get test m s t q f kb w R0 SU) as [-> [fu [Ef Kf]]]. assert (X : waits_to_get s t q); [|split; auto; eapply P_Loop3.C62_no_waiting_getter_at_step; eauto].
  destruct SU as [Hc [cbs [mu E]]]. assert (N : t <> c) by (intros ->; unfold at_cycle in AC; eapply Hc; eauto).
  destruct (cycle_quiet _ _ _ _ _ _ _ T NT R0 AC t) as [g [fg [W [Eg Pg]]]]; auto; [unfold islive; now rewrite E|]. rewrite (waitof_task _ _ _ _ _ _ _ E) in W. injection W as <-. unfold fget in Ef. rewrite Eg in Ef. injection Ef as ->.
  exists f, fu. split; [|auto]. exists (mk_task (fun r => BGet q f r kb) (Some f) mu). split; auto. unfold tget, fget. now rewrite E.
Qed.
End Steps.

Lemma rest_put {mem} (s : @state mem) q rest : map snd (rest ++ at_port q (puts s)) = map snd rest ++ put_by s q.
Proof. rewrite map_app. f_equal. apply puts_by. Qed.

Section Inv.
Context {mem : Type} (shuffle : list id -> list id) (dut delayers : mem -> mem) (q0 : id) (more : list id) (handle : list lval -> @prog mem).
Notation steps := (steps shuffle dut delayers). Notation step := (step shuffle dut delayers). Notation prog := (@prog mem). Notation state := (@state mem). Notation body := (@body mem).
Notation serve := (serve q0 more handle). Notation ports := (ports q0 more). Notation gotk := (gotk q0 more handle). Notation served := (served ports handle).
Implicit Types (s : state).

(** What is left in the ports. *)
Definition left_ (S : id -> list stamped) (xss : list (list stamped)) s (strict : option id) : Prop :=
  forall j q, nth_error ports j = Some q -> exists rest, S q = column j xss ++ rest /\ map snd rest = items s q /\ Forall (fun x => fst x <= nstep s) rest /\ (strict = Some q -> Forall (fun x => fst x = nstep s) rest).
Definition after (S : id -> list stamped) s (q : id) : list stamped := S q ++ at_port q (puts s).

Lemma left_quiet S xss s fire strict : left_ S xss s strict -> (forall q, In q ports -> got_by s q = []) -> nstep (step fire s) = nstep s -> left_ (after S s) xss (step fire s) strict.
Proof.
  intros H G N j q Hj. destruct (H j q Hj) as [rest [A [B [C D]]]]. exists (rest ++ at_port q (puts s)). split; [unfold after; now rewrite A, app_assoc|]. split.
  - rewrite rest_put, B. pose proof (P_Loop3.items_step shuffle dut delayers fire s q) as X. rewrite G in X by (eapply nth_error_In; eauto). exact X.
  - rewrite N. pose proof (puts_now s q) as Y. split; [|intros E; apply Forall_app; auto]. apply Forall_app. split; auto. eapply Forall_impl; [|exact Y]. simpl. intros; lia.
Qed.
Lemma left_clock S xss s fire c l strict : left_ S xss s strict -> cur s = Some (c, BClk (CStep l)) -> (forall q, strict = Some q -> items s q = []) -> left_ (after S s) xss (step fire s) strict.
Proof.
  intros H Hc Z j q Hj. destruct (H j q Hj) as [rest [A [B [C D]]]]. assert (P0 : puts s = []) by (unfold puts, current_op; now rewrite Hc). assert (G0 : got_by s q = []) by (unfold got_by, looksb, current_op; now rewrite Hc).
  assert (P1 : put_by s q = []) by (unfold put_by, current_op; now rewrite Hc). pose proof (P_Loop3.items_step shuffle dut delayers fire s q) as X. rewrite G0, P1, app_nil_r in X. cbn [app] in X.
  assert (N : nstep s <= nstep (step fire s)) by (rewrite nstep_step, Hc; lia).
  exists rest. split; [unfold after; rewrite P0; simpl; now rewrite app_nil_r|]. split; [congruence|]. split; [eapply Forall_impl; [|exact C]; simpl; intros; lia|]. intros E. rewrite (Z q E) in B. destruct rest; [constructor|discriminate].
Qed.
Lemma left_take S xss got s fire strict q v : NoDup ports -> left_ S (xss ++ [got]) s strict -> nth_error ports (List.length got) = Some q -> looksb s q = true -> got_by s q = [v] -> nstep (step fire s) = nstep s ->
  exists c, c <= nstep s /\ (strict = Some q -> c = nstep s) /\ left_ (after S s) (xss ++ [got ++ [(c, v)]]) (step fire s) None.
Proof.
  intros ND H Hq LQ G N. destruct (H _ _ Hq) as [rest [A [B [C D]]]]. pose proof (P_Loop3.items_step shuffle dut delayers fire s q) as X. rewrite G in X.
  assert (HR : exists c r, rest = (c, v) :: r).
  { unfold got_by in G. rewrite LQ in G. destruct (items s q) as [|v' l] eqn:Ei; [discriminate|]. simpl in G. injection G as ->. destruct rest as [|[c w] r]; [discriminate|]. simpl in B. injection B as -> _. eauto. }
  destruct HR as [c [r ->]]. exists c. inversion C as [|? ? C1 C2]; subst. simpl in C1. split; auto. split; [intros E; specialize (D E); inversion D; auto|]. intros j q' Hj. destruct (Nat.eq_dec j (List.length got)) as [->|NE].
  - assert (q' = q) by congruence. subst q'. exists (r ++ at_port q (puts s)). split; [unfold after; rewrite A, column_add, <- !app_assoc; reflexivity|]. split.
    + rewrite rest_put. simpl in B. rewrite <- B in X. simpl in X. injection X as X. exact X.
    + split; [|discriminate]. rewrite N. apply Forall_app. split; auto. eapply Forall_impl; [|exact (puts_now s q)]. simpl. intros; lia.
  - rewrite column_keep by auto. destruct (H _ _ Hj) as [rest' [A' [B' [C' D']]]]. assert (NQ : q' <> q) by (intros ->; apply NE; eapply (proj1 (NoDup_nth_error _)); eauto; [apply nth_error_Some; congruence|congruence]).
    assert (G0 : got_by s q' = []) by (unfold got_by; destruct (looksb s q') eqn:L'; auto; exfalso; apply NQ; eapply looks_one; eauto).
    pose proof (P_Loop3.items_step shuffle dut delayers fire s q') as X'. rewrite G0 in X'. cbn [app] in X'.
    exists (rest' ++ at_port q' (puts s)). split; [unfold after; now rewrite A', app_assoc|]. split; [rewrite rest_put, B'; exact X'|]. split; [|discriminate]. rewrite N. apply Forall_app. split; auto. eapply Forall_impl; [|exact (puts_now s q')]. simpl. intros; lia.
Qed.

(** Where the model is. *)
Inductive stage (t : id) (n0 : nat) (S : id -> list stamped) s (L : list (@did mem)) : Prop :=
| st_over : tdone s = Some true -> stage t n0 S s L
| st_idle xss n l got n1 l1 : served n0 xss n l -> List.length got < List.length ports -> reads n (combine ports got) n1 l1 -> left_ S (xss ++ [got]) s None ->
    cur s = Some (t, BProg (serve (Reading (skipn (List.length got) ports) (map snd got)))) -> nstep s = n1 -> L = l ++ l1 -> stage t n0 S s L
| st_wait xss n l got n1 l1 q f : served n0 xss n l -> nth_error ports (List.length got) = Some q -> reads n (combine ports got) n1 l1 -> left_ S (xss ++ [got]) s (Some q) -> n1 <= nstep s ->
    (exists w, Susp t (fun r => BGet q f r (fun r => BProg (gotk (skipn (Datatypes.S (List.length got)) ports) (map snd got) r))) w s) \/
    (exists r, cur s = Some (t, BGet q f r (fun r => BProg (gotk (skipn (Datatypes.S (List.length got)) ports) (map snd got) r)))) ->
    L = l ++ l1 ++ [mk_did n1 (OQGet q) None] -> stage t n0 S s L
| st_flag xss n l got n1 l1 q c v : served n0 xss n l -> nth_error ports (List.length got) = Some q -> reads n (combine ports got) n1 l1 -> left_ S (xss ++ [got ++ [(c, v)]]) s None ->
    cur s = Some (t, BProg (Op (OFlag true) (fun _ => serve (Reading (skipn (Datatypes.S (List.length got)) ports) (map snd got ++ [v]))))) -> nstep s = max n1 c -> L = l ++ l1 ++ [mk_did n1 (OQGet q) None] -> stage t n0 S s L
| st_handle xss n l got n1 l1 lm p : served n0 xss n l -> List.length got = List.length ports -> reads n (combine ports got) n1 l1 -> left_ S (xss ++ [got]) s None ->
    partially n1 (handle (map snd got)) lm p n1 -> prompt p -> cur s = Some (t, BProg (serve (Handling p))) -> nstep s = n1 -> L = l ++ l1 ++ lm -> stage t n0 S s L
| st_dead xss n l got n1 l1 lm e : served n0 xss n l -> List.length got = List.length ports -> reads n (combine ports got) n1 l1 -> (forall j q, nth_error ports j = Some q -> exists rest, S q = column j (xss ++ [got]) ++ rest) ->
    performs n1 (handle (map snd got)) lm (Exn e) n1 -> failed s t e -> L = l ++ l1 ++ lm -> stage t n0 S s L.

Context (SH : forall l, Permutation.Permutation l (shuffle l)) (test : prog) (m : mem) (TM : tame test) (NT : nocancel test) (ND : NoDup ports) (PR : forall vs, prompt (handle vs)).

Lemma tdone_step fire s : steps (init test m) s -> tdone s = Some true -> tdone (step fire s) = Some true.
Proof. intros R0 TD. destruct (reach_nc _ _ _ _ _ _ NT R0) as [_ [_ [_ [O _]]]]. eapply step_tdone; eauto. Qed.
Lemma nstep_task fire s t b : cur s = Some (t, b) -> (forall c, b <> BClk c) -> nstep (step fire s) = nstep s.
Proof. intros H N. rewrite nstep_step, H. destruct b; auto. exfalso. eapply N; reflexivity. Qed.
(** Looking into the queue. *)
Lemma look t n0 S s fire L xss n l got n1 l1 q strict : steps (init test m) s -> (forall q, In q ports -> q < List.length (qs s)) -> served n0 xss n l -> nth_error ports (List.length got) = Some q -> reads n (combine ports got) n1 l1 -> left_ S (xss ++ [got]) s strict ->
  (strict = Some q \/ nstep s = n1) -> n1 <= nstep s ->
  looks s t q (fun r => BProg (gotk (skipn (Datatypes.S (List.length got)) ports) (map snd got) r)) -> step fire s = q_get s t q (fun r => BProg (gotk (skipn (Datatypes.S (List.length got)) ports) (map snd got) r)) -> (exists b, cur s = Some (t, b) /\ forall c, b <> BClk c) ->
  L = l ++ l1 ++ [mk_did n1 (OQGet q) None] -> stage t n0 (after S s) (step fire s) L.
Proof.
  intros R0 EX SV Hq RD LF ST LN LK HS [b [Hc NB]] ->. pose proof (nstep_task fire s t b Hc NB) as N. pose proof (P_Loop3.C62_get_delivers shuffle dut delayers fire s t q _ LK) as X.
  assert (LB : looksb s q = true). { unfold looksb, current_op. destruct LK as [[k [E _]]|[[k [ev [todo [sb [E _]]]]]|[[k [E _]]|[f [v E]]]]]; rewrite E; apply Nat.eqb_refl. }
  destruct (items s q) as [|v rest] eqn:Ei.
  - destruct X as [X G]. assert (Lt : q < List.length (qs s)) by (apply EX; eapply nth_error_In; eauto). destruct X as [X|[X _]]; [|apply nth_error_None in X; lia].
    pose proof (v_wf _ (proj1 (reach_all _ _ _ _ _ _ R0))) as WF. destruct (cur_task s t _ WF Hc) as [cbs [k0 [w [mu E]]]].
    destruct (q_get_out s t q (fun r => BProg (gotk (skipn (Datatypes.S (List.length got)) ports) (map snd got) r)) _ _ _ _ E) as [[r [_ Y]]|[f [w' SU]]]; [rewrite <- HS in Y; congruence|]. rewrite <- HS in SU.
    eapply (st_wait _ _ _ _ _ xss n l got n1 l1 q f); eauto; [|lia].
    intros j q' Hj. assert (G0 : forall q'', In q'' ports -> got_by s q'' = []) by (intros q'' _; destruct (got_looks s q'') as [?|L2]; auto; assert (q'' = q) by (eapply looks_one; eauto); now subst).
    destruct (left_quiet S (xss ++ [got]) s fire strict LF G0 N j q' Hj) as [rest [A [B [C D]]]]. exists rest. split; auto. split; auto. split; auto. intros E0. injection E0 as <-.
    assert (I0 : items (step fire s) q = put_by s q) by (pose proof (P_Loop3.items_step shuffle dut delayers fire s q) as Z; rewrite G, Ei in Z; now simpl in Z).
    assert (P0 : put_by s q = []). { unfold put_by. destruct LK as [[k [E0 _]]|[[k [ev [todo [sb [E0 _]]]]]|[[k [E0 _]]|[f0 [v E0]]]]]; unfold current_op; now rewrite E0. }
    rewrite I0, P0 in B. destruct rest; [constructor|discriminate].
  - destruct X as [X G]. destruct (left_take S xss got s fire strict q v ND LF Hq LB G N) as [c [C1 [C2 C3]]]. eapply (st_flag _ _ _ _ _ xss n l got n1 l1 q c v); eauto. rewrite N. destruct ST as [ST|ST]; [specialize (C2 ST)|]; lia.
Qed.
Lemma idle_step t n0 S s fire xss n l got n1 l1 : steps (init test m) s -> (forall q, In q ports -> q < List.length (qs s)) -> served n0 xss n l -> List.length got < List.length ports -> reads n (combine ports got) n1 l1 -> left_ S (xss ++ [got]) s None ->
  cur s = Some (t, BProg (serve (Reading (skipn (List.length got) ports) (map snd got)))) -> nstep s = n1 -> stage t n0 (after S s) (step fire s) ((l ++ l1) ++ does t s).
Proof.
  intros R0 EX SV LG RD LF Hc N. destruct (nth_error ports (List.length got)) as [q|] eqn:Hq; [|apply nth_error_None in Hq; lia].
  rewrite (skipn_nth _ _ _ Hq), serve_read in Hc. rewrite (does_begin _ _ _ _ Hc), N. cbn [gives].
  eapply (look t n0 S s fire _ xss n l got n1 l1 q None); eauto; try lia.
  - left. eexists. split; [exact Hc|reflexivity].
  - rewrite (P_Mon.step_prog shuffle dut delayers fire s t _ _ Hc). reflexivity.
  - eexists. split; [exact Hc|discriminate].
  - symmetry. apply app_assoc.
Qed.
Lemma stage_step t n0 S s fire L : steps (init test m) s -> (forall q, In q ports -> q < List.length (qs s)) -> (forall q, In q ports -> looksb s q = true -> exists b, cur s = Some (t, b)) ->
  stage t n0 S s L -> stage t n0 (after S s) (step fire s) (L ++ does t s).
Proof.
  intros R0 EX RD ST. pose proof (v_wf _ (proj1 (reach_all _ _ _ _ _ _ R0))) as WF.
  destruct ST as [TD|xss n l got n1 l1 SV LG RE LF Hc N ->|xss n l got n1 l1 q f SV Hq RE LF LN W ->|xss n l got n1 l1 q c v SV Hq RE LF Hc N ->|xss n l got n1 l1 lm p SV LG RE LF PA PP Hc N ->|xss n l got n1 l1 lm e SV LG RE LF PF FA ->].
  - apply st_over. now apply tdone_step.
  - eapply idle_step; eauto.
  - destruct W as [[w SU]|[r Hc]].
    + assert (D0 : does t s = []) by (apply does_other; intros p; apply SU). rewrite D0, app_nil_r.
      assert (G0 : forall q', In q' ports -> got_by s q' = []) by (intros q' Hi; destruct (got_looks s q') as [?|LB]; auto; destruct (RD q' Hi LB) as [b X]; exfalso; eapply SU; eauto).
      assert (CS : (exists c l0, cur s = Some (c, BClk (CStep l0))) \/ nstep (step fire s) = nstep s) by (rewrite nstep_step; destruct (cur s) as [[c [| |[]| | | | ]]|]; eauto).
      destruct CS as [[c [l0 Hc]]|N].
      * destruct (Comp_Proofs.step_cycle shuffle dut delayers SH test m s c l0 R0 Hc) as [K| ->]; [apply st_over; now apply tdone_step|]. destruct (wait_cycle shuffle dut delayers test m s c t q f _ w TM NT R0 Hc SU) as [_ I0].
        pose proof (left_clock S (xss ++ [got]) s fire c false (Some q) LF Hc (fun q' E => match E in _ = x return match x with Some y => items s y = [] | None => True end with eq_refl => I0 end)) as LF'.
        destruct (susp_step shuffle dut delayers fire t _ w s WF SU) as [SU'|[r [_ [_ [X _]]]]]; [|congruence].
        eapply (st_wait _ _ _ _ _ xss n l got n1 l1 q f); eauto. pose proof (nstep_mono shuffle dut delayers fire s). lia.
      * pose proof (left_quiet S (xss ++ [got]) s fire (Some q) LF G0 N) as LF'. destruct (susp_step shuffle dut delayers fire t _ w s WF SU) as [SU'|[r [X _]]]; eapply (st_wait _ _ _ _ _ xss n l got n1 l1 q f); eauto; lia.
    + assert (D0 : does t s = []) by (apply does_other; intros p; rewrite Hc; discriminate). rewrite D0, app_nil_r. destruct (reach_nc _ _ _ _ _ _ NT R0) as [_ [_ [_ [_ [X|X]]]]]; [apply st_over; now apply tdone_step|].
      destruct (n_get _ X _ _ _ _ _ Hc) as [v ->]. eapply (look t n0 S s fire _ xss n l got n1 l1 q (Some q)); eauto.
      * right; right; right. eauto.
      * unfold Loop_Model.step. now rewrite Hc.
      * eexists. split; [exact Hc|discriminate].
  - rewrite (does_begin _ _ _ _ Hc). cbn [gives]. assert (N' : nstep (step fire s) = nstep s) by (eapply nstep_task; eauto; discriminate).
    assert (G0 : forall q', In q' ports -> got_by s q' = []) by (intros q' _; unfold got_by; rewrite (looks_op s t _ _ q' Hc); auto).
    pose proof (left_quiet S _ s fire None LF G0 N') as LF'. assert (RE' : reads n (combine ports (got ++ [(c, v)])) (max n1 c) (l1 ++ [mk_did n1 (OQGet q) None; mk_did (max n1 c) (OFlag true) None])) by (rewrite (combine_snoc _ _ _ _ Hq); now apply rd_next).
    assert (Hc' : cur (step fire s) = Some (t, BProg (serve (Reading (skipn (Datatypes.S (List.length got)) ports) (map snd got ++ [v]))))) by (rewrite (P_Mon.step_prog shuffle dut delayers fire s t _ _ Hc); reflexivity).
    assert (LL : (l ++ l1 ++ [mk_did n1 (OQGet q) None]) ++ [mk_did (nstep s) (OFlag true) None] = l ++ (l1 ++ [mk_did n1 (OQGet q) None; mk_did (max n1 c) (OFlag true) None])) by (rewrite N, <- !app_assoc; reflexivity). rewrite LL.
    assert (LG : List.length got < List.length ports) by (apply nth_error_Some; congruence). assert (L1 : List.length (got ++ [(c, v)]) = Datatypes.S (List.length got)) by (rewrite app_length; simpl; lia).
    assert (M1 : map snd (got ++ [(c, v)]) = map snd got ++ [v]) by now rewrite map_app.
    destruct (Nat.eq_dec (Datatypes.S (List.length got)) (List.length ports)) as [FU|NF].
    + eapply (st_handle _ _ _ _ _ xss n l (got ++ [(c, v)]) (max n1 c) _ [] (handle (map snd (got ++ [(c, v)])))); eauto; [lia|apply pa_here| |lia|now rewrite app_nil_r].
      rewrite Hc', FU, skipn_all, serve_full, M1. reflexivity.
    + eapply (st_idle _ _ _ _ _ xss n l (got ++ [(c, v)]) (max n1 c)); eauto; [lia| |lia]. rewrite L1, M1. exact Hc'.
  - destruct p as [v|e|o k].
    + rewrite serve_again in Hc. replace (l ++ l1 ++ lm) with ((l ++ l1 ++ lm) ++ []) by apply app_nil_r. eapply (idle_step t n0 S s fire (xss ++ [got]) n1 (l ++ l1 ++ lm) [] n1 []); eauto.
      * apply (sv_next _ _ _ xss n l got n1 l1 lm v); auto.
      * simpl. lia.
      * apply rd_none.
      * intros j q Hj. destruct (LF j q Hj) as [rest X]. exists rest. rewrite column_none. exact X.
    + rewrite serve_raise in Hc. unfold does. rewrite Hc, app_nil_r.
      destruct (fin_step shuffle dut delayers fire s t (Raise e) WF Hc) as [[v [X _]]|[e' [X FA]]]; [intros; discriminate|discriminate|]. injection X as <-.
      eapply (st_dead _ _ _ _ _ xss n l got n1 l1 lm e); eauto. intros j q Hj. destruct (LF j q Hj) as [rest [A _]]. exists (rest ++ at_port q (puts s)). unfold after. now rewrite A, app_assoc.
    + rewrite serve_op in Hc. inversion PP as [| |o' k' Wo Pk]; subst o' k'. rewrite (does_begin _ _ _ _ Hc). assert (N' : nstep (step fire s) = nstep s) by (eapply nstep_task; eauto; discriminate).
      assert (G0 : forall q', In q' ports -> got_by s q' = []) by (intros q' _; unfold got_by; rewrite (looks_op s t _ _ q' Hc); auto). pose proof (left_quiet S _ s fire None LF G0 N') as LF'.
      destruct (op_begin shuffle dut delayers test m fire s t o _ R0 Hc) as [[r [X E]]|[W _]]; [|congruence]. rewrite N', N in E. rewrite N.
      eapply (st_handle _ _ _ _ _ xss n l got n1 l1 (lm ++ [mk_did n1 o (gives s o)]) (k r)); eauto; [eapply partially_snoc; eauto|lia|now rewrite <- !app_assoc].
  - assert (D0 : does t s = []). { apply does_other. intros p Hc. destruct (cur_task s t _ WF Hc) as [cbs [k [w [mu X]]]]. assert (Y : state_of s t = Some Pending) by (unfold state_of; now rewrite X). destruct FA as [FA|[FA _]]; congruence. }
    rewrite D0, app_nil_r. eapply (st_dead _ _ _ _ _ xss n l got n1 l1 lm e); eauto.
    + intros j q Hj. destruct (LF j q Hj) as [rest A]. exists (rest ++ at_port q (puts s)). unfold after. now rewrite A, app_assoc.
    + assert (P : forall st, st <> Pending -> state_of s t = Some st -> state_of (step fire s) t = Some st) by (intros st Nn E; apply (state_of_done shuffle dut delayers s); auto; apply steps_step, steps_refl).
      destruct FA as [FA|[FA ->]]; [left|right; split; auto]; apply P; auto; discriminate.
Qed.
Lemma traffic_steps t s s' L P : traffic shuffle dut delayers t ports s s' L P -> steps s s'.
Proof. induction 1; [apply steps_refl|]. now apply steps_step. Qed.
Lemma track t s s' L P : steps (init test m) s -> (forall q, In q ports -> q < List.length (qs s)) -> cur s = Some (t, BProg (ref_main q0 more handle)) -> traffic shuffle dut delayers t ports s s' L P ->
  stage t (nstep s) (sent s P) s' L /\ (forall q, In q ports -> q < List.length (qs s')).
Proof.
  intros R0 EX Hc G. induction G as [s|s s1 fire L P G IH RD].
  - split; auto. eapply (st_idle _ _ _ _ _ [] (nstep s) [] [] (nstep s) []); eauto; [apply sv_none|simpl; lia|apply rd_none|].
    intros j q Hj. exists (map (fun v => (nstep s, v)) (items s q)). split; [unfold sent; simpl; rewrite app_nil_r; destruct j; reflexivity|]. rewrite map_map. cbn [snd]. rewrite map_id. split; auto. split; [|discriminate]. apply Forall_forall. intros x Hx. apply in_map_iff in Hx as [v [<- _]]. simpl. lia.
  - destruct (IH R0 EX Hc) as [ST EX1]. assert (R1 : steps (init test m) s1) by (eapply steps_trans; [exact R0|eapply traffic_steps; eauto]). split.
    + pose proof (stage_step t (nstep s) (sent s P) s1 fire L R1 EX1 RD ST) as X. assert (E : forall q, sent s (P ++ puts s1) q = after (sent s P) s1 q) by (intros q; unfold sent, after; now rewrite at_port_app, app_assoc).
      assert (LE : forall xss st, left_ (after (sent s P) s1) xss (step fire s1) st -> left_ (sent s (P ++ puts s1)) xss (step fire s1) st) by (intros xss st H j q Hj; rewrite E; apply (H j q Hj)).
      destruct X as [TD|xss n l got n1 l1 SV LG RE LF Hc' N HL|xss n l got n1 l1 q f SV Hq RE LF LN W HL|xss n l got n1 l1 q c v SV Hq RE LF Hc' N HL|xss n l got n1 l1 lm p SV LG RE LF PA PP Hc' N HL|xss n l got n1 l1 lm e SV LG RE LF PF FA HL].
      * now apply st_over.
      * eapply st_idle; eauto.
      * eapply st_wait; eauto.
      * eapply st_flag; eauto.
      * eapply st_handle; eauto.
      * eapply st_dead; eauto. intros j q Hj. rewrite E. eauto.
    + intros q Hq. specialize (EX1 q Hq). pose proof (P_Mon.len_qs shuffle dut delayers fire s1). lia.
Qed.
End Inv.
