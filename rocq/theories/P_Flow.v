(** C94: what a monitor returns in a cycle is processed by the reference model in the same cycle. *)
From Coq Require Import List Bool Arith ZArith Lia.
From Verif Require Import Py Prio_Model Loop_Model Loop_Spec Loop2_Spec LoopProg_Model Loop_Proofs Loop2_Proofs Loop3_Proofs Loop4_Proofs Loop5_Proofs Loop6_Proofs Loop7_Proofs Loop9_Proofs Loop10_Proofs Loop13_Proofs Loop16_Proofs LoopRun_Model LoopRun_Proofs Mon_Model Mon_Spec WMon_Spec WMon_Proofs Ref_Model Ref_Spec Ref_Proofs P_Ref Flow_Spec.
From Verif Require Import P_Loop P_Loop2.
From Verif Require P_Comp P_Mon P_Loop3 P_Hook Comp_Proofs MainEnv_Proofs.
Import ListNotations.
Open Scope nat_scope.

Section Room.
Context {mem : Type} (shuffle : list id -> list id) (dut delayers : mem -> mem) (q : id) (handle : list lval -> @prog mem).
Notation step := (step shuffle dut delayers). Notation steps := (steps shuffle dut delayers). Notation prog := (@prog mem). Notation state := (@state mem).
Notation traffic := (traffic shuffle dut delayers). Notation ref_main := (ref_main q [] handle).
Implicit Types (s : state).
Context (SH : forall l, Permutation.Permutation l (shuffle l)) (test : prog) (m : mem) (TM : tame test) (NT : nocancel test) (PR : forall vs, prompt (handle vs)).

Lemma nodup1 : NoDup (ports q []). Proof. repeat constructor. intros []. Qed.
Lemma column_map xs : column 0 (map (fun x : stamped => [x]) xs) = xs.
Proof. induction xs as [|x xs IH]; auto. simpl. f_equal. exact IH. Qed.
Lemma one_column xss : (forall xs, In xs xss -> List.length xs = 1) -> xss = map (fun x : stamped => [x]) (column 0 xss).
Proof. induction xss as [|xs xss IH]; intros H; auto. specialize (IH (fun xs' Hx => H xs' (or_intror Hx))). specialize (H xs (or_introl eq_refl)). destruct xs as [|x [|]]; try discriminate. simpl. f_equal. exact IH. Qed.
(** A model with one port, whenever the clock is about to make a step: the port is empty, and everything put so far has been processed. *)
Theorem C90_one_port t c s s' L P : steps (init test m) s -> q < List.length (qs s) -> cur s = Some (t, BProg ref_main) -> traffic t [q] s s' L P -> at_cycle s' c -> (forall e, ~ failed s' t e) ->
  items s' q = [] /\ exists n l, served [q] handle (nstep s) (map (fun x => [x]) (sent s P q)) n l /\ L = l ++ [mk_did n (OQGet q) None].
Proof.
  intros R0 EX Hc G AC NF. assert (EX' : forall q', In q' (ports q []) -> q' < List.length (qs s)) by (intros q' [<-|[]]; exact EX).
  destruct (C90_keeps_up shuffle dut delayers q [] handle SH test m t c s s' L P TM NT nodup1 PR R0 EX' Hc G AC) as [[xss [n [l [got [n1 [l1 [q' [SV [Hq [RE [HL [_ [I0 H]]]]]]]]]]]]]|[xss [n [l [xs [n1 [l1 [lm [e [_ [_ [_ [_ [_ [F _]]]]]]]]]]]]]]]; [|exfalso; exact (NF e F)].
  destruct got as [|x [|y got]]; try discriminate. simpl in Hq. injection Hq as <-. split; auto. destruct (H 0 q eq_refl) as [rest [A B]]. rewrite I0 in B. destruct rest; [|discriminate]. rewrite app_nil_r, column_none in A.
  exists n, l. rewrite A, <- (one_column xss) by exact (served_len _ _ _ _ _ _ SV). split; auto. inversion RE as [E1 E2 E3|xs1 n2 l2 q' c' v' g g' RE' E1 E2 E3]; [subst; reflexivity|]. destruct xs1; discriminate.
Qed.
Lemma put_in_app n P1 P2 : put_in n q (P1 ++ P2) = put_in n q P1 + put_in n q P2.
Proof. unfold put_in. rewrite at_port_app, filter_app, app_length. reflexivity. Qed.
(** So at any time before the test is over there are in the port at most the values put in this very cycle (or there from the start). *)
Theorem C90_room t s s' L P : steps (init test m) s -> q < List.length (qs s) -> cur s = Some (t, BProg ref_main) -> traffic t [q] s s' L P -> tdone s' <> Some true -> (forall e, ~ failed s' t e) ->
  List.length (items s' q) <= (if Nat.eqb (nstep s') (nstep s) then List.length (items s q) else 0) + put_in (nstep s') q P.
Proof.
  intros R0 EX Hc G. induction G as [s|s s1 fire L P G IH RD]; intros TD NF; [rewrite Nat.eqb_refl; lia|].
  assert (R1 : steps (init test m) s1) by (eapply steps_trans; [exact R0|exact (traffic_steps shuffle dut delayers q [] t s s1 L P G)]).
  assert (NF1 : forall e, ~ failed s1 t e) by (intros e F; apply (NF e); apply (MainEnv_Proofs.failed_later shuffle dut delayers e s1); auto; [eapply reach_wf; eauto|apply steps_step, steps_refl]).
  assert (TD1 : tdone s1 <> Some true) by (intros X; apply TD; exact (tdone_step shuffle dut delayers test m NT fire s1 R1 X)).
  specialize (IH R0 EX Hc TD1 NF1). pose proof (P_Loop3.items_step shuffle dut delayers fire s1 q) as X. apply (f_equal (@List.length _)) in X. rewrite !app_length in X. rewrite put_in_app.
  assert (CS : (exists c l0, cur s1 = Some (c, BClk (CStep l0))) \/ nstep (step fire s1) = nstep s1) by (rewrite nstep_step; destruct (cur s1) as [[c [| |[]| | | | ]]|]; eauto).
  assert (PB : put_in (nstep s1) q (puts s1) = List.length (put_by s1 q)).
  { unfold put_in. rewrite <- puts_by, map_length. assert (F := puts_now s1 q). induction F as [|x l Hx F IF]; auto. simpl. rewrite Hx, Nat.eqb_refl. simpl. now rewrite IF. }
  destruct CS as [[c [l0 Hk]]|N].
  - destruct (Comp_Proofs.step_cycle shuffle dut delayers SH test m s1 c l0 R1 Hk) as [K| ->]; [contradiction|]. destruct (C90_one_port t c s s1 L P R0 EX Hc G Hk NF1) as [I0 _].
    assert (P1 : put_by s1 q = []) by (unfold put_by, current_op; now rewrite Hk). rewrite I0, P1 in X. simpl in X. lia.
  - rewrite N, PB. lia.
Qed.
End Room.
Print Assumptions C90_one_port.
Print Assumptions C90_room.

(** The stamps rise. *)
Lemma latest_app n0 a b : latest n0 (a ++ b) = latest (latest n0 a) b. Proof. apply fold_left_app. Qed.
Definition rising (n0 : nat) (xs : list stamped) : Prop := forall a x b, xs = a ++ x :: b -> latest n0 a <= fst x.
Lemma rising_snoc n0 xs x : rising n0 (xs ++ [x]) -> rising n0 xs /\ latest n0 xs <= fst x.
Proof. intros H. split; [|apply (H xs x []); reflexivity]. intros a y b ->. apply (H a y (b ++ [x])). rewrite <- app_assoc. reflexivity. Qed.
Lemma rising_add n0 n xs ys : rising n0 xs -> latest n0 xs <= n -> Forall (fun x => fst x = n) ys -> rising n0 (xs ++ ys) /\ latest n0 (xs ++ ys) <= n.
Proof.
  intros R Le F. revert xs R Le. induction F as [|y ys Hy F IH]; intros xs R Le; [rewrite app_nil_r; auto|]. replace (xs ++ y :: ys) with ((xs ++ [y]) ++ ys) by (rewrite <- app_assoc; reflexivity). apply IH.
  - intros a x b E. destruct b as [|z b _] using rev_ind.
    + apply app_inj_tail in E as [<- <-]. lia.
    + rewrite app_comm_cons, app_assoc in E. apply app_inj_tail in E as [E _]. exact (R a x b E).
  - rewrite latest_app. cbn. lia.
Qed.

Section Mon.
Context {mem : Type} (shuffle : list id -> list id) (dut delayers : mem -> mem) (q : id) (handle : list lval -> @prog mem).
Notation step := (step shuffle dut delayers). Notation steps := (steps shuffle dut delayers). Notation prog := (@prog mem). Notation state := (@state mem).
Notation traffic := (traffic shuffle dut delayers). Notation ref_main := (ref_main q [] handle). Notation log := (log shuffle dut delayers). Notation flow := (flow shuffle dut delayers).
Implicit Types (s : state).

Lemma traffic_rising t s s' L P : traffic t [q] s s' L P -> rising (nstep s) (sent s P q) /\ latest (nstep s) (sent s P q) <= nstep s'.
Proof.
  induction 1 as [s|s s1 fire L P G [IH1 IH2] RD].
  - unfold sent. cbn [at_port flat_map]. rewrite app_nil_r. apply (rising_add (nstep s) (nstep s) [] (map (fun v => (nstep s, v)) (items s q))); cbn; auto.
    + intros a x b E. destruct a; discriminate.
    + apply Forall_forall. intros x Hx. apply in_map_iff in Hx as [v [<- _]]. reflexivity.
  - assert (E : sent s (P ++ puts s1) q = sent s P q ++ at_port q (puts s1)) by (unfold sent; now rewrite at_port_app, app_assoc). rewrite E. destruct (rising_add _ _ _ _ IH1 IH2 (puts_now s1 q)) as [A B]. split; auto.
    pose proof (nstep_mono shuffle dut delayers fire s1). lia.
Qed.
Lemma served_kept n0 xs n (l : list (@did mem)) : served [q] handle n0 (map (fun x => [x]) xs) n l -> rising n0 xs -> kept_up q handle xs l /\ n = latest n0 xs.
Proof.
  revert n l. induction xs as [|x xs IH] using rev_ind; intros n l SV R.
  - inversion SV as [E1 E2 E3|xss n1 l0 xs n2 l1 lm w SV' E1 E2 E3 E4]; [subst; split; auto; constructor|]. destruct xss; discriminate.
  - rewrite map_app in SV. cbn [map] in SV. apply rising_snoc in R as [R Le]. inversion SV as [E1 E2 E3|xss n1 l0 ys n2 l1 lm w SV' E1 RE PF E4]; [destruct (map (fun x => [x]) xs); discriminate|].
    apply app_inj_tail in E4 as [-> ->]. destruct (IH _ _ SV' R) as [K ->]. destruct x as [c v]. cbn [combine] in RE. inversion RE as [|zs n3 l3 q' c' v' g g' RE' E5 E6 E7]. destruct zs as [|? [|]]; try discriminate. cbn [app] in E5. injection E5 as -> -> ->.
    cbn [fst] in Le. inversion RE' as [E8 E9 E10|]; [|destruct xs0; discriminate]. subst. assert (EM : max (latest n0 xs) c = c) by lia. rewrite EM in *. split.
    + cbn [app]. apply (ku_next _ _ _ _ (latest n0 xs) c v g g' lm w); auto.
    + rewrite latest_app. cbn. lia.
Qed.

(** The puts a monitor is seen to make, with the cycle of the call they belong to. *)
Fixpoint puts_at (n : nat) (L : list (@seen mem)) : list stamped :=
  match L with [] => [] | Called c _ :: L => puts_at c L | Put q' v :: L => (if Nat.eqb q' q then [(n, v)] else []) ++ puts_at n L | _ :: L => puts_at n L end.
Fixpoint upto (n : nat) (L : list (@seen mem)) : nat := match L with [] => n | Called c _ :: L => upto c L | _ :: L => upto n L end.
Lemma puts_at_app A : forall n B, puts_at n (A ++ B) = puts_at n A ++ puts_at (upto n A) B.
Proof. induction A as [|[] A IH]; intros n' B; simpl; auto. now rewrite IH, app_assoc. Qed.
Lemma upto_app A : forall n B, upto n (A ++ B) = upto (upto n A) B. Proof. induction A as [|[] A IH]; intros; simpl; auto. Qed.
Lemma sends_at (a : list (@action mem)) l : sends a l -> forall n, upto n l = n /\ puts_at n l = map (fun v => (n, v)) (Mon_Spec.puts q l).
Proof.
  unfold Mon_Spec.puts. induction 1 as [|q' v a l S IH|h z a l S IH|q' z v k a l Hz S IH|q' z v k a l Hz S IH]; intros n; simpl; auto; destruct (IH n) as [E1 E2]; try (split; [exact E1|]; rewrite ?E2, ?map_app; auto; destruct (Nat.eqb q' q); reflexivity).
Qed.

(** Whatever is put into the port of a model with one port, by whomever: whenever the clock is about to make a step it has been processed, each
    value in the cycle in which it was put. *)
Theorem C94_every_put (SH : forall l, Permutation.Permutation l (shuffle l)) (test : prog) m t c s s' L P : tame test -> nocancel test -> (forall vs, prompt (handle vs)) ->
  steps (init test m) s -> q < List.length (qs s) -> cur s = Some (t, BProg ref_main) -> traffic t [q] s s' L P -> at_cycle s' c -> (forall e, ~ failed s' t e) ->
  exists n l, kept_up q handle (sent s P q) l /\ L = l ++ [mk_did n (OQGet q) None].
Proof.
  intros TM NT PR R0 EX Hc G AC NF. destruct (C90_one_port shuffle dut delayers q handle SH test m TM NT PR t c s s' L P R0 EX Hc G AC NF) as [_ [n [l [SV HL]]]]. exists n, l. split; auto.
  eapply served_kept; [exact SV|]. eapply traffic_rising; eauto.
Qed.
Lemma rising_app n0 a b : rising n0 (a ++ b) -> rising n0 a.
Proof. intros H x y z E. apply (H x y (z ++ b)). rewrite E, <- app_assoc. reflexivity. Qed.
(** And if processing a value fails then it does so in the cycle in which that value was put, all the values before it having been processed. *)
Theorem C94_fails_at_once (SH : forall l, Permutation.Permutation l (shuffle l)) (test : prog) m t c s s' L P e : tame test -> nocancel test -> (forall vs, prompt (handle vs)) ->
  steps (init test m) s -> q < List.length (qs s) -> cur s = Some (t, BProg ref_main) -> traffic t [q] s s' L P -> at_cycle s' c -> failed s' t e ->
  exists xs n' v rest n l g g' lm, sent s P q = xs ++ (n', v) :: rest /\ kept_up q handle xs l /\ n <= n' /\ performs n' (handle [v]) lm (Exn e) n' /\ L = l ++ mk_did n (OQGet q) g :: mk_did n' (OFlag true) g' :: lm.
Proof.
  intros TM NT PR R0 EX Hc G AC FA. assert (EX' : forall q', In q' (ports q []) -> q' < List.length (qs s)) by (intros q' [<-|[]]; exact EX).
  destruct (track shuffle dut delayers q [] handle SH test m TM NT (nodup1 q) PR t s s' L P R0 EX' Hc G) as [ST _]. assert (R1 : steps (init test m) s') by (eapply steps_trans; [exact R0|exact (traffic_steps shuffle dut delayers q [] t s s' L P G)]).
  assert (NC : forall b, (forall c, b <> BClk c) -> cur s' <> Some (t, b)) by (intros b NB X; rewrite AC in X; injection X as _ X; eapply NB; eauto).
  destruct ST as [X|xss n l got n1 l1 SV LG RE LF Hc' N HL|xss n l got n1 l1 q' f SV Hq RE LF LN WA HL|xss n l got n1 l1 q' c' v SV Hq RE LF Hc' N HL|xss n l got n1 l1 lm p SV LG RE LF PA PP Hc' N HL|xss n l xs n1 l1 lm e' SV LE RE H PF F HL].
  - exfalso. exact (cycle_tdone _ _ _ _ _ _ _ TM R1 AC X).
  - exfalso. eapply NC; [|exact Hc']. discriminate.
  - exfalso. destruct WA as [[w [_ [cbs [mu E]]]]|[r Hc']]; [|eapply NC; [|exact Hc']; discriminate]. assert (Y : state_of s' t = Some Pending) by (unfold state_of, fget; rewrite E; reflexivity). destruct FA as [FA|[FA _]]; congruence.
  - exfalso. eapply NC; [|exact Hc']. discriminate.
  - exfalso. eapply NC; [|exact Hc']. discriminate.
  - assert (e' = e) by (destruct F as [F|[F ->]], FA as [FA|[FA ->]]; congruence). subst e'. destruct xs as [|[n' v] [|]]; try discriminate. destruct (H 0 q eq_refl) as [rest A]. rewrite column_app, column_one in A. cbn [nth_error] in A. rewrite <- app_assoc in A. cbn [app] in A.
    pose proof (proj1 (traffic_rising _ _ _ _ _ G)) as RI. rewrite A in RI. assert (LL : latest (nstep s) (column 0 xss) <= n') by exact (RI _ _ _ eq_refl). apply rising_app in RI.
    rewrite (one_column xss) in SV by exact (served_len _ _ _ _ _ _ SV). destruct (served_kept _ _ _ _ SV RI) as [K ->].
    cbn [combine ports map snd] in RE, PF. inversion RE as [|zs n3 l3 q' c' v' g g' RE' E5 E6 E7]. destruct zs as [|? [|]]; try discriminate. cbn [app] in E5. injection E5 as -> -> ->. inversion RE' as [E8 E9 E10|]; [|destruct xs; discriminate]. subst.
    assert (EM : max (latest (nstep s) (column 0 xss)) n' = n') by lia. rewrite EM in *. exists (column 0 xss), n', v, rest, (latest (nstep s) (column 0 xss)), l, g, g', lm. auto 10.
Qed.

Context (method : mem -> mem * res lval) (path : lval) (ms : list (@mon_model mem)) (gq : option (id * Z)) (z : Z) (pay : lval -> lval).
Notation acts := (deliveries path ms gq). Notation monitor := (Mon_Model.monitor method acts). Notation cycles := (Mon_Spec.cycles acts). Notation phase := (P_Mon.phase method acts).
Context (W : forall v, wanted path ms gq q v = [(limit z, pay v)]).

Lemma results_snoc rs : forall n r, results pay n (rs ++ [r]) = results pay n rs ++ results pay (n + List.length rs) [r].
Proof. induction rs as [|r0 rs IH]; intros n r; cbn [app results List.length]; [rewrite Nat.add_0_r; reflexivity|]. rewrite IH, <- app_assoc. cbn [results]. replace (S n + List.length rs) with (n + S (List.length rs)) by lia. reflexivity. Qed.
Lemma cycles_results n rs L : cycles n rs L -> (forall k, In (Sized q k) L -> limit z = None \/ (Z.of_nat k < z)%Z) -> puts_at 0 L = results pay n rs.
Proof.
  induction 1 as [|rs l r l1 C IH C2]; intros F; auto. rewrite puts_at_app, results_snoc, IH by (intros k Hk; apply F, in_app_iff; auto). f_equal. cbn [results].
  inversion C2 as [E1 E2|e E1 E2|v l0 Hv S0 E1 E2]; subst; auto. cbn [puts_at]. rewrite (proj2 (sends_at _ _ S0 _)). rewrite <- plus_n_Sm.
  assert (C3 : cycles 0 [Ok v] (Called 1 (Ok v) :: l0)) by (apply (cs_one _ _ [] [] (Ok v)); [constructor|simpl; apply cy_val; auto]). apply P_Mon.C61_all_put with (q := q) in C3.
  - replace (Mon_Spec.puts q l0) with (Mon_Spec.puts q (Called 1 (Ok v) :: l0)) by reflexivity. rewrite C3. unfold values. cbn [flat_map]. rewrite app_nil_r. destruct v; try contradiction; cbn [flat_map app]; rewrite W; reflexivity.
  - intros z' v' k Hi Hk. assert (Ez : limit z = Some z') by (unfold values in Hi; cbn [flat_map] in Hi; rewrite app_nil_r in Hi; destruct v; try contradiction; cbn [flat_map app] in Hi; rewrite W in Hi; destruct Hi as [Hi|[]]; congruence).
    destruct Hk as [Hk|Hk]; [discriminate|]. destruct (F k) as [X|X]; [apply in_app_iff; right; now right|congruence|]. unfold limit in Ez. destruct (z =? -1)%Z; congruence.
Qed.
Lemma cycles_upto n rs L : cycles n rs L -> Forall (fun x => fst x <= n + List.length rs) (puts_at 0 L).
Proof.
  induction 1 as [|rs l r l1 C IH C2]; [constructor|]. rewrite puts_at_app, app_length. cbn [List.length]. apply Forall_app. split; [eapply Forall_impl; [|exact IH]; cbn; intros; lia|].
  inversion C2 as [E1 E2|e E1 E2|v l0 Hv S0 E1 E2]; subst; try constructor. cbn [puts_at]. rewrite (proj2 (sends_at _ _ S0 _)). apply Forall_forall. intros x Hx. apply in_map_iff in Hx as [v' [<- _]]. cbn. lia.
Qed.
(** When the monitor is about to put something into [q] or to look how full it is, it delivers a result of this cycle. *)
Lemma phase_deliver test m tm n0 s L o k : steps (init test m) s -> phase test tm n0 s L -> cur s = Some (tm, BProg (Op o k)) -> (exists q' v, o = OQPut q' v) \/ (exists q', o = OQSize q') ->
  exists rs L0 u l, cycles n0 rs L0 /\ nstep s = n0 + S (List.length rs) /\ L = L0 ++ Called (nstep s) (Ok u) :: l /\ (forall n, upto n l = n) /\
    ((exists q', o = OQSize q' /\ exists z w sent todo, acts u = sent ++ AQueue q' z w :: todo /\ sends sent l) \/ exists q' v, o = OQPut q' v).
Proof.
  intros R0 H Hc Ho. destruct H as [rs C NE Hc' N|rs C NE H|rs C NE Hc' N|rs L0 v sent l todo p C NE Hv Ha Hs HL Hc' Hp N|rs L0 v sent l q' z' w n todo C NE Hv Ha Hs Hz HL Hc' N|rs e C NE HE H].
  - exfalso. rewrite Hc' in Hc. rewrite P_Mon.mon_unfold in Hc. injection Hc as <- _. destruct Ho as [[q' [v E]]|[q' E]]; discriminate.
  - exfalso. destruct H as [[f [fu [cbs [mu [NC _]]]]]|[f [r [H1 H2]]]]; [exact (NC _ Hc)|congruence].
  - exfalso. rewrite Hc' in Hc. injection Hc as <- _. destruct Ho as [[q' [v E]]|[q' E]]; discriminate.
  - exists rs, L0, v, l. rewrite N. split; auto. split; auto. split; auto. split; [intros n; apply (sends_at _ _ Hs n)|]. rewrite Hc' in Hc. injection Hc as ->. destruct Hp as [[Hp NT]|Hp].
    + destruct todo as [|[q' w|h z'|q' z' w] todo]; [contradiction| | |]; rewrite P_Mon.mon_unfold in Hp; injection Hp as -> _; [right; eauto|destruct Ho as [[q' [w E]]|[q' E]]; discriminate|]. left. exists q'. split; auto. exists z', w, sent, todo. auto.
    + injection Hp as -> _. destruct Ho as [[q' [w E]]|[q' E]]; discriminate.
  - exists rs, L0, v, (l ++ [Sized q' n]). rewrite N. split; auto. split; auto. split; auto. split; [intros n'; rewrite upto_app, (proj1 (sends_at _ _ Hs n')); reflexivity|]. rewrite Hc' in Hc. injection Hc as <- _. right. eauto.
  - exfalso. destruct H as [H|H]; [congruence|]. destruct (cur_task s tm _ (reach_wf _ _ _ _ _ _ R0) Hc) as [cbs [k0 [w [mu X]]]]. assert (Y : state_of s tm = Some Pending) by (unfold state_of; now rewrite X). destruct H as [H|H]; congruence.
Qed.

Context (SH : forall l, Permutation.Permutation l (shuffle l)) (test : prog) (m : mem) (TM : tame test) (NT : nocancel test) (PR : forall vs, prompt (handle vs)) (tm tr : id) (sm sr : state).
Context (R0 : steps (init test m) sm) (PO : P_Mon.ports_ok acts sm) (Hm : cur sm = Some (tm, BProg monitor)) (LG : log tm sm sr []) (EX : q < List.length (qs sr)).

Lemma flow_traffic s s' Lm Lr P : flow tm tr q s s' Lm Lr P -> traffic tr [q] s s' Lr P.
Proof. induction 1 as [s|s s1 fire Lm Lr P G IH LK PU]; constructor; auto. intros q' [<-|[]]. exact LK. Qed.
Lemma flow_log s' Lm Lr P : flow tm tr q sr s' Lm Lr P -> log tm sm s' Lm.
Proof. remember sr as s eqn:E. induction 1 as [s|s s1 fire Lm Lr P G IH LK PU]; subst; auto. constructor. now apply IH. Qed.
Lemma flow_phase s' Lm Lr P : flow tm tr q sr s' Lm Lr P -> steps (init test m) s' /\ phase test tm (nstep sm) s' Lm /\ q < List.length (qs s').
Proof.
  intros G. pose proof (flow_log _ _ _ _ G) as H. split; [eapply steps_trans; [exact R0|eapply P_Mon.log_steps; exact H]|]. split; [eapply P_Mon.phase_track; eauto|].
  clear H. induction G as [s|s s1 fire Lm Lr P G IH LK PU]; auto. pose proof (P_Mon.len_qs shuffle dut delayers fire s1). specialize (IH LG EX). lia.
Qed.
(** What was put into the port is what the monitor is seen to put, in the cycles of its calls. *)
Lemma flow_puts s' Lm Lr P : flow tm tr q sr s' Lm Lr P -> at_port q P = puts_at 0 Lm.
Proof.
  remember sr as s0 eqn:E. induction 1 as [s|s s1 fire Lm Lr P G IH LK PU]; auto. subst s. rewrite at_port_app, puts_at_app, IH by auto. f_equal. destruct (flow_phase _ _ _ _ G) as [R1 [PH L1]].
  destruct (cur s1) as [[t0 b]|] eqn:Hc.
  - destruct b as [[v|e|o k]|h ev todo sb|c|e f r k|q' f r k| |p]; try (unfold puts, current_op, see; rewrite Hc; cbn [at_port flat_map puts_at]; try reflexivity).
    + destruct (Nat.eqb_spec t0 tm) as [->|NE].
      * destruct o; try reflexivity. assert (L2 : Nat.ltb q0 (List.length (qs s1)) = true \/ q0 <> q) by (destruct (Nat.eq_dec q0 q) as [->|]; [left; now apply Nat.ltb_lt|now right]).
        destruct (Nat.eqb_spec q0 q) as [->|NQ].
        { destruct L2 as [->|X]; [|contradiction]. unfold at_port. cbn [flat_map fst snd puts_at]. rewrite Nat.eqb_refl. cbn [app]. destruct (phase_deliver test m tm _ _ _ _ _ R1 PH Hc) as [rs [L0 [u [l [_ [_ [-> [U _]]]]]]]]; [eauto|]. rewrite upto_app. cbn. now rewrite U. }
        { assert (B := proj2 (Nat.eqb_neq _ _) NQ). cbn [puts_at]. destruct (Nat.ltb q0 (List.length (qs s1))); unfold at_port; cbn [flat_map fst snd]; rewrite ?B; reflexivity. }
      * cbn [puts_at]. destruct (at_port q (puts s1)) as [|x xs] eqn:EP; [unfold puts, current_op in EP; rewrite Hc in EP; exact EP|]. destruct PU as [p X]; [discriminate|]. congruence.
    + destruct (at_port q (puts s1)) as [|x xs] eqn:EP; [unfold puts, current_op in EP; rewrite Hc in EP; exact EP|]. destruct PU as [p X]; [discriminate|]. congruence.
    + destruct (at_port q (puts s1)) as [|x xs] eqn:EP; [unfold puts, current_op in EP; rewrite Hc in EP; exact EP|]. destruct PU as [p' X]; [discriminate|]. congruence.
  - unfold puts, current_op, see. rewrite Hc. reflexivity.
Qed.
Context (Hr : cur sr = Some (tr, BProg ref_main)) (I0 : items sr q = []).
(** The port is empty whenever the monitor looks how full it is. *)
Lemma never_full s' Lm Lr P : flow tm tr q sr s' Lm Lr P -> tdone s' <> Some true -> (forall e, ~ failed s' tr e) -> forall k, In (Sized q k) Lm -> k = 0.
Proof.
  remember sr as s0 eqn:E. induction 1 as [s|s s1 fire Lm Lr P G IH LK PU]; intros TD NF k Hk; [destruct Hk|]. subst s. destruct (flow_phase _ _ _ _ G) as [R1 [PH L1]].
  assert (NF1 : forall e, ~ failed s1 tr e) by (intros e F; apply (NF e); apply (MainEnv_Proofs.failed_later shuffle dut delayers e s1); auto; [eapply reach_wf; eauto|apply steps_step, steps_refl]).
  assert (TD1 : tdone s1 <> Some true) by (intros X; apply TD; exact (tdone_step shuffle dut delayers test m NT fire s1 R1 X)).
  apply in_app_iff in Hk as [Hk|Hk]; [eapply IH; eauto|]. unfold see in Hk. destruct (cur s1) as [[t0 [[v|e|o c]|h ev todo sb|c|e f r c|q' f r c| |p]]|] eqn:Hc; try contradiction. destruct (Nat.eqb_spec t0 tm) as [->|]; [|contradiction].
  destruct o; try (destruct Hk as [Hk|[]]; discriminate); try contradiction. destruct Hk as [Hk|[]]. injection Hk as -> <-.
  destruct (phase_deliver test m tm _ _ _ _ _ R1 PH Hc) as [rs [L0 [u [l [C [N [HL [U [[q' [Eq [z' [w [a [b [Ha Hs]]]]]]]|[q' [v X]]]]]]]]]]]; [eauto| |discriminate]. injection Eq as <-.
  assert (RM := C90_room shuffle dut delayers q handle SH test m TM NT PR tr sr s1 Lr P (steps_trans _ _ _ _ _ _ R0 (P_Mon.log_steps _ _ _ _ _ _ _ LG)) EX Hr (flow_traffic _ _ _ _ _ G) TD1 NF1).
  rewrite I0 in RM. assert (X0 : put_in (nstep s1) q P = 0); [|rewrite X0 in RM; destruct (Nat.eqb (nstep s1) (nstep sr)); simpl in RM; lia].
  unfold put_in. rewrite (flow_puts _ _ _ _ G), HL, puts_at_app. cbn [puts_at]. rewrite (proj2 (sends_at _ _ Hs _)).
  assert (PL : Mon_Spec.puts q l = []).
  { assert (O := P_Mon.sends_offers q _ _ Hs). assert (WW := P_Mon.wants_deliveries path ms gq q u). rewrite Ha, flat_map_app, W in WW. cbn [flat_map P_Mon.wants_of] in WW. rewrite Nat.eqb_refl in WW. destruct (flat_map (P_Mon.wants_of q) a) as [|x [|y xs]]; cbn in WW; try discriminate.
    assert (E1 : filter (about q) l = []) by (inversion O; reflexivity). clear - E1. induction l as [|y l IH]; auto. cbn [filter] in E1. destruct y as [n r|q' v|h zz|q' n]; cbn [about] in E1; unfold Mon_Spec.puts; cbn [flat_map]; try (now apply IH); destruct (Nat.eqb q' q); try discriminate; now apply IH. }
  rewrite PL. cbn [map]. rewrite app_nil_r. assert (F := cycles_upto _ _ _ C). rewrite N. clear - F. induction F as [|x xs Hx F IH]; auto. cbn [filter]. assert (B : Nat.eqb (fst x) (nstep sm + S (List.length rs)) = false) by (apply Nat.eqb_neq; lia). rewrite B. exact IH.
Qed.
(** Whenever the clock is about to make a step: the monitor has returned once in every cycle, and every value it returned has been processed by
    the model in the cycle in which it was returned; the port is empty. *)
Theorem C94_same_cycle c s' Lm Lr P : (z = -1 \/ 1 <= z)%Z -> flow tm tr q sr s' Lm Lr P -> at_cycle s' c -> (forall e, ~ In (Exn e) (outcomes Lm)) -> (forall e, ~ failed s' tr e) ->
  calls Lm = seq (S (nstep sm)) (nstep s' - nstep sm) /\ items s' q = [] /\
  exists n l, kept_up q handle (results pay (nstep sm) (outcomes Lm)) l /\ Lr = l ++ [mk_did n (OQGet q) None].
Proof.
  intros HZ G AC NX NF. destruct (flow_phase _ _ _ _ G) as [R1 _]. assert (TD := cycle_tdone shuffle dut delayers test m s' c TM R1 AC).
  assert (Rr := steps_trans _ _ _ _ _ _ R0 (P_Mon.log_steps _ _ _ _ _ _ _ LG)).
  destruct (P_Mon.C61_every_cycle shuffle dut delayers method acts test m tm c sm s' Lm NT R0 PO Hm (flow_log _ _ _ _ G) TD (ex_intro _ false AC) NX) as [CA CY]. split; auto.
  destruct (C90_one_port shuffle dut delayers q handle SH test m TM NT PR tr c sr s' Lr P Rr EX Hr (flow_traffic _ _ _ _ _ G) AC NF) as [IE [n [l [SV HL]]]]. split; auto. exists n, l. split; auto.
  destruct (served_kept _ _ _ _ SV) as [K _]; [apply (traffic_rising _ _ _ _ _ (flow_traffic _ _ _ _ _ G))|]. unfold sent in K. rewrite I0, (flow_puts _ _ _ _ G) in K. cbn [map app] in K.
  rewrite (cycles_results _ _ _ CY) in K; auto. intros k Hk. rewrite (never_full _ _ _ _ G TD NF k Hk). unfold limit. destruct HZ as [->|HZ]; [now left|right; lia].
Qed.
End Mon.
Print Assumptions C94_same_cycle.
Print Assumptions C94_every_put.
Print Assumptions C94_fails_at_once.

(** The monitor of C61 (number of the cycle in odd cycles) with a model that has one port for one item; processing 5 fails. *)
Definition model2 : @mon_model nat := mk_mm [] (Some (0, 1%Z)) [] None.
Definition acts2 := deliveries (VInt 7) [model2] None.
Definition no_five (vs : list lval) : @prog nat := match vs with [VInt a] => if Z.eqb a 5 then Raise AssertionError else Op (OMark 1) (fun _ => Ret VNone) | _ => Raise TypeError end.
Definition t_flow : @prog nat := Do OStartClock (Do OQNew (Do (OCreate (monitor P_Mon.method1 acts2)) (Do (OCreate (ref_main 0 [] no_five)) (bindr (clock_cycles 8) (fun _ => Ret VNone))))).
Definition M2 (n : nat) : @state nat := run ids Nat.succ (fun c => c) n (init t_flow 0).
Definition watch2 : Type := (@state nat * (list (@seen nat) * list (@did nat) * list (id * stamped)))%type.
Fixpoint runf (tm tr n : nat) (x : watch2) : watch2 := match n with 0 => x | S n' => let s := fst x in runf tm tr n' (step ids Nat.succ (fun c => c) [] s, (fst (fst (snd x)) ++ see tm s, snd (fst (snd x)) ++ does tr s, snd (snd x) ++ puts s)) end.
Fixpoint alone2 (tm tr n : nat) (s : @state nat) : bool :=
  match n with
  | 0 => true
  | S n' => (negb (looksb s 0) || match cur s with Some (t', _) => Nat.eqb t' tr | None => false end) && (match at_port 0 (puts s) with [] => true | _ => match cur s with Some (t', BProg _) => Nat.eqb t' tm | _ => false end end) &&
            alone2 tm tr n' (step ids Nat.succ (fun c => c) [] s)
  end.
Lemma runf_flow tm tr n : forall s0 s Lm Lr P, flow ids Nat.succ (fun c => c) tm tr 0 s0 s Lm Lr P -> alone2 tm tr n s = true ->
  let x := runf tm tr n (s, (Lm, Lr, P)) in flow ids Nat.succ (fun c => c) tm tr 0 s0 (fst x) (fst (fst (snd x))) (snd (fst (snd x))) (snd (snd x)).
Proof.
  induction n as [|n IH]; intros s0 s Lm Lr P H A; auto. cbn [alone2] in A. apply andb_true_iff in A as [A B]. apply andb_true_iff in A as [A C]. cbn [runf fst snd]. apply IH; auto. apply fl_step; auto.
  - intros LB. rewrite LB in A. cbn in A. destruct (cur s) as [[t' b]|]; [|discriminate]. apply Nat.eqb_eq in A. subst. eauto.
  - intros NE. destruct (at_port 0 (puts s)) as [|x xs]; [contradiction|]. destruct (cur s) as [[t' [p| | | | | |]]|]; try discriminate. apply Nat.eqb_eq in C. subst. eauto.
Qed.
Definition tame_acts (l : list (@action nat)) : Prop := Forall (fun a => match a with AHook h _ => calm h /\ tame h | _ => True end) l.
CoFixpoint tame_mon (method : nat -> nat * res lval) acts todo (Ha : forall v, tame_acts (acts v)) (Ht : tame_acts todo) : tame (mon method acts todo).
Proof.
  rewrite P_Mon.mon_unfold. destruct todo as [|[q v|h z|q z v] rest].
  - apply all_op; [exact Logic.I|intros p X; inversion X|]. intros [v|e]; simpl; [|constructor]. apply all_op; [exact Logic.I|intros p X; inversion X|]. intros [w|e]; simpl; [|constructor].
    destruct w; apply tame_mon; auto; constructor.
  - apply all_op; [exact Logic.I|intros p X; inversion X|]. intros [w|e]; simpl; [|constructor]. apply all_op; [exact Logic.I|intros p X; inversion X|]. intros r. apply tame_mon; auto. exact (Forall_inv_tail Ht).
  - apply all_op; [exact (proj1 (Forall_inv Ht))|intros p X; inversion X; subst; exact (proj2 (Forall_inv Ht))|]. intros r. apply tame_mon; auto. exact (Forall_inv_tail Ht).
  - apply all_op; [exact Logic.I|intros p X; inversion X|]. intros [w|e]; simpl; [|constructor]. destruct w as [|b|n|n|l]; try constructor. destruct (z <=? n)%Z; [apply tame_mon; auto; exact (Forall_inv_tail Ht)|].
    apply all_op; [exact Logic.I|intros p X; inversion X|]. intros [w|e]; simpl; [|constructor]. apply all_op; [exact Logic.I|intros p X; inversion X|]. intros r. apply tame_mon; auto. exact (Forall_inv_tail Ht).
Defined.
Lemma no_five_ok vs : prompt (no_five vs) /\ tame (no_five vs) /\ nocancel (no_five vs).
Proof.
  unfold no_five. destruct vs as [|[| |a| |] [|]]; try (repeat split; constructor; discriminate). destruct (Z.eqb a 5); [repeat split; constructor; discriminate|]. split; [constructor; auto; constructor|split].
  - apply all_op; [exact Logic.I|intros p X; inversion X|constructor].
  - apply nc_op; [exact Logic.I|intros p X; inversion X|constructor].
Qed.
Lemma t_flow_ok : tame t_flow /\ nocancel t_flow.
Proof.
  assert (A2 : forall v, tame_acts (acts2 v) /\ P_Mon.calm_acts (acts2 v)) by (intros v; split; repeat constructor).
  assert (X : tame (monitor P_Mon.method1 acts2)) by (apply tame_mon; [apply A2|constructor]). assert (X' : nocancel (monitor P_Mon.method1 acts2)) by (apply P_Mon.nocancel_mon; [intros c; simpl; destruct (Nat.odd c); discriminate|apply A2|constructor]).
  assert (Y : tame (ref_main 0 [] no_five)) by (apply tame_serve; [apply no_five_ok|exact Logic.I]). assert (Y' : nocancel (ref_main 0 [] no_five)) by (apply nocancel_serve; [apply no_five_ok|exact Logic.I]). split; unfold t_flow, Do.
  - repeat first [exact X | exact Y | apply P_Comp.tame_cycles | apply P_Comp.tame_bindr | progress intros | match goal with H : part _ _ |- _ => inversion H; subst; clear H end | apply all_ret | apply all_op; [exact Logic.I| |]].
  - repeat first [exact X' | exact Y' | apply nocancel_cycles | apply nocancel_bindr | progress intros | match goal with H : part _ _ |- _ => inversion H; subst; clear H end | apply nc_ret | apply nc_op; [exact Logic.I| |]].
Qed.
Definition R2 := P_Mon.runl 2 2 (M2 13, []).
Definition F2 (n : nat) : watch2 := runf 2 3 n (fst R2, ([], [], [])).
Example C94_nonvacuous : tame t_flow /\ nocancel t_flow /\ (forall vs, prompt (no_five vs)) /\ (forall v, wanted (VInt 7) [model2] None 0 v = [(limit 1, v)]) /\
  exists sm sr s1 s2 L1 R1 P1 L2 R2 P2, steps ids Nat.succ (fun c => c) (init t_flow 0) sm /\ P_Mon.ports_ok acts2 sm /\ cur sm = Some (2, BProg (monitor P_Mon.method1 acts2)) /\ log ids Nat.succ (fun c => c) 2 sm sr [] /\ 0 < List.length (qs sr) /\
  cur sr = Some (3, BProg (ref_main 0 [] no_five)) /\ items sr 0 = [] /\ flow ids Nat.succ (fun c => c) 2 3 0 sr s1 L1 R1 P1 /\ at_cycle s1 1 /\ nstep s1 = 4 /\ state_of s1 3 = Some Pending /\
  results (fun v => v) 0 (outcomes L1) = [(1, VInt 1); (3, VInt 3)] /\ marks s1 = [(3, 1, 1); (3, 1, 3)] /\
  flow ids Nat.succ (fun c => c) 2 3 0 sr s2 L2 R2 P2 /\ at_cycle s2 1 /\ nstep s2 = 5 /\ failed s2 3 AssertionError /\ sent sr P2 0 = [(1, VInt 1); (3, VInt 3); (5, VInt 5)].
Proof.
  split; [apply t_flow_ok|]. split; [apply t_flow_ok|]. split; [intros vs; apply no_five_ok|]. split; [intros v; reflexivity|].
  exists (M2 13), (fst R2), (fst (F2 94)), (fst (F2 123)), (fst (fst (snd (F2 94)))), (snd (fst (snd (F2 94)))), (snd (snd (F2 94))), (fst (fst (snd (F2 123)))), (snd (fst (snd (F2 123)))), (snd (snd (F2 123))).
  split; [apply run_steps|]. split; [intros v a q Ha Hq; replace (List.length (qs (M2 13))) with 1 by (vm_compute; reflexivity); unfold acts2, deliveries in Ha; simpl in Ha; destruct Ha as [<-|[]]; simpl in Hq; intuition lia|].
  split; [vm_compute; reflexivity|]. split; [assert (E : snd R2 = []) by (vm_compute; reflexivity); rewrite <- E; apply P_Mon.runl_log; constructor|]. split; [replace (List.length (qs (fst R2))) with 1 by (vm_compute; reflexivity); lia|].
  split; [vm_compute; reflexivity|]. split; [vm_compute; reflexivity|]. split; [apply (runf_flow 2 3 94 (fst R2) (fst R2) [] [] []); [constructor|vm_compute; reflexivity]|].
  split; [vm_compute; reflexivity|]. split; [vm_compute; reflexivity|]. split; [vm_compute; reflexivity|]. split; [vm_compute; reflexivity|]. split; [vm_compute; reflexivity|].
  split; [apply (runf_flow 2 3 123 (fst R2) (fst R2) [] [] []); [constructor|vm_compute; reflexivity]|]. split; [vm_compute; reflexivity|]. split; [vm_compute; reflexivity|]. split; [left; vm_compute; reflexivity|vm_compute; reflexivity].
Qed.
