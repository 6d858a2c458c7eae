(** C61: monitors. *)
From Coq Require Import List Bool Arith ZArith Lia.
From Verif Require Import Py Prio_Model Loop_Model Loop_Spec Loop2_Spec LoopProg_Model Loop_Proofs Loop2_Proofs Loop3_Proofs Loop4_Proofs Loop5_Proofs Loop6_Proofs Loop7_Proofs Loop9_Proofs Loop10_Proofs Loop13_Proofs LoopRun_Model LoopRun_Proofs Mon_Model Mon_Spec P_Loop P_Loop2.
Import ListNotations.
Open Scope nat_scope.

Section Thms.
Context {mem : Type} (shuffle : list id -> list id) (dut delayers : mem -> mem).
Notation steps := (steps shuffle dut delayers). Notation step := (step shuffle dut delayers). Notation prog := (@prog mem). Notation state := (@state mem). Notation body := (@body mem).
Notation log := (log shuffle dut delayers).
Context (method : mem -> mem * res lval) (acts : lval -> list (@action mem)).
Notation mon := (mon method acts). Notation monitor := (monitor method acts). Notation cycles := (cycles acts). Notation cycle := (cycle acts).
Implicit Types (s : state).

Definition called (r : res lval) : prog := match r with Ok VNone => mon [] | Ok v => mon (acts v) | Exn e => Raise e end.
Definition waited (r : res lval) : prog := match r with Ok _ => Op (OMem method) called | Exn e => Raise e end.
Definition flagged (todo : list (@action mem)) (r : res lval) : prog := match r with Ok _ => Op (OFlag true) (fun _ => mon todo) | Exn e => Raise e end.
Lemma mon_unfold todo : mon todo =
  match todo with
  | [] => Op (OEvWait 0) waited
  | APut q v :: rest => Op (OQPut q v) (flagged rest)
  | AHook h z :: rest => Op (OPrio h z false) (fun _ => mon rest)
  | AQueue q z v :: rest => Op (OQSize q) (fun r => match r with Ok (VInt n) => if (z <=? n)%Z then mon rest else Op (OQPut q v) (flagged rest) | Ok _ => Raise TypeError | Exn e => Raise e end)
  end.
Proof.
  assert (U : forall q : prog, q = match q with Ret v => Ret v | Raise e => Raise e | Op o c => Op o c end) by (intros []; reflexivity).
  rewrite (U (mon todo)). destruct todo as [|[q v|h z|q z v] rest]; reflexivity.
Qed.
Lemma log_steps t s s' l : log t s s' l -> steps s s'.
Proof. induction 1; [apply steps_refl|]. now apply steps_step. Qed.
Lemma sends_app (a b : list (@action mem)) l1 l2 : sends a l1 -> sends b l2 -> sends (a ++ b) (l1 ++ l2).
Proof. induction 1; intros H2; simpl; auto; [apply sd_put|apply sd_hook|apply sd_full|apply sd_queue]; auto. Qed.

Definition port_of (a : @action mem) : list id := match a with APut q _ => [q] | AHook _ _ => [] | AQueue q _ _ => [q] end.
Definition ports_ok s : Prop := forall v a q, In a (acts v) -> In q (port_of a) -> q < List.length (qs s).
(** The phases of a monitor task that started to wait when [n0] steps had been made. *)
Inductive phase (test : prog) (t : id) (n0 : nat) (s : state) (L : list (@seen mem)) : Prop :=
| ph_idle rs : cycles n0 rs L -> (forall r, In r rs -> forall e, r <> Exn e) -> cur s = Some (t, BProg (mon [])) -> nstep s = n0 + List.length rs -> phase test t n0 s L
| ph_wait rs : cycles n0 rs L -> (forall r, In r rs -> forall e, r <> Exn e) -> InWait (n0 + List.length rs) t (fun r => BProg (waited r)) s \/ Leaving (n0 + List.length rs) t (fun r => BProg (waited r)) s -> phase test t n0 s L
| ph_call rs : cycles n0 rs L -> (forall r, In r rs -> forall e, r <> Exn e) -> cur s = Some (t, BProg (Op (OMem method) called)) -> nstep s = n0 + S (List.length rs) -> phase test t n0 s L
| ph_send rs L0 v sent l todo p : cycles n0 rs L0 -> (forall r, In r rs -> forall e, r <> Exn e) -> v <> VNone -> acts v = sent ++ todo -> sends sent l -> L = L0 ++ Called (n0 + S (List.length rs)) (Ok v) :: l ->
    cur s = Some (t, BProg p) -> (p = mon todo /\ todo <> [] \/ p = Op (OFlag true) (fun _ => mon todo)) -> nstep s = n0 + S (List.length rs) -> phase test t n0 s L
| ph_size rs L0 v sent l q z w n todo : cycles n0 rs L0 -> (forall r, In r rs -> forall e, r <> Exn e) -> v <> VNone -> acts v = sent ++ AQueue q z w :: todo -> sends sent l -> (Z.of_nat n < z)%Z ->
    L = L0 ++ Called (n0 + S (List.length rs)) (Ok v) :: l ++ [Sized q n] -> cur s = Some (t, BProg (Op (OQPut q w) (flagged todo))) -> nstep s = n0 + S (List.length rs) -> phase test t n0 s L
| ph_dead rs e : cycles n0 rs L -> (forall r, In r (removelast rs) -> forall e, r <> Exn e) -> (last rs (Ok VNone) = Exn e \/ (forall r, In r rs -> forall e, r <> Exn e) /\ e = CancelledError /\ (nocancel test -> tdone s = Some true)) ->
    (cur s = Some (t, BProg (Raise e)) \/ state_of s t = Some Canc \/ state_of s t = Some (Finished (Exn e))) -> phase test t n0 s L.

Lemma lval_none v : v = VNone \/ v <> VNone.
Proof. destruct v; (now left) || (right; discriminate). Qed.
Lemma see_other t s : (forall b, cur s <> Some (t, b)) -> see t s = [].
Proof. intros H. unfold see. destruct (cur s) as [[t0 [[| |o k]| | | | | | ]]|]; auto. destruct (Nat.eqb_spec t0 t) as [->|]; auto. exfalso. exact (H _ eq_refl). Qed.
Lemma len_put_nth {A} n (a : A) l : List.length (put_nth n a l) = List.length l.
Proof. revert n. induction l as [|x l IH]; intros [|n]; simpl; auto. Qed.
Lemma len_qs fire s : List.length (qs s) <= List.length (qs (step fire s)).
Proof.
  assert (G : forall q, List.length (qget s q) = List.length (qs s)) by (intros q; unfold qget; destruct (nth_error (qs s) q) as [qu|]; auto; destruct (q_items qu); apply len_put_nth).
  assert (O : forall o, List.length (qs s) <= List.length (qop s o)).
  { intros o. unfold qop. destruct o; auto; try (rewrite app_length; lia); [|rewrite G; auto]. destruct (nth_error (qs s) q); auto. rewrite len_put_nth. auto. }
  rewrite step_qs. unfold qafter. destruct (cur s) as [[t b]|]; auto. destruct b as [[v|e|o kk]|[v|e|o kk] ev todo sb|c|e f r kk|q f [v|e] kk|test|[v|e|o kk]]; auto.
  - rewrite G. auto.
  - unfold qexn. destruct (nth_error (qs s) q) as [qu|]; auto. destruct (q_items qu), (fget (settle s f Canc) f) as [[[| |] ? ?]|]; rewrite ?len_put_nth; auto.
Qed.
Lemma ports_step fire s : ports_ok s -> ports_ok (step fire s).
Proof. intros H v a q A B. pose proof (len_qs fire s). pose proof (H v a q A B). lia. Qed.
Lemma step_prog fire s t o k : cur s = Some (t, BProg (Op o k)) -> step fire s = exec_op s t o (fun r => BProg (k r)).
Proof. intros H. apply (step_op shuffle dut delayers BProg); auto. now left. Qed.
Lemma nstep_prog fire s t p : cur s = Some (t, BProg p) -> nstep (step fire s) = nstep s.
Proof. intros H. rewrite nstep_step, H. reflexivity. Qed.
(** A delivery is done, [todo] is left. *)
Lemma sent_next test t n0 s' rs L0 v sent l todo L : cycles n0 rs L0 -> (forall r, In r rs -> forall e, r <> Exn e) -> v <> VNone -> acts v = sent ++ todo -> sends sent l -> L = L0 ++ Called (n0 + S (List.length rs)) (Ok v) :: l ->
  cur s' = Some (t, BProg (mon todo)) -> nstep s' = n0 + S (List.length rs) -> phase test t n0 s' L.
Proof.
  intros C NE Hv Ha Hs -> Hc N. destruct todo as [|a todo].
  - apply (ph_idle test t n0 s' _ (rs ++ [Ok v])); auto.
    + apply cs_one; auto. apply cy_val; auto. rewrite Ha, app_nil_r. exact Hs.
    + intros r Hr e. apply in_app_iff in Hr as [Hr|[<-|[]]]; [now apply NE|discriminate].
    + rewrite app_length. simpl. lia.
  - eapply (ph_send test t n0 s' _ rs L0 v sent l (a :: todo)); eauto. left. split; auto. discriminate.
Qed.
Lemma phase_step test m t n0 fire s L : steps (init test m) s -> ports_ok s -> phase test t n0 s L -> phase test t n0 (step fire s) (L ++ see t s).
Proof.
  intros R0 PO H. pose proof (reach_all _ _ _ _ _ _ R0) as A. pose proof (v_wf _ (proj1 A)) as WF. assert (R1 : steps (init test m) (step fire s)) by (now apply steps_step).
  assert (TD : nocancel test -> tdone s = Some true -> tdone (step fire s) = Some true).
  { intros NT T. destruct (reach_nc _ _ _ _ _ _ NT R0) as [_ [_ [_ [O _]]]]. exact (step_tdone shuffle dut delayers test fire s O T). }
  destruct H as [rs C NE Hc N|rs C NE H|rs C NE Hc N|rs L0 v sent l todo p C NE Hv Ha Hs HL Hc Hp N|rs L0 v sent l q z w n todo C NE Hv Ha Hs Hz HL Hc N|rs e C NE HE H].
  - rewrite mon_unfold in Hc. assert (S0 : see t s = []) by (unfold see; rewrite Hc; now destruct (Nat.eqb t t)). rewrite S0, app_nil_r.
    apply (ph_wait test t n0 _ _ rs); auto. left. rewrite <- N. rewrite (step_prog fire s t _ _ Hc). destruct (cur_live _ (proj1 WF) t _ Hc) as [cbs [k [mu E]]]. destruct (v_zero _ (proj1 A)) as [ws Z]. eapply wait_enter; eauto.
  - destruct H as [H|H].
    + rewrite see_other by (destruct H as [f [fu [cbs [mu [H _]]]]]; exact H). rewrite app_nil_r. apply (ph_wait test t n0 _ _ rs); auto. now apply inwait_step.
    + pose proof (leaving_step shuffle dut delayers fire _ _ _ _ H) as HL. destruct H as [f [r [Hc Hr]]]. assert (S0 : see t s = []) by (unfold see; now rewrite Hc). rewrite S0, app_nil_r. destruct HL as [[Hc' N]|Hc'].
      * apply (ph_call test t n0 _ _ rs); auto. rewrite N. lia.
      * cbn [waited CE] in Hc'. apply (ph_dead test t n0 _ _ rs CancelledError); auto.
        -- intros r0 Hr0. apply NE. destruct rs using rev_ind; auto. rewrite removelast_last in Hr0. apply in_app_iff. now left.
        -- right. split; auto. split; auto. intros NT. destruct (reach_nc _ _ _ _ _ _ NT R1) as [_ [_ [_ [_ [X|X]]]]]; auto. exfalso. pose proof (n_cur _ X _ _ Hc') as Y. inversion Y; congruence.
  - assert (S0 : see t s = [Called (nstep s) (snd (method (mm s)))]) by (unfold see; rewrite Hc, Nat.eqb_refl; reflexivity). rewrite S0, N.
    assert (Hc' : cur (step fire s) = Some (t, BProg (called (snd (method (mm s)))))) by (rewrite (step_prog fire s t _ _ Hc); cbn [exec_op]; destruct (method (mm s)); reflexivity).
    pose proof (nstep_prog fire s t _ Hc) as N'. destruct (snd (method (mm s))) as [v|e]; cbn [called] in Hc'.
    + destruct (lval_none v) as [->|Hv].
      * apply (ph_idle test t n0 _ _ (rs ++ [Ok VNone])); auto; [apply cs_one; auto; constructor|intros r Hr e; apply in_app_iff in Hr as [Hr|[<-|[]]]; [now apply NE|discriminate]|rewrite app_length; simpl; lia].
      * assert (Hc2 : cur (step fire s) = Some (t, BProg (mon (acts v)))) by (destruct v; auto; congruence). eapply (sent_next test t n0 _ rs L v [] [] (acts v)); eauto; [constructor|lia].
    + apply (ph_dead test t n0 _ _ (rs ++ [Exn e]) e); auto; [apply cs_one; auto; constructor|rewrite removelast_last; auto|left; now rewrite last_last].
  - assert (POa : forall a, In a todo -> forall q, In q (port_of a) -> exists qu, nth_error (qs s) q = Some qu).
    { intros a Hin q Hq. destruct (nth_error (qs s) q) eqn:E; eauto. apply nth_error_None in E. assert (X : q < List.length (qs s)); [|lia]. apply (PO v a q); auto. rewrite Ha. apply in_app_iff. now right. }
    pose proof (nstep_prog fire s t _ Hc) as N'. destruct Hp as [[-> Hn]| ->].
    + rewrite mon_unfold in Hc. destruct todo as [|[q w|h z|q z w] todo]; [congruence| | |].
      * destruct (POa _ (or_introl eq_refl) q (or_introl eq_refl)) as [qu Eq]. assert (S0 : see t s = [Put q w]) by (unfold see; rewrite Hc, Nat.eqb_refl; reflexivity). rewrite S0.
        assert (Hc' : cur (step fire s) = Some (t, BProg (Op (OFlag true) (fun _ => mon todo)))) by (rewrite (step_prog fire s t _ _ Hc); cbn [exec_op]; rewrite Eq; reflexivity).
        apply (ph_send test t n0 _ _ rs L0 v (sent ++ [APut q w]) (l ++ [Put q w]) todo (Op (OFlag true) (fun _ => mon todo))); auto; [now rewrite <- app_assoc|apply sends_app; auto; repeat constructor|rewrite HL, <- app_assoc; reflexivity|lia].
      * assert (S0 : see t s = [Hooked h z]) by (unfold see; rewrite Hc, Nat.eqb_refl; reflexivity). rewrite S0.
        assert (Hc' : cur (step fire s) = Some (t, BProg (mon todo))) by (rewrite (step_prog fire s t _ _ Hc); reflexivity).
        eapply (sent_next test t n0 _ rs L0 v (sent ++ [AHook h z]) (l ++ [Hooked h z]) todo); eauto; [now rewrite <- app_assoc|apply sends_app; auto; repeat constructor|rewrite HL, <- app_assoc; reflexivity|lia].
      * destruct (POa _ (or_introl eq_refl) q (or_introl eq_refl)) as [qu Eq]. assert (S0 : see t s = [Sized q (List.length (q_items qu))]) by (unfold see; rewrite Hc, Nat.eqb_refl; unfold items; now rewrite Eq). rewrite S0.
        assert (Hc' : cur (step fire s) = Some (t, BProg (if (z <=? Z.of_nat (List.length (q_items qu)))%Z then mon todo else Op (OQPut q w) (flagged todo)))) by (rewrite (step_prog fire s t _ _ Hc); cbn [exec_op]; rewrite Eq; reflexivity).
        destruct (Z.leb_spec z (Z.of_nat (List.length (q_items qu)))).
        -- eapply (sent_next test t n0 _ rs L0 v (sent ++ [AQueue q z w]) (l ++ [Sized q (List.length (q_items qu))]) todo); eauto; [now rewrite <- app_assoc|apply sends_app; auto; apply sd_full; auto; constructor|rewrite HL, <- app_assoc; reflexivity|lia].
        -- eapply (ph_size test t n0 _ _ rs L0 v sent l q z w (List.length (q_items qu)) todo); eauto; [rewrite HL, <- app_assoc; reflexivity|lia].
    + assert (S0 : see t s = []) by (unfold see; rewrite Hc; now destruct (Nat.eqb t t)). rewrite S0, app_nil_r. eapply (sent_next test t n0 _ rs L0 v sent l todo); eauto; [rewrite (step_prog fire s t _ _ Hc); reflexivity|lia].
  - assert (POq : exists qu, nth_error (qs s) q = Some qu).
    { destruct (nth_error (qs s) q) eqn:E; eauto. apply nth_error_None in E. assert (X : q < List.length (qs s)); [|lia]. apply (PO v (AQueue q z w) q); [|now left]. rewrite Ha. apply in_app_iff. right. now left. }
    destruct POq as [qu Eq]. pose proof (nstep_prog fire s t _ Hc) as N'. assert (S0 : see t s = [Put q w]) by (unfold see; rewrite Hc, Nat.eqb_refl; reflexivity). rewrite S0.
    assert (Hc' : cur (step fire s) = Some (t, BProg (Op (OFlag true) (fun _ => mon todo)))) by (rewrite (step_prog fire s t _ _ Hc); cbn [exec_op]; rewrite Eq; reflexivity).
    apply (ph_send test t n0 _ _ rs L0 v (sent ++ [AQueue q z w]) (l ++ [Sized q n; Put q w]) todo (Op (OFlag true) (fun _ => mon todo))); auto; [now rewrite <- app_assoc|apply sends_app; auto; apply sd_queue; auto; constructor| |lia].
    rewrite HL. rewrite <- !app_assoc. simpl. rewrite <- app_assoc. reflexivity.
  - assert (S0 : see t s = []).
    { destruct H as [H|H]; [unfold see; now rewrite H|]. apply see_other. intros b Hc. destruct (cur_task s t b WF Hc) as [cbs [k [w [mu X]]]]. unfold state_of in H. rewrite X in H. simpl in H. destruct H; discriminate. }
    rewrite S0, app_nil_r. apply (ph_dead test t n0 _ _ rs e); auto; [destruct HE as [HE|[HE1 [HE2 HE3]]]; [now left|right; auto]|].
    right. destruct H as [H|[H|H]].
    + destruct (cur_task s t _ WF H) as [cbs [k [w [mu X]]]]. unfold Loop_Model.step. rewrite H. cbn [exec_body]. unfold finish, conclude. rewrite X. cbn [pending f_st f_kind f_cbs mkt].
      unfold state_of, fget. cbn [futs set_cur push set_ready fput set_futs]. rewrite (put_nth_get _ _ _ _ t X), Nat.eqb_refl. simpl. destruct e; auto.
    + left. apply (state_of_done shuffle dut delayers s); auto; [apply steps_step, steps_refl|discriminate].
    + right. apply (state_of_done shuffle dut delayers s); auto; [apply steps_step, steps_refl|discriminate].
Qed.
Lemma phase_track test m t s s' L : steps (init test m) s -> ports_ok s -> cur s = Some (t, BProg monitor) -> log t s s' L -> phase test t (nstep s) s' L.
Proof.
  intros R0 PO Hc G. assert (X : phase test t (nstep s) s' L /\ ports_ok s'); [|apply X]. induction G as [s|s s1 fire l G IH].
  - split; auto. apply (ph_idle test t _ s [] []); [constructor|intros r []|exact Hc|simpl; lia].
  - destruct (IH R0 PO Hc) as [A B]. split; [|now apply ports_step]. eapply phase_step; eauto. eapply steps_trans; [exact R0|]. eapply log_steps; eauto.
Qed.

Lemma sends_some (a : list (@action mem)) : exists l, sends a l.
Proof.
  induction a as [|[q v|h z|q z v] a [l IH]]; [exists []; constructor|eexists; apply sd_put; eauto|eexists; apply sd_hook; eauto|].
  exists (Sized q (Z.to_nat z) :: l). apply sd_full; auto. lia.
Qed.
Lemma inwait_spec test m n0 t kb s : steps (init test m) s -> InWait n0 t kb s -> inside_wait s t 0 /\ ((n0 <= nstep s <= S n0) \/ (nocancel test -> tdone s = Some true)).
Proof.
  intros R0 [f [fu [cbs [mu [Hc [E [Ef [Kf Ph]]]]]]]]. split.
  - left. exists f, fu. split; [eexists; split; [unfold tget, fget; rewrite E; reflexivity|reflexivity]|]. auto.
  - destruct Ph as [[_ N]|[[_ [N _]]|P]]; [left; lia|left; lia|right]. intros NT. apply (canc_tdone shuffle dut delayers test m s f); auto. unfold state_of, fget. now rewrite Ef, <- P.
Qed.

(** A task that starts to run [__monitor_forever] of a monitor whose method does not wait, when [nstep s] steps have been made, the
    ports of its models being queues that exist.  Whatever else goes on, what has been seen of it in a later state [s'] is: for each
    of the cycles [nstep s + 1], [nstep s + 2], ... up to now one call of the method in this cycle and, if it returned a value, all
    the deliveries of this value in order; of the last of these cycles perhaps only a part so far, and then the task is running.
    Otherwise it waits for the next clock event, or it has stopped: because the method raised an exception, or because it
    was cancelled (without cancellation in the test: after the end of the test). *)
Theorem C61_monitor (test : prog) m t s s' L : steps (init test m) s -> ports_ok s -> cur s = Some (t, BProg monitor) -> log t s s' L ->
  exists rs L', cycles (nstep s) rs (L ++ L') /\
    ((exists p, cur s' = Some (t, BProg p) /\ nstep s + List.length rs <= nstep s' <= nstep s + S (List.length rs)) \/
     (L' = [] /\ (forall r, In r rs -> forall e, r <> Exn e) /\ inside_wait s' t 0 /\ (nstep s + List.length rs <= nstep s' <= nstep s + S (List.length rs) \/ (nocancel test -> tdone s' = Some true))) \/
     (L' = [] /\ exists e, (cur s' = Some (t, BProg (Raise e)) \/ state_of s' t = Some Canc \/ failed s' t e) /\ (last rs (Ok VNone) = Exn e \/ e = CancelledError /\ (nocancel test -> tdone s' = Some true)))).
Proof.
  intros R0 PO Hc G. pose proof (phase_track test m t s s' L R0 PO Hc G) as H. assert (R1 : steps (init test m) s') by (eapply steps_trans; [exact R0|eapply log_steps; eauto]).
  destruct H as [rs C NE Hc' N|rs C NE H|rs C NE Hc' N|rs L0 v sent l todo p C NE Hv Ha Hs HL Hc' Hp N|rs L0 v sent l q z w n todo C NE Hv Ha Hs Hz HL Hc' N|rs e C NE HE H].
  - exists rs, []. rewrite app_nil_r. split; auto. left. eexists. split; eauto. lia.
  - exists rs, []. rewrite app_nil_r. split; auto. right; left. split; auto. split; auto. destruct H as [H|[f [r [H1 H2]]]].
    + destruct (inwait_spec test m _ _ _ _ R1 H) as [A [B|B]]; split; auto. left. lia.
    + split; [right; eauto|]. destruct H2 as [[_ N]| ->]; [left; lia|right]. intros NT. destruct (reach_nc _ _ _ _ _ _ NT R1) as [_ [_ [_ [_ [X|X]]]]]; auto. exfalso. pose proof (n_cur _ X _ _ H1) as [Y _]. now apply Y.
  - exists rs, []. rewrite app_nil_r. split; auto. left. eexists. split; eauto. lia.
  - destruct (sends_some todo) as [l2 S2]. exists (rs ++ [Ok v]), l2. split.
    + rewrite HL, <- app_assoc. apply cs_one; auto. simpl. apply cy_val; auto. rewrite Ha. now apply sends_app.
    + left. exists p. rewrite app_length. simpl. split; auto. lia.
  - destruct (sends_some todo) as [l2 S2]. exists (rs ++ [Ok v]), (Put q w :: l2). split.
    + rewrite HL, <- app_assoc. apply cs_one; auto. simpl. apply cy_val; auto. rewrite Ha, <- app_assoc. apply sends_app; auto. simpl. apply sd_queue; auto.
    + left. eexists. rewrite app_length. simpl. split; eauto. lia.
  - exists rs, []. rewrite app_nil_r. split; auto. right; right. split; auto. exists e. split; [unfold failed; tauto|]. destruct HE as [HE|[_ [-> HE]]]; auto.
Qed.
(** Whenever the clock task is about to make a step (before the end of a test without cancellation), the method having raised no
    exception so far: it has been called exactly once in each cycle since then, and all its values have been delivered. *)
Theorem C61_every_cycle (test : prog) m t c s s' L : nocancel test -> steps (init test m) s -> ports_ok s -> cur s = Some (t, BProg monitor) -> log t s s' L -> tdone s' <> Some true -> at_step s' c ->
  (forall e, ~ In (Exn e) (outcomes L)) -> calls L = seq (S (nstep s)) (nstep s' - nstep s) /\ cycles (nstep s) (outcomes L) L.
Proof.
  intros NT R0 PO Hc G TD [last0 HS] NX. pose proof (phase_track test m t s s' L R0 PO Hc G) as H. assert (R1 : steps (init test m) s') by (eapply steps_trans; [exact R0|eapply log_steps; eauto]).
  assert (CY : forall rs L, cycles (nstep s) rs L -> calls L = seq (S (nstep s)) (List.length rs) /\ outcomes L = rs).
  { assert (SN : forall (a : list (@action mem)) l, sends a l -> calls l = [] /\ outcomes l = []) by (induction 1; auto).
    assert (C1 : forall n r l, cycle n r l -> calls l = [n] /\ outcomes l = [r]) by (intros n r l [|e|v l0 _ S0]; auto; destruct (SN _ _ S0) as [E1 E2]; unfold calls, outcomes in *; simpl; rewrite E1, E2; auto).
    induction 1 as [|rs l r l1 C [E1 E2] C2]; auto. destruct (C1 _ _ _ C2) as [E3 E4]. unfold calls, outcomes in *. rewrite !flat_map_app, E1, E2, E3, E4, app_length. simpl. rewrite Nat.add_1_r, seq_S. simpl. split; auto. rewrite Nat.add_succ_r. reflexivity. }
  destruct H as [rs C NE Hc' N|rs C NE H|rs C NE Hc' N|rs L0 v sent l todo p C NE Hv Ha Hs HL Hc' Hp N|rs L0 v sent l q z w n todo C NE Hv Ha Hs Hz HL Hc' N|rs e C NE HE H]; try congruence.
  - destruct (CY _ _ C) as [E1 E2]. rewrite E1, E2. split; auto. f_equal. destruct H as [[f [fu [cbs [mu [_ [E [Ef [Kf Ph]]]]]]]]|[f [r [H1 H2]]]]; [|congruence].
    destruct Ph as [[_ N]|[[_ [N [_ EA]]]|P]]; [lia|exfalso; exact (EA _ _ HS)|]. exfalso. apply TD. apply (canc_tdone shuffle dut delayers test m s' f); auto. unfold state_of, fget. now rewrite Ef, <- P.
  - exfalso. destruct (CY _ _ C) as [_ E2]. destruct HE as [HE|[_ [_ HE]]]; [|now apply TD, HE]. apply (NX e). rewrite E2. destruct rs as [|r0 rs] using rev_ind; [discriminate|]. rewrite last_last in HE. subst. apply in_app_iff. right. now left.
Qed.
End Thms.
Print Assumptions C61_monitor.
Print Assumptions C61_every_cycle.

(** * What the deliveries of [process_monitor_call] are *)
Section Ports.
Context {mem : Type}.
Implicit Types (ms : list (@mon_model mem)).
Lemma puts_app q (a b : list (@seen mem)) : puts q (a ++ b) = puts q a ++ puts q b. Proof. apply flat_map_app. Qed.
Lemma hooks_app (a b : list (@seen mem)) : hooks (a ++ b) = hooks a ++ hooks b. Proof. apply flat_map_app. Qed.
Lemma sends_split (a b : list (@action mem)) l : sends (a ++ b) l -> exists l1 l2, l = l1 ++ l2 /\ sends a l1 /\ sends b l2.
Proof.
  revert l. induction a as [|x a IH]; intros l H; [exists [], l; split; auto; split; auto; constructor|]. simpl in H.
  inversion H; subst; match goal with H : sends (a ++ b) _ |- _ => destruct (IH _ H) as [l1 [l2 [-> [S1 S2]]]] end;
    [exists (Put q v :: l1), l2|exists (Hooked h z :: l1), l2|exists (Sized q n :: l1), l2|exists (Sized q n :: Put q v :: l1), l2]; (split; [reflexivity|split; auto]); [apply sd_put|apply sd_hook|apply sd_full|apply sd_queue]; auto.
Qed.
Definition wants_of q (a : @action mem) : list (option Z * lval) := match a with APut q' v => if Nat.eqb q' q then [(None, v)] else [] | AQueue q' z v => if Nat.eqb q' q then [(Some z, v)] else [] | AHook _ _ => [] end.
Lemma offers_app q w1 w2 (l1 l2 : list (@seen mem)) : offers q w1 l1 -> offers q w2 l2 -> offers q (w1 ++ w2) (l1 ++ l2).
Proof. induction 1; intros H2; simpl; auto; [apply of_free|apply of_keep|apply of_drop]; auto. Qed.
Lemma sends_offers q (a : list (@action mem)) l : sends a l -> offers q (flat_map (wants_of q) a) (filter (about q) l).
Proof.
  induction 1 as [|q' v a l S IH|h z a l S IH|q' z v n a l Hz S IH|q' z v n a l Hz S IH]; simpl; auto; try constructor; auto; destruct (Nat.eqb_spec q' q) as [->|]; auto; simpl; [apply of_free|apply of_drop|apply of_keep]; auto.
Qed.
Lemma wants_deliveries path ms gq q v : flat_map (wants_of q) (deliveries path ms gq v) = wanted path ms gq q v.
Proof.
  unfold deliveries, wanted. rewrite flat_map_app. f_equal; [|destruct gq as [[q' z]|]; simpl; auto; now rewrite app_nil_r].
  assert (P : forall p w, wants_of q (port_put p w) = if Nat.eqb (fst p) q then [(limit (snd p), w)] else []) by (intros [q' z] w; unfold port_put, limit; simpl; destruct (z =? -1)%Z; reflexivity).
  induction ms as [|m ms' IH]; auto. cbn [flat_map]. rewrite flat_map_app, IH. f_equal. clear IH. rewrite !flat_map_app. f_equal.
  - induction (mo_aports m) as [|p ps IH]; auto. simpl. now rewrite P, IH.
  - assert (A : flat_map (wants_of q) (map (fun h => AHook (fst h path v) (snd h)) (mo_ahooks m)) = []) by (induction (mo_ahooks m); auto).
    rewrite A. destruct (mo_port m) as [p|], (mo_hook m) as [h|]; simpl; rewrite ?P, ?app_nil_r; reflexivity.
Qed.
(** In the cycles with the outcomes [rs] every queue [q] is offered what is wanted for the non-None results, in order, and it takes what
    it has room for when it is offered: that is all there is to see of [q]. *)
Theorem C61_ports path ms gq n rs (L : list (@seen mem)) q : cycles (deliveries path ms gq) n rs L -> offers q (flat_map (wanted path ms gq q) (values rs)) (filter (about q) L).
Proof.
  induction 1 as [|rs l r l1 C IH C2]; [constructor|]. unfold values. rewrite filter_app, flat_map_app, flat_map_app. fold (values rs). apply offers_app; auto.
  destruct C2 as [|e|v l0 Hv S0]; try constructor. simpl. pose proof (sends_offers q _ _ S0) as O. rewrite wants_deliveries in O. destruct v; try contradiction; simpl; rewrite app_nil_r; exact O.
Qed.
(** So an unbounded queue, and one that was never found full, has been given everything, in order. *)
Theorem C61_all_put path ms gq n rs (L : list (@seen mem)) q : cycles (deliveries path ms gq) n rs L ->
  (forall z v k, In (Some z, v) (flat_map (wanted path ms gq q) (values rs)) -> In (Sized q k) L -> (Z.of_nat k < z)%Z) ->
  puts q L = map snd (flat_map (wanted path ms gq q) (values rs)).
Proof.
  intros C H. apply C61_ports with (q := q) in C. set (W := flat_map _ _) in *.
  assert (E : puts q L = puts q (filter (about q) L)).
  { clear. induction L as [|x L IH]; auto. unfold puts in *. simpl. rewrite IH. destruct x as [k r|q' v|h z|q' k]; simpl; auto; destruct (Nat.eqb q' q) eqn:E; simpl; rewrite ?E; auto. }
  rewrite E. assert (H' : forall z v k, In (Some z, v) W -> In (Sized q k) (filter (about q) L) -> (Z.of_nat k < z)%Z) by (intros z v k A B; apply filter_In in B as [B _]; eauto). clear E H. revert H'. induction C as [|v w l O IH|z v k w l Hz O IH|z v k w l Hz O IH]; intros H; auto; unfold puts in *; simpl.
  - rewrite Nat.eqb_refl. simpl. f_equal. apply IH. intros z u k A B. apply (H z u k); simpl; auto.
  - rewrite Nat.eqb_refl. simpl. f_equal. apply IH. intros z' u k' A B. apply (H z' u k'); simpl; auto.
  - exfalso. specialize (H z v k). simpl in H. specialize (H (or_introl eq_refl) (or_introl eq_refl)). lia.
Qed.
(** All hooks of all models are registered with each non-None result, in the order of the results. *)
Theorem C61_hooks path ms gq n rs L : cycles (deliveries path ms gq) n rs L ->
  hooks L = flat_map (fun v => flat_map (fun m => map (fun h => (fst h path v, snd h)) (mo_ahooks m) ++ match mo_hook m with Some h => [(fst h v, snd h)] | None => [] end) ms) (values rs).
Proof.
  intros C. set (f := fun v => flat_map _ ms). assert (S1 : forall v l, sends (deliveries path ms gq v) l -> hooks l = f v).
  { intros v l H. unfold deliveries in H. apply sends_split in H as [l1 [l2 [-> [H1 H2]]]]. rewrite hooks_app.
    assert (E2 : hooks l2 = []). { destruct gq as [[q' z]|]; simpl in H2; inversion H2; subst; auto; match goal with H : sends [] _ |- _ => inversion H; subst end; reflexivity. }
    rewrite E2, app_nil_r. clear E2 H2 C. subst f. cbv beta. revert l1 H1. induction ms as [|m ms' IH]; intros l1 H1; [inversion H1; reflexivity|].
    cbn [flat_map] in *. apply sends_split in H1 as [la [lb [-> [Ha Hb]]]]. rewrite hooks_app, (IH _ Hb). f_equal. clear IH Hb.
    apply sends_split in Ha as [l1 [l' [-> [A1 Ha]]]]. apply sends_split in Ha as [l2' [l'' [-> [A2 Ha]]]]. apply sends_split in Ha as [l3 [l4 [-> [A3 A4]]]]. rewrite !hooks_app.
    assert (E1 : hooks l1 = []) by (clear - A1; revert l1 A1; induction (mo_aports m) as [|h hs IH]; intros l3 A3; simpl in A3; unfold port_put in A3; [|destruct (snd h =? -1)%Z]; inversion A3; subst; auto; simpl; auto).
    assert (E3 : hooks l2' = []) by (clear - A2; destruct (mo_port m) as [h|]; simpl in A2; unfold port_put in A2; [destruct (snd h =? -1)%Z|]; inversion A2; subst; auto; match goal with H : sends [] _ |- _ => inversion H; reflexivity end).
    rewrite E1, E3. simpl. f_equal.
    - clear - A3. revert l3 A3. induction (mo_ahooks m) as [|p ps IH]; intros l1 A1; simpl in A1; inversion A1 as [| |x1 x2 x3 l0 B| |]; subst; auto. simpl. now rewrite (IH _ B).
    - clear - A4. destruct (mo_hook m) as [p|]; simpl in A4; inversion A4 as [| |x1 x2 x3 l0 B| |]; subst; auto. inversion B; subst. reflexivity. }
  induction C as [|rs l r l1 C IH C2]; auto. unfold values. rewrite hooks_app, flat_map_app, flat_map_app. fold (values rs). rewrite <- IH. f_equal.
  destruct C2 as [|e|v l0 Hv S0]; auto. simpl. change (hooks (Called (n + S (List.length rs)) (Ok v) :: l0)) with (hooks l0). rewrite (S1 _ _ S0). destruct v; simpl; rewrite ?app_nil_r; congruence || reflexivity.
Qed.
End Ports.
Print Assumptions C61_ports.
Print Assumptions C61_all_put.
Print Assumptions C61_hooks.

(** A monitor that returns the number of the cycle in odd cycles and None in even ones; one model with an agent port (queue 0, unbounded), a
    monitor port (queue 1, at most one item) and a monitor hook; the queue behind the monitor method (queue 2) holds one item. *)
Definition method1 (c : nat) : nat * res lval := (c, Ok (if Nat.odd c then VInt (Z.of_nat c) else VNone)).
Definition model1 : @mon_model nat := mk_mm [(0, (-1)%Z)] (Some (1, 1%Z)) [] (Some (fun v => Do (OMark 3) (Ret v), 5%Z)).
Definition acts1 := deliveries (VInt 7) [model1] (Some (2, 1%Z)).
Definition t_mon : @prog nat := Do OStartClock (Do OQNew (Do OQNew (Do OQNew (Do (OCreate (monitor method1 acts1)) (bindr (clock_cycles 6) (fun _ => Ret VNone)))))).
Definition M1 (n : nat) : @state nat := run ids Nat.succ (fun c => c) n (init t_mon 0).
Fixpoint runl (t n : nat) (x : @state nat * list seen) : @state nat * list seen := match n with 0 => x | S n' => runl t n' (step ids Nat.succ (fun c => c) [] (fst x), snd x ++ see t (fst x)) end.
Lemma runl_log t n : forall s0 s l, log ids Nat.succ (fun c => c) t s0 s l -> log ids Nat.succ (fun c => c) t s0 (fst (runl t n (s, l))) (snd (runl t n (s, l))).
Proof. induction n as [|n IH]; intros s0 s l H; simpl; auto. apply IH. now apply log_step. Qed.
Definition calm_acts {mem} (l : list (@action mem)) : Prop := Forall (fun a => match a with AHook h _ => nocancel h | _ => True end) l.
CoFixpoint nocancel_mon (method : nat -> nat * res lval) acts todo (Hm : forall c, snd (method c) <> Exn CancelledError) (Ha : forall v, calm_acts (acts v)) (Ht : calm_acts todo) : nocancel (mon method acts todo).
Proof.
  rewrite mon_unfold. destruct todo as [|[q v|h z|q z v] rest].
  - apply nc_op; [exact I|intros p X; inversion X|]. intros [v|e] Hr; simpl; [|constructor; congruence]. apply nc_op; [exact Hm|intros p X; inversion X|]. intros [w|e] Hr'; simpl; [|constructor; congruence].
    destruct w; apply nocancel_mon; auto; constructor.
  - apply nc_op; [exact I|intros p X; inversion X|]. intros [w|e] Hr; simpl; [|constructor; congruence]. apply nc_op; [exact I|intros p X; inversion X|]. intros r _. apply nocancel_mon; auto. exact (Forall_inv_tail Ht).
  - apply nc_op; [exact I|intros p X; inversion X; subst; exact (Forall_inv Ht)|]. intros r Hr. apply nocancel_mon; auto. exact (Forall_inv_tail Ht).
  - apply nc_op; [exact I|intros p X; inversion X|]. intros [w|e] Hr; simpl; [|constructor; congruence]. destruct w as [|b|n|n|l]; try (constructor; discriminate). destruct (z <=? n)%Z; [apply nocancel_mon; auto; exact (Forall_inv_tail Ht)|].
    apply nc_op; [exact I|intros p X; inversion X|]. intros [w|e] Hr'; simpl; [|constructor; congruence]. apply nc_op; [exact I|intros p X; inversion X|]. intros r _. apply nocancel_mon; auto. exact (Forall_inv_tail Ht).
Defined.
Example C61_nonvacuous : nocancel t_mon /\ exists s s' L, steps ids Nat.succ (fun c => c) (init t_mon 0) s /\ ports_ok acts1 s /\ cur s = Some (2, BProg (monitor method1 acts1)) /\ log ids Nat.succ (fun c => c) 2 s s' L /\ at_step s' 1 /\ tdone s' = Some false /\
  nstep s = 0 /\ nstep s' = 4 /\ calls L = [1; 2; 3; 4] /\ puts 0 L = [VList [VInt 7; VInt 1]; VList [VInt 7; VInt 3]] /\ puts 1 L = [VInt 1] /\ puts 2 L = [VInt 1] /\ outcomes L = [Ok (VInt 1); Ok VNone; Ok (VInt 3); Ok VNone].
Proof.
  split.
  - assert (X : nocancel (monitor method1 acts1)).
    { apply nocancel_mon; [intros c; simpl; destruct (Nat.odd c); discriminate| |constructor]. intros v. repeat constructor. unfold Do. prog_tac. }
    unfold t_mon. repeat first [exact X | apply nocancel_cycles | apply nocancel_bindr | progress intros | match goal with H : part _ _ |- _ => inversion H; subst; clear H end | apply nc_ret | apply nc_op; [exact Logic.I| |]].
  - exists (M1 14), (fst (runl 2 90 (M1 14, []))), (snd (runl 2 90 (M1 14, []))). split; [apply run_steps|]. split; [|split; [vm_compute; reflexivity|split; [apply runl_log; constructor|]]].
    + intros v a q Ha Hq. replace (List.length (qs (M1 14))) with 3 by (vm_compute; reflexivity). unfold acts1, deliveries in Ha. simpl in Ha. destruct Ha as [<-|[<-|[<-|[<-|[]]]]]; simpl in Hq; intuition lia.
    + split; [eexists; vm_compute; reflexivity|]. vm_compute. auto 10.
Qed.
