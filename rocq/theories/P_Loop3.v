(** C62: queues and events. *)
From Coq Require Import List Bool Arith ZArith Lia.
From Verif Require Import Py Prio_Model Loop_Model Loop_Spec Loop_Proofs Loop2_Proofs Loop3_Proofs Loop4_Proofs Loop5_Proofs Loop6_Proofs LoopRun_Model LoopRun_Proofs P_Loop
  Loop7_Proofs Loop8_Proofs Loop9_Proofs Loop10_Proofs Loop11_Proofs Loop12_Proofs Loop2_Spec LoopProg_Model P_Loop2.
Import ListNotations.
Open Scope nat_scope.

Section Thms.
Context {mem : Type} (shuffle : list id -> list id) (dut delayers : mem -> mem).
Notation steps := (steps shuffle dut delayers). Notation step := (step shuffle dut delayers). Notation prog := (@prog mem). Notation state := (@state mem). Notation body := (@body mem).
Implicit Types (s : state).

Lemma items_put s q q' x : items (set_qs s (put_nth q' x (qs s))) q = if Nat.eqb q q' && Nat.ltb q (List.length (qs s)) then q_items x else items s q.
Proof.
  unfold items. cbn [qs set_qs]. destruct (nth_error (qs s) q') as [y|] eqn:E.
  - rewrite (put_nth_get _ _ _ _ q E). destruct (Nat.eqb_spec q q') as [->|]; auto. assert (L : q' < List.length (qs s)) by (apply nth_error_Some; congruence). apply Nat.ltb_lt in L. rewrite L. reflexivity.
  - assert (P : put_nth q' x (qs s) = qs s). { clear - E. revert q' E. induction (qs s) as [|a l IH]; intros [|n] E; simpl in *; auto; [discriminate|]. now rewrite IH. }
    rewrite P. destruct (Nat.eqb_spec q q') as [->|]; auto. apply nth_error_None in E. apply Nat.ltb_ge in E. rewrite E. reflexivity.
Qed.
Lemma items_eq s s' q : qs s' = qs s -> items s' q = items s q.
Proof. unfold items. now intros ->. Qed.
Lemma items_step fire s q : items s q ++ put_by s q = got_by s q ++ items (step fire s) q.
Proof.
  assert (Z : forall x, items (set_qs s x) q = match nth_error x q with Some qu => q_items qu | None => [] end) by reflexivity.
  assert (E : items (step fire s) q = items (set_qs s (qafter s)) q) by (apply items_eq; rewrite step_qs; reflexivity). rewrite E.
  assert (SAME : put_by s q = [] -> got_by s q = [] -> items s q ++ put_by s q = got_by s q ++ items (set_qs s (qs s)) q) by (intros -> ->; rewrite app_nil_r; reflexivity).
  assert (QG : forall x, put_by s q = [] -> got_by s q = (if Nat.eqb x q then firstn 1 (items s q) else []) -> items s q ++ put_by s q = got_by s q ++ items (set_qs s (qget s x)) q).
  { intros x -> ->. rewrite app_nil_r. unfold qget. destruct (nth_error (qs s) x) as [qx|] eqn:Ex.
    - assert (X : items s x = q_items qx) by (unfold items; now rewrite Ex). assert (L : x < List.length (qs s)) by (apply nth_error_Some; congruence). apply Nat.ltb_lt in L.
      destruct (q_items qx) as [|v l] eqn:Ei; rewrite items_put, (Nat.eqb_sym q x); (destruct (Nat.eqb_spec x q) as [->|]; [|reflexivity]); rewrite L; cbn [andb]; rewrite X; reflexivity.
    - destruct (Nat.eqb_spec x q) as [->|]; [|reflexivity]. unfold items. cbn [qs set_qs]. rewrite Ex. reflexivity. }
  assert (QO : forall o, current_op s = Some o -> (match o with OQGet _ => True | _ => got_by s q = [] end) -> items s q ++ put_by s q = got_by s q ++ items (set_qs s (qop s o)) q).
  { intros o Ho HG. unfold qop. destruct o as [f|m|fl| |p|f|f| |e|e|e| |x v|x|x| |h z [|]|l| |]; try (apply SAME; auto; unfold put_by; rewrite Ho; reflexivity).
    - unfold put_by. rewrite Ho, HG, app_nil_r. simpl. rewrite Z. unfold items. destruct (nth_error (qs s) q) as [qu|] eqn:Eq.
      + rewrite nth_error_app1 by (apply nth_error_Some; congruence). rewrite Eq. reflexivity.
      + apply nth_error_None in Eq. rewrite nth_error_app2 by lia. destruct (q - List.length (qs s)) as [|[|d]]; reflexivity.
    - unfold put_by. rewrite Ho, HG. cbn [app]. destruct (nth_error (qs s) x) as [qx|] eqn:Ex.
      + rewrite items_put, (Nat.eqb_sym q x). destruct (Nat.eqb_spec x q) as [->|]; cbn [andb]; [|now rewrite app_nil_r]. assert (L : q < List.length (qs s)) by (apply nth_error_Some; congruence). apply Nat.ltb_lt in L. rewrite L.
        cbn [q_items]. unfold items. rewrite Ex. reflexivity.
      + destruct (Nat.eqb_spec x q) as [->|]; cbn [andb]; [|now rewrite app_nil_r]. apply nth_error_None in Ex. apply Nat.ltb_ge in Ex. rewrite Ex. now rewrite app_nil_r.
    - apply QG; [unfold put_by; now rewrite Ho|unfold got_by, looksb; now rewrite Ho]. }
  unfold qafter. assert (CO : current_op s = match cur s with Some (_, BProg (Op o _)) | Some (_, BHook (Op o _) _ _ _) | Some (_, BTest (Op o _)) => Some o | _ => None end) by reflexivity.
  assert (LB : looksb s q = match current_op s, cur s with Some (OQGet q'), _ => Nat.eqb q' q | _, Some (_, BGet q' _ (Ok _) _) => Nat.eqb q' q | _, _ => false end) by reflexivity.
  destruct (cur s) as [[t b]|] eqn:Hc; [|apply SAME; [unfold put_by|unfold got_by; rewrite LB]; rewrite CO; reflexivity].
  destruct b as [[v|e|o kk]|[v|e|o kk] ev todo sb|c|e f r kk|x f [v|e] kk|test|[v|e|o kk]]; cbv beta iota in CO, LB |- *;
    try (apply SAME; [unfold put_by; rewrite CO; reflexivity|unfold got_by; rewrite LB, CO; reflexivity]);
    try (apply QO; [exact CO|]; rewrite CO in LB; destruct o; auto; unfold got_by; rewrite LB; reflexivity).
  - apply QG; [unfold put_by; rewrite CO; reflexivity|unfold got_by; rewrite LB, CO; reflexivity].
  - assert (P0 : put_by s q = []) by (unfold put_by; rewrite CO; reflexivity). assert (G0 : got_by s q = []) by (unfold got_by; rewrite LB, CO; reflexivity). rewrite P0, G0, app_nil_r. cbn [app].
    unfold qexn. destruct (nth_error (qs s) x) as [qx|] eqn:Ex; auto.
    assert (Y : forall l, items s q = items (set_qs s (put_nth x (mk_queue (q_items qx) l) (qs s))) q).
    { intros l. rewrite items_put. destruct (Nat.eqb_spec q x) as [->|]; auto. cbn [andb]. destruct (Nat.ltb _ _); auto. unfold items. rewrite Ex. reflexivity. }
    destruct (q_items qx) as [|i0 il]; auto. destruct (fget (settle s f Canc) f) as [[[|r0|] cb0 kd0]|]; auto.
Qed.

(** In every execution, for every queue: what was put is what was taken out followed by what is in the queue, in order. *)
Theorem C62_fifo q s P G : history shuffle dut delayers q s P G -> P = G ++ items s q.
Proof.
  induction 1 as [test m|s fire P G H IH].
  - unfold items. simpl. destruct q; reflexivity.
  - rewrite IH, <- !app_assoc. f_equal. apply items_step.
Qed.
(** A task that looks into the queue in get() gets the first item at once, and this item is taken out; if there is none, the task is
    suspended (or fails, if there is no such queue) and nothing is taken out.  Nothing is taken out in any other way. *)
Theorem C62_get_delivers fire s t q K : looks s t q K ->
  match items s q with
  | v :: _ => cur (step fire s) = Some (t, K (Ok v)) /\ got_by s q = [v]
  | [] => (cur (step fire s) = None \/ (nth_error (qs s) q = None /\ cur (step fire s) = Some (t, K (Exn TypeError)))) /\ got_by s q = []
  end.
Proof.
  assert (Y : forall K, step fire s = q_get s t q K -> match items s q with v :: _ => cur (step fire s) = Some (t, K (Ok v)) | [] => cur (step fire s) = None \/ (nth_error (qs s) q = None /\ cur (step fire s) = Some (t, K (Exn TypeError))) end).
  { intros K0 ->. unfold q_get, items. destruct (nth_error (qs s) q) as [qu|]; [|auto]. destruct (q_items qu); [|reflexivity]. left. apply cur_suspend. }
  intros L. assert (G : got_by s q = firstn 1 (items s q)).
  { unfold got_by, looksb, current_op. destruct L as [[k [-> _]]|[[k [ev [todo [sb [-> _]]]]]|[[k [-> _]]|[f [v ->]]]]]; now rewrite Nat.eqb_refl. }
  rewrite G. enough (X : step fire s = q_get s t q K) by (specialize (Y K X); destruct (items s q); auto).
  unfold Loop_Model.step. destruct L as [[k [-> ->]]|[[k [ev [todo [sb [-> ->]]]]]|[[k [-> ->]]|[f [v ->]]]]]; reflexivity.
Qed.
Theorem C62_only_get_takes s q v : got_by s q = [v] -> exists t K, looks s t q K.
Proof.
  unfold got_by, looksb, current_op, looks. destruct (cur s) as [[t b]|]; [|discriminate].
  destruct b as [[v0|e|o kk]|[v0|e|o kk] ev todo sb|c|e f r kk|x f [v0|e] kk|test|[v0|e|o kk]]; try discriminate;
    try (destruct o as [f|m|fl| |p|f|f| |e|e|e| |x v1|x|x| |h z [|]|l| |]; try discriminate); (destruct (Nat.eqb_spec x q) as [->|]; [intros _|discriminate]).
  - exists t, (fun r => BProg (kk r)). eauto.
  - exists t, (fun r => BHook (kk r) ev todo sb). right. left. eauto 6.
  - exists t, kk. eauto 6.
  - exists t, (fun r => BTest (kk r)). right. right. left. eauto.
Qed.

(** No item without a getter on its way: whenever a task waits in get(), at least as many different tasks as there are items have
    been woken from get() of the same queue and are about to look. *)
Theorem C62_waiting_getter (test : prog) m s t q : steps (init test m) s -> waits_to_get s t q ->
  exists ts, NoDup ts /\ List.length (items s q) <= List.length ts /\ forall t', In t' ts -> woken_to_get s t' q.
Proof.
  intros R [f [fu [_ [Ef [Kf Pf]]]]]. pose proof (reach_qall _ _ _ _ _ _ R) as Q. pose proof (proj1 (v_wf _ (q_evi _ Q))) as I.
  set (hs := filter (wq (futs s) q) (ready s)). set (tc := match cur s with Some (t', BGet q' f' _ _) => if Nat.eqb q' q && woke (futs s) q f' then [t'] else [] | _ => [] end).
  exists (tc ++ flat_map (fun h => match h with HWake t' _ => [t'] | _ => [] end) hs).
  assert (LE : List.length (flat_map (fun h => match h with HWake t' _ => [t'] | _ => [] end) hs) = List.length hs).
  { unfold hs. induction (ready s) as [|h r IH]; simpl; auto. destruct (wq (futs s) q h) eqn:E; auto. destruct h; simpl in E |- *; try discriminate. now rewrite IH. }
  split; [|split].
  - assert (CN : forall t', cntc t' (cur s) + cnth t' (ready s) <= 1) by (intros t'; pose proof (i_cnt _ I t') as X; cbn [fst snd coreof] in X; destruct (islive (futs s) t'); lia).
    assert (ND : forall r, (forall t', cnth t' r <= 1) -> NoDup (flat_map (fun h => match h with HWake t' _ => [t'] | _ => [] end) (filter (wq (futs s) q) r)) /\
      forall t', In t' (flat_map (fun h => match h with HWake t' _ => [t'] | _ => [] end) (filter (wq (futs s) q) r)) -> 1 <= cnth t' r).
    { induction r as [|h r IH]; intros X; [split; [constructor|intros t' []]|]. assert (X' : forall t', cnth t' r <= 1) by (intros t'; specialize (X t'); rewrite cnth_cons in X; lia). destruct (IH X') as [N A]. cbn [filter]. destruct (wq (futs s) q h) eqn:E.
      - destruct h as [| |x g| | |]; try discriminate. cbn [flat_map]. split.
        + constructor; auto. intros Hin. specialize (A _ Hin). specialize (X x). rewrite cnth_cons in X. unfold owns in X. simpl in X. rewrite Nat.eqb_refl in X. lia.
        + intros t' [->|H]; rewrite cnth_cons; [unfold owns; simpl; rewrite Nat.eqb_refl; lia|]. specialize (A _ H). lia.
      - split; auto. intros t' H. rewrite cnth_cons. specialize (A _ H). lia. }
    destruct (ND (ready s)) as [N A]; [intros t'; specialize (CN t'); lia|]. fold hs in N, A. unfold tc. destruct (cur s) as [[t' b]|] eqn:Hc; auto. destruct b; auto. destruct (_ && _); auto.
    constructor; auto. intros Hin. specialize (A _ Hin). specialize (CN t'). simpl in CN. rewrite Nat.eqb_refl in CN. lia.
  - rewrite app_length, LE. unfold items. destruct (nth_error (qs s) q) as [qu|] eqn:Eq; [|simpl; lia]. pose proof (q_cnt _ Q q qu f fu Eq Ef Kf Pf) as X. unfold wr, wc in X. fold hs in X.
    unfold tc. destruct (cur s) as [[t' b]|]; [destruct b|]; try (simpl; lia). destruct (_ && _); simpl; lia.
  - intros t' H. apply in_app_or in H as [H|H].
    + right. unfold tc in H. destruct (cur s) as [[t0 b]|]; [|destruct H]. destruct b; try destruct H. destruct (Nat.eqb_spec q0 q) as [->|]; [|destruct H]. destruct (woke (futs s) q f0); [|destruct H]. destruct H as [<-|[]]. eauto.
    + left. apply in_flat_map in H as [h [H1 H2]]. apply filter_In in H1 as [H1 H3]. destruct h as [| |x g| | |]; try destruct H2. subst x. cbn [wq] in H3. destruct (woke_fut _ _ _ H3) as [fg [v [E [K1 K2]]]]. exists g, fg, v. auto. destruct H.
Qed.
(** So whenever the clock advances during the test, no task waits in get() of a queue that has items. *)
Theorem C62_no_waiting_getter_at_step (test : prog) m s c t q : tame test -> steps (init test m) s -> at_cycle s c -> waits_to_get s t q -> items s q = [].
Proof.
  intros T R Hc H. destruct (C62_waiting_getter test m s t q R H) as [ts [_ [L A]]]. destruct ts as [|x ts]; [destruct (items s q); simpl in *; [auto|lia]|]. exfalso.
  destruct (cycle_canc _ _ _ _ _ _ _ T R Hc) as [_ B]. destruct (A x (or_introl eq_refl)) as [[f [fu [v [Hin [Ef [K P]]]]]]|[f [r [k X]]]].
  - destruct (B _ x Hin eq_refl) as [g [fg [W [E1 C1]]]]. pose proof (proj1 (v_wf _ (q_evi _ (reach_qall _ _ _ _ _ _ R)))) as I. destruct (i_wake _ I x f Hin) as [X _]. cbn [snd coreof] in X. unfold fget in Ef. congruence.
  - unfold at_cycle in Hc. congruence.
Qed.

(** A suspended task whose awaited future is done is in the ready queue. *)
Lemma done_ready s t cbs k f m fu : Wf s -> nth_error (futs s) t = Some (mkt Pending cbs k (Some f) m) -> (forall b, cur s <> Some (t, b)) -> nth_error (futs s) f = Some fu -> pending fu = false -> In (HWake t f) (ready s).
Proof.
  intros [I _] E Hc Ef P. pose proof (waitof_task _ _ _ _ _ _ _ E) as W. pose proof (i_cnt _ I t) as N. cbn [fst snd coreof] in N. assert (L : islive (futs s) t = true) by (unfold islive; rewrite E; reflexivity). rewrite L in N.
  assert (C0 : cntc t (cur s) = 0). { destruct (cur s) as [[t0 b]|]; auto. simpl. destruct (Nat.eqb_spec t0 t) as [->|]; auto. exfalso. exact (Hc b eq_refl). }
  assert (F0 : cntf t (futs s) = 0).
  { unfold cntf. assert (X : forall fu0, In fu0 (futs s) -> cntb t (f_cbs fu0) = 0).
    { intros fu0 Hin. apply In_nth_error in Hin as [g Eg]. destruct (cntb t (f_cbs fu0)) eqn:Cb; auto. exfalso. unfold cntb in Cb. destruct (filter (wakes t) (f_cbs fu0)) as [|cb l] eqn:Fl; [discriminate|].
      assert (Hcb : In cb (filter (wakes t) (f_cbs fu0))) by (rewrite Fl; now left). apply filter_In in Hcb as [Hcb Hw]. destruct cb as [t1| |]; try discriminate. simpl in Hw. apply Nat.eqb_eq in Hw. subst t1.
      pose proof (i_cb _ I t g fu0 Eg Hcb) as W2. cbn [snd coreof] in W2. assert (g = f) by congruence. subst g. rewrite Ef in Eg. injection Eg as ->. rewrite (i_cbs _ I f fu0 Ef P) in Hcb. destruct Hcb. }
    clear - X. induction (futs s) as [|x l IH]; auto. simpl. rewrite X by now left. rewrite IH; auto. intros. apply X. now right. }
  unfold cnth in N. destruct (filter (owns t) (ready s)) as [|h l] eqn:Fl; [simpl in N; lia|]. assert (Hh : In h (filter (owns t) (ready s))) by (rewrite Fl; now left). apply filter_In in Hh as [Hh Ho].
  unfold owns in Ho. destruct (owner h) as [t1|] eqn:Oh; [|discriminate]. apply Nat.eqb_eq in Ho. subst t1. destruct h as [x|x e|x g|g| |g]; simpl in Oh; try discriminate; injection Oh as ->.
  - pose proof (i_step _ I t Hh) as X. cbn [snd coreof] in X. congruence.
  - pose proof (i_throw _ I t e Hh) as X. cbn [snd coreof] in X. congruence.
  - destruct (i_wake _ I t g Hh) as [X _]. cbn [snd coreof] in X. assert (g = f) by congruence. now subst g.
Qed.
Lemma settle_at s f st g : fget (settle s f st) g = if Nat.eqb g f then match fget s g with Some fu => if pending fu && negb (is_task (f_kind fu)) then Some (mk_fut st [] (f_kind fu)) else Some fu | None => None end else fget s g.
Proof.
  unfold settle. destruct (fget s f) as [fx|] eqn:Ex; [|destruct (Nat.eqb_spec g f) as [->|]; auto; now rewrite Ex]. destruct (is_task (f_kind fx)) eqn:T; [destruct (Nat.eqb_spec g f) as [->|]; auto; rewrite Ex, T, andb_false_r; auto|].
  unfold conclude. rewrite Ex. destruct (pending fx) eqn:P; [|destruct (Nat.eqb_spec g f) as [->|]; auto; now rewrite Ex, P].
  unfold fget in *. cbn [futs push set_ready fput set_futs]. rewrite (put_nth_get _ _ _ _ g Ex). destruct (Nat.eqb_spec g f) as [->|]; auto. rewrite Ex, P, T. reflexivity.
Qed.
Lemma settles_st st l : forall s g fu, In g l -> st <> Pending -> fget s g = Some fu -> pending fu = true -> is_task (f_kind fu) = false -> fget (fold_left (fun s f => settle s f st) l s) g = Some (mk_fut st [] (f_kind fu)).
Proof.
  induction l as [|f l IH]; intros s g fu H Hs E P T; [destruct H|]. simpl. assert (X := settle_at s f st g). destruct (Nat.eqb_spec g f) as [->|Hn].
  - rewrite E, P, T in X. simpl in X. clear IH H. revert X. generalize (settle s f st). induction l as [|h l IH]; intros s1 X; auto. simpl. apply IH. rewrite settle_at. destruct (Nat.eqb_spec f h); auto. rewrite X. unfold pending. simpl. destruct st; [contradiction|reflexivity|reflexivity].
  - destruct H as [->|H]; [contradiction|]. apply IH; auto. congruence.
Qed.
(** Event.set() by any coroutine: every task suspended in wait() of that event is about to be resumed with success. *)
Theorem C62_event_set (test : prog) m s fire e t f fu : steps (init test m) s -> current_op s = Some (OEvSet e) -> (forall ev, nth_error (evs s) e = Some ev -> e_priv ev = false) ->
  unfinished s t -> waits_for s t f -> fget s f = Some fu -> f_kind fu = KEv e -> f_st fu = Pending ->
  state_of (step fire s) f = Some (Finished (Ok (VBool true))) /\ waits_for (step fire s) t f /\ In (HWake t f) (ready (step fire s)).
Proof.
  intros R Ho Hp U [tk [Ht Hw]] Ef Kf Pf. pose proof (reach_evi _ _ _ _ _ _ R) as V. pose proof (v_wf _ V) as W. pose proof W as [I K]. unfold fget in Ef.
  destruct (v_reg _ V f fu e Ef Kf Pf) as [ev [Ee [Hf Hv]]]. specialize (Hp ev Ee).
  assert (Pb : pending fu = true) by (unfold pending; now rewrite Pf). assert (Tf : is_task (f_kind fu) = false) by now rewrite Kf.
  assert (S : (exists t0 b, cur s = Some (t0, b)) /\ fget (step fire s) f = Some (mk_fut (Finished (Ok (VBool true))) [] (f_kind fu))).
  { assert (X : forall t0 b, fget (go (ev_set s e) t0 b) f = Some (mk_fut (Finished (Ok (VBool true))) [] (f_kind fu))).
    { intros t0 b. change (fget (go (ev_set s e) t0 b) f) with (fget (ev_set s e) f). unfold ev_set. rewrite Ee, Hv. apply settles_st; auto. discriminate. }
    unfold current_op in Ho. unfold Loop_Model.step. destruct (cur s) as [[t0 b]|]; [|discriminate]. split; [eauto|]. destruct b as [[]|[]| | | | |[]]; try discriminate; injection Ho as ->; cbn [exec_body exec_op]; rewrite Ee, Hp; apply X. }
  destruct S as [[t0 [b Hc]] Ef'].
  destruct (live_task _ _ (unfinished_live _ _ U)) as [cbs [k [w [mu Et]]]]. unfold tget, fget in Ht. rewrite Et in Ht. injection Ht as <-. simpl in Hw. subst w.
  assert (Hn : forall b, cur s <> Some (t, b)). { intros b0 X. pose proof (i_cur _ I t b0 X) as Y. cbn [snd coreof] in Y. rewrite (waitof_task _ _ _ _ _ _ _ Et) in Y. discriminate. }
  destruct (step_task shuffle dut delayers fire s t cbs k (Some f) mu W Hn Et) as [[Hn' [cbs' [m' Et']]]|[X _]]; [|congruence].
  split; [unfold state_of; now rewrite Ef'|]. split; [exists (mk_task k (Some f) m'); split; auto; unfold tget, fget; rewrite Et'; reflexivity|].
  eapply done_ready; eauto; now apply step_wf.
Qed.
End Thms.
Print Assumptions C62_fifo.
Print Assumptions C62_get_delivers.
Print Assumptions C62_only_get_takes.
Print Assumptions C62_waiting_getter.
Print Assumptions C62_no_waiting_getter_at_step.
Print Assumptions C62_event_set.

(** Two consumers get from queue 0, a producer puts 1, 2, 3 in one go and then sets event 1, on which a fourth task waits. *)
Definition getn (n : nat) : @prog unit := (fix go n := match n with 0 => Ret VNone | S n' => bindr (queue_get 0) (fun _ => go n') end) n.
Definition putter : @prog unit := Do (OEvWait 0) (Do (OQPut 0 (VInt 1)) (Do (OQPut 0 (VInt 2)) (Do (OQPut 0 (VInt 3)) (Do (OEvSet 1) (Ret VNone))))).
Definition t_queue : @prog unit :=
  Do OQNew (Do OEvNew (Do OStartClock (Do (OCreate (getn 5)) (Do (OCreate (getn 5)) (Do (OCreate putter) (Do (OCreate (bindr (event_wait 1) (fun _ => Do (OMark 1) (Ret VNone)))) (bindr (clock_cycles 4) (fun _ => Ret VNone)))))))).
Fixpoint runh (q : id) (n : nat) (x : @state unit * list lval * list lval) : @state unit * list lval * list lval :=
  match n with 0 => x | S n' => runh q n' (let '(s, P, G) := x in (step ids keep keep [] s, P ++ put_by s q, G ++ got_by s q)) end.
Lemma runh_history q n : forall s P G s' P' G', history ids keep keep q s P G -> runh q n (s, P, G) = (s', P', G') -> history ids keep keep q s' P' G'.
Proof. induction n as [|n IH]; intros s P G s' P' G' H E; simpl in E; [now injection E as <- <- <-|]. eapply IH; [|exact E]. now apply h_step. Qed.
Definition T1 (n : nat) := run ids keep keep n (begin t_queue).
Lemma T1_steps n : steps ids keep keep (begin t_queue) (T1 n). Proof. apply run_steps. Qed.
(** All three items are put, one has been taken out so far. *)
Example C62_fifo_nonvacuous : exists s P G, history ids keep keep 0 s P G /\ P = [VInt 1; VInt 2; VInt 3] /\ G = [VInt 1] /\ items s 0 = [VInt 2; VInt 3].
Proof.
  destruct (runh 0 47 (begin t_queue, [], [])) as [[s P] G] eqn:E. exists s, P, G. split; [eapply runh_history; [|exact E]; apply h_init|]. vm_compute in E. injection E as <- <- <-. auto.
Qed.
(** After the first put one consumer is woken, the other still waits; after the second put both are; an item is delivered. *)
Example C62_waiting_nonvacuous : waits_to_get (T1 37) 3 0 /\ items (T1 37) 0 = [VInt 1] /\ woken_to_get (T1 37) 2 0 /\
  exists s t K, steps ids keep keep (begin t_queue) s /\ looks s t 0 K /\ items s 0 <> [].
Proof.
  split; [|split; [vm_compute; reflexivity|split]].
  - eexists _, _. split; [eexists; split; vm_compute; reflexivity|]. vm_compute. auto.
  - left. eexists _, _, _. split; [vm_compute; auto 10|]. split; [vm_compute; reflexivity|]. vm_compute. auto.
  - exists (T1 46), 2. eexists. split; [apply T1_steps|]. split; [right; right; right; eexists _, _; vm_compute; reflexivity|vm_compute; discriminate].
Qed.
Example C62_step_nonvacuous : tame t_queue /\ at_cycle (T1 68) 1 /\ waits_to_get (T1 68) 2 0 /\ waits_to_get (T1 68) 3 0.
Proof.
  split; [|split; [vm_compute; reflexivity|split]].
  - assert (A : forall k : res lval -> @prog unit, (forall r, tame (k r)) -> tame (bindr (queue_get 0) k)) by (intros k Hk; apply allp_bindr; auto; prog_tac; destruct r; prog_tac; destruct r; prog_tac).
    assert (B : forall n, tame (getn n)) by (induction n; [constructor|]; apply A; auto).
    unfold t_queue. repeat (first [apply all_ret | apply B | apply allp_bindr | progress intros | match goal with H : part _ _ |- _ => inversion H; subst; clear H end | match goal with |- allp _ (thenv _ ?r) => destruct r; cbn [thenv] end | apply all_op; [exact I| |] | apply all_raise]).
  - eexists _, _. split; [eexists; split; vm_compute; reflexivity|]. vm_compute. auto.
  - eexists _, _. split; [eexists; split; vm_compute; reflexivity|]. vm_compute. auto.
Qed.
Example C62_event_nonvacuous : exists f fu, current_op (T1 39) = Some (OEvSet 1) /\ (forall ev, nth_error (evs (T1 39)) 1 = Some ev -> e_priv ev = false) /\
  unfinished (T1 39) 5 /\ waits_for (T1 39) 5 f /\ fget (T1 39) f = Some fu /\ f_kind fu = KEv 1 /\ f_st fu = Pending.
Proof.
  eexists _, _. split; [vm_compute; reflexivity|]. split; [intros ev; vm_compute; intros X; injection X as <-; reflexivity|]. split; [vm_compute; auto 10|].
  split; [eexists; split; vm_compute; reflexivity|]. vm_compute. auto.
Qed.
