(** The coverage properties, proved from the invariants of Funcov_Proofs. *)
From Coq Require Import List String Ascii ZArith Bool Lia.
From Verif Require Import Py Dict_Proofs Funcov_Model Funcov_Spec Funcov_Proofs.
Import ListNotations.
Open Scope list_scope.

Section P.
  Context {W : Type}.
  Implicit Types (g : group W) (p : point W) (w : W).

  Lemma run_app g os1 os2 : run g (os1 ++ os2) = run (run g os1) os2.
  Proof. unfold run. apply fold_left_app. Qed.

  Lemma run_cons g o os : run g (o :: os) = run (fst (exec g o)) os.
  Proof. reflexivity. Qed.

  Lemma no_raise_app os1 : forall g os2, no_raise g (os1 ++ os2) <-> no_raise g os1 /\ no_raise (run g os1) os2.
  Proof.
    induction os1 as [|o os1 IH]; intros g os2; cbn [app no_raise]; [unfold run; cbn; tauto|].
    rewrite IH, run_cons. tauto.
  Qed.

  Lemma reach_inv g : reachable g -> Inv g.
  Proof. intros (dis & os & Hwf & ->). apply run_inv; [exact Hwf|apply init_inv]. Qed.

  Lemma reach_ok_inv g : reachable_ok g -> Inv g /\ Inv2 g.
  Proof.
    intros (dis & os & Hwf & Hn & ->). split.
    - apply run_inv; [exact Hwf|apply init_inv].
    - apply run_inv2; [exact Hwf|exact Hn|apply init_inv|apply init_inv].
  Qed.

  Lemma reach_ok_reach g : reachable_ok g -> reachable g.
  Proof. intros (dis & os & Hwf & _ & E). exists dis, os. auto. Qed.

  Lemma reach_step g o : wf_op o -> reachable g -> reachable (fst (exec g o)).
  Proof.
    intros Hw (dis & os & Hwf & ->). exists dis, (os ++ [o]). split; [apply Forall_app; auto|].
    rewrite run_app. reflexivity.
  Qed.

  (** ** the report *)
  Lemma collect_points_shape ps : forall bt bh pt ph ho,
    fst (collect_points ps bt bh pt ph ho) =
    map (fun kp => mk_pd (p_once (snd kp)) (p_hinted (snd kp)) (p_hints (snd kp)) (fst kp)
                     (p_functions (snd kp)) (p_dyn (snd kp))) (ps : dict (point W)).
  Proof.
    induction ps as [|[k v] ps IH]; intros bt bh pt ph ho; cbn [collect_points]; [reflexivity|].
    destruct (collect_bins (p_hints v) bt bh) as [bt' bh'].
    specialize (IH bt' bh' (S pt) (if p_hinted v then S ph else ph) (if p_once v then true else ho)).
    destruct (collect_points ps _ _ _ _ _) as [l c]. cbn [fst] in *. rewrite IH. reflexivity.
  Qed.

  Lemma report_points g : gd_points (as_dict g) =
    map (fun kp => mk_pd (p_once (snd kp)) (p_hinted (snd kp)) (p_hints (snd kp)) (fst kp)
                     (p_functions (snd kp)) (p_dyn (snd kp))) (g_points g).
  Proof.
    unfold as_dict. pose proof (collect_points_shape (g_points g) 0 0 0 0 false) as H.
    destruct (collect_points _ _ _ _ _ _) as [l [[[[bt bh] pt] ph] ho]]. exact H.
  Qed.

  Lemma find_report name ps :
    find (fun d => String.eqb (pd_name d) name)
      (map (fun kp : string * point W => mk_pd (p_once (snd kp)) (p_hinted (snd kp)) (p_hints (snd kp)) (fst kp)
                     (p_functions (snd kp)) (p_dyn (snd kp))) ps) =
    match dget ps name with
    | Some p => Some (mk_pd (p_once p) (p_hinted p) (p_hints p) name (p_functions p) (p_dyn p))
    | None => None
    end.
  Proof.
    induction ps as [|[k v] ps IH]; cbn [map find dget pd_name fst snd]; [reflexivity|].
    rewrite (String.eqb_sym k name). destruct (String.eqb_spec name k) as [->|]; [reflexivity|exact IH].
  Qed.

  Lemma shown_eq g name k : shown g name k =
    match dget (g_points g) name with Some p => dget (p_hints p) k | None => None end.
  Proof. unfold shown. rewrite report_points, find_report. destruct (dget (g_points g) name); reflexivity. Qed.

  Lemma marks_eq g name k : marks g name k =
    match dget (g_points g) name with
    | Some p => match dget (p_functions p) k with Some l => l | None => [] end | None => [] end.
  Proof. unfold marks. rewrite report_points, find_report. destruct (dget (g_points g) name); reflexivity. Qed.

  (** ** counters *)
  Lemma check_loop_bounds bs w once : NoDup (map fst bs) -> forall hints hi on h' r k b n,
    check_loop bs w once hints hi on = (h', r) -> In (k, b) bs -> dget hints k = Some n ->
    exists n', dget h' k = Some n' /\ (n <= n' <= n + if bin_holds b w then 1 else 0)%nat.
  Proof.
    induction bs as [|[k1 b1] bs IH]; intros Hnd hints hi on h' r k b n H Hin Hk; cbn [check_loop] in H; [destruct Hin|].
    cbn in Hnd. inversion Hnd as [|? ? Hni Hnd']; subst.
    assert (forall x, (x <= x + if bin_holds b w then 1 else 0)%nat) as L0 by (intros; lia).
    destruct (dget hints k1) as [h|] eqn:Eh; [|injection H as <- <-; exists n; auto with arith].
    destruct (eval_bin b1 w) as [c|e] eqn:Ec; [|injection H as <- <-; exists n; auto with arith].
    apply eval_bin_holds in Ec. subst c.
    destruct Hin as [[= -> ->]|Hin].
    - rewrite Hk in Eh. injection Eh as ->.
      rewrite (check_loop_other _ _ _ _ _ _ _ _ k H Hni), dget_set_same.
      eexists; split; [reflexivity|]. destruct (bin_holds b w); lia.
    - assert (k <> k1) as Hne.
      { intros ->. apply Hni. apply in_map_iff. exists (k1, b). auto. }
      eapply IH; eauto. rewrite dget_set_other by exact Hne. exact Hk.
  Qed.

  Lemma check_bounds p w p' r k b n : pt_wf p -> check p w = (p', r) -> In (k, b) (p_bins p) ->
    dget (p_hints p) k = Some n ->
    exists n', dget (p_hints p') k = Some n' /\ (n <= n' <= n + if bin_holds b w then 1 else 0)%nat.
  Proof.
    intros [Hnd _] H Hin Hk. unfold check in H.
    destruct (check_loop _ w _ _ true true) as [h [[hi on]|e]] eqn:E; injection H as <- <-; cbn [p_hints];
      eapply check_loop_bounds; eauto.
  Qed.

  (** how one operation changes the counter of a kept point *)
  Lemma exec_keep g o name p : wf_op o -> Inv g -> keeps name o -> dget (g_points g) name = Some p ->
    exists p', dget (g_points (fst (exec g o))) name = Some p' /\ p_bins p' = p_bins p /\ p_once p' = p_once p /\
    match o with
    | OSample w => if sample_stoped g then p' = p else
        forall k b n, In (k, b) (p_bins p) -> dget (p_hints p) k = Some n ->
        exists n', dget (p_hints p') k = Some n' /\
          (n + (if is_ok (snd (exec g o)) then (if bin_holds b w then 1 else 0) else 0) <= n' <= n + if bin_holds b w then 1 else 0)%nat
    | _ => p_hints p' = p_hints p /\ p_hinted p' = p_hinted p
    end.
  Proof.
    intros Hwf I Hk Hp. destruct o as [dk b n on dy|n|n|w| | |bb| |st fn rx un n fs pats re]; cbn [exec keeps] in *.
    - destruct (add_watch_point g dk b n on dy) as [g' r] eqn:E.
      destruct (add_cases _ _ _ _ _ _ _ _ Hwf E) as [[-> _]|(_ & key & bs & Hni & Hnd & _ & ->)]; cbn; [eauto 10|].
      exists p. repeat split; auto. rewrite <- dset_notin by exact Hni.
      rewrite dget_set_other; [exact Hp|]. intros <-. apply Hni. apply dget_Some_key. eauto.
    - unfold del_point. destruct (dmem (g_points g) n); cbn; [|eauto 10].
      exists p. rewrite dget_del_other by congruence. auto.
    - unfold reset_point. destruct (dget (g_points g) n) as [p0|]; cbn; [|eauto 10].
      exists p. rewrite dget_set_other by congruence. auto.
    - destruct (sample_cases g w) as [(Es & E & E')|(Es & ps & ao & r & EL & HC)]; rewrite Es.
      + rewrite E. cbn. exists p. auto.
      + assert (g_points (fst (sample g w)) = ps) as Eps.
        { destruct HC as [(ah & -> & ->)|(e & -> & ->)]; reflexivity. }
        rewrite Eps.
        assert (exists p', dget ps name = Some p') as [p' Hp'].
        { apply dget_Some_key. rewrite (sample_loop_keys _ _ _ _ _ _ _ EL). apply dget_Some_key. eauto. }
        exists p'. split; [exact Hp'|].
        destruct (sample_loop_get _ _ _ _ _ _ _ EL name p' Hp') as (p0 & Hp0 & Hc).
        rewrite Hp in Hp0. injection Hp0 as <-.
        pose proof (i_wf g I name p (dget_In _ _ _ Hp)) as Hw.
        destruct HC as [(ah & -> & ->)|(e & -> & ->)]; cbn [snd is_ok].
        * destruct (sample_loop_ok w _ _ _ _ _ _ (i_wf g I) (i_nd g I) EL) as (A & _).
          destruct (A name p (dget_In _ _ _ Hp)) as (p2 & hi & on & Hin2 & Hc2).
          apply In_dget in Hin2; [|rewrite (sample_loop_keys _ _ _ _ _ _ _ EL); apply I].
          rewrite Hp' in Hin2. injection Hin2 as <-.
          pose proof (check_frame _ _ _ _ Hc2) as (F1 & F2 & _). split; [exact F1|]. split; [exact F2|].
          intros k b n Hb Hn. destruct (check_ok _ _ _ _ _ Hw Hc2) as (_ & _ & _ & _ & X).
          destruct (X k b Hb) as (n0 & E0 & E1). rewrite Hn in E0. injection E0 as <-.
          exists (n + if bin_holds b w then 1 else 0)%nat. split; [exact E1|]. lia.
        * destruct Hc as [->|[r0 Hc]].
          -- split; [reflexivity|]. split; [reflexivity|]. intros k b n Hb Hn. exists n. split; [exact Hn|lia].
          -- pose proof (check_frame _ _ _ _ Hc) as (F1 & F2 & _). split; [exact F1|]. split; [exact F2|].
             intros k b n Hb Hn. destruct (check_bounds _ _ _ _ _ _ _ Hw Hc Hb Hn) as (n' & E & L).
             exists n'. split; [exact E|lia].
    - contradiction.
    - eauto 10.
    - cbn. eauto 10.
    - cbn. eauto 10.
    - destruct (mark_function st fn rx un g n fs pats re) as [g' r] eqn:E.
      destruct (mark_cases _ _ _ _ _ _ _ _ _ _ _ E) as [->|(p0 & d & Ed & ->)]; cbn; [eauto 10|].
      destruct (string_dec name n) as [->|Hne].
      + rewrite Hp in Ed. injection Ed as <-. rewrite dget_set_same. eexists; split; [reflexivity|]. cbn. auto.
      + rewrite dget_set_other by exact Hne. eauto 10.
  Qed.

  Lemma counters_bounds os : forall g name p k b n, Forall wf_op os -> Inv g -> Forall (keeps name) os ->
    dget (g_points g) name = Some p -> In (k, b) (p_bins p) -> dget (p_hints p) k = Some n ->
    exists p' n', dget (g_points (run g os)) name = Some p' /\ p_bins p' = p_bins p /\
      dget (p_hints p') k = Some n' /\ (n + hits b (completed g os) <= n' <= n + hits b (effective g os))%nat.
  Proof.
    induction os as [|o os IH]; intros g name p k b n Hwf I Hk Hp Hb Hn.
    - exists p, n. unfold run; cbn. repeat split; auto; unfold hits; cbn; lia.
    - inversion Hwf; subst. inversion Hk; subst. rewrite run_cons.
      destruct (exec_keep g o name p) as (p1 & Hp1 & Eb & _ & Hc); try assumption.
      assert (Inv (fst (exec g o))) as I1 by (apply exec_inv; assumption).
      assert (exists n1, dget (p_hints p1) k = Some n1 /\
        (n + (match o with OSample w => if sample_stoped g then 0 else if is_ok (snd (exec g o)) then (if bin_holds b w then 1 else 0) else 0 | _ => 0 end)
          <= n1 <= n + match o with OSample w => if sample_stoped g then 0 else if bin_holds b w then 1 else 0 | _ => 0 end)%nat) as (n1 & Hn1 & L1).
      { destruct o; try (destruct Hc as [Hc _]; rewrite Hc; exists n; split; [exact Hn|lia]).
        destruct (sample_stoped g); [subst p1; exists n; split; [exact Hn|lia]|].
        destruct (Hc k b n Hb Hn) as (n1 & E & L). exists n1. split; [exact E|]. exact L. }
      rewrite <- Eb in Hb.
      destruct (IH (fst (exec g o)) name p1 k b n1) as (p' & n' & A1 & A2 & A3 & A4); try assumption.
      exists p', n'. split; [exact A1|]. split; [congruence|]. split; [exact A3|].
      unfold hits in *. cbn [completed effective].
      destruct o; try lia. destruct (sample_stoped g); [lia|].
      destruct (is_ok (snd (exec g (OSample w)))); cbn [filter]; destruct (bin_holds b w); cbn [List.length]; lia.
  Qed.

  Lemma completed_no_raise os : forall g, no_raise g os -> completed g os = effective g os.
  Proof.
    induction os as [|o os IH]; intros g H; [reflexivity|]. destruct H as [H1 H2]. cbn [completed effective].
    destruct o; try (apply IH; exact H2).
    rewrite H1. cbn [is_ok]. destruct (sample_stoped g); [apply IH; exact H2|]. f_equal. apply IH; exact H2.
  Qed.

  (** stored bins are the bins the user gave *)
  Lemma check_conds_given (cs : list (option (cond W))) l : check_conds cs = Some l ->
    flat_map (fun c => match c with Some f => [f] | None => [] end) cs = l /\ ~ In None cs.
  Proof.
    revert l; induction cs as [|[c|] cs IH]; intros l H; cbn [check_conds] in H; try discriminate.
    - injection H as <-. split; [reflexivity|intros []].
    - destruct (check_conds cs) as [r|]; [|discriminate]. injection H as <-.
      destruct (IH r eq_refl) as [E N]. cbn. rewrite E. split; [reflexivity|]. intros [X|X]; [discriminate|auto].
  Qed.

  Lemma check_conds_none (cs : list (option (cond W))) : check_conds cs = None -> In None cs.
  Proof.
    induction cs as [|[c|] cs IH]; cbn [check_conds]; intros H; try discriminate; [|left; reflexivity].
    destruct (check_conds cs); [discriminate|]. right. auto.
  Qed.

  Lemma check_bins_given d bs : check_bins (W := W) d = Some bs ->
    (forall k a, In (k, a) d -> exists b, In (k, b) bs /\ conds_of b = given a) /\
    (forall k a, In (k, a) d -> callable_bin a).
  Proof.
    revert bs; induction d as [|[k [[c|]|cs]] d IH]; intros bs H; cbn [check_bins] in H; try discriminate.
    - split; intros k a [].
    - destruct (check_bins d) as [r|]; [|discriminate]. injection H as <-. destruct (IH r eq_refl) as [A B].
      split; intros k' a [[= <- <-]|Hin].
      + exists (BCall c). split; [left; reflexivity|reflexivity].
      + destruct (A k' a Hin) as (b & Hb & E). exists b. split; [right; exact Hb|exact E].
      + cbn. discriminate.
      + eauto.
    - destruct (check_conds cs) as [l|] eqn:El; [|discriminate].
      destruct (check_bins d) as [r|]; [|discriminate]. injection H as <-. destruct (IH r eq_refl) as [A B].
      destruct (check_conds_given _ _ El) as [E N].
      split; intros k' a [[= <- <-]|Hin].
      + exists (BList l). split; [left; reflexivity|]. cbn. symmetry. exact E.
      + destruct (A k' a Hin) as (b & Hb & E'). exists b. split; [right; exact Hb|exact E'].
      + cbn. exact N.
      + eauto.
  Qed.

  Lemma check_bins_none d : check_bins (W := W) d = None -> exists k a, In (k, a) d /\ ~ callable_bin a.
  Proof.
    induction d as [|[k [[c|]|cs]] d IH]; cbn [check_bins]; intros H; try discriminate.
    - destruct (check_bins d); [discriminate|]. destruct IH as (k' & a & Hin & Hn); [reflexivity|].
      exists k', a. split; [right; exact Hin|exact Hn].
    - exists k, (ACond None). split; [left; reflexivity|]. cbn. tauto.
    - destruct (check_conds cs) as [l|] eqn:El.
      + destruct (check_bins d); [discriminate|]. destruct IH as (k' & a & Hin & Hn); [reflexivity|].
        exists k', a. split; [right; exact Hin|exact Hn].
      + exists k, (AList cs). split; [left; reflexivity|]. cbn. intros X. apply X. apply check_conds_none. exact El.
  Qed.

  (** what a named add does, completely *)
  Lemma add_named g dk b n on dy : n <> EmptyString ->
    (In n (dkeys (g_points g)) /\ add_watch_point g dk b n on dy = (g, Exn ValueError)) \/
    (~ In n (dkeys (g_points g)) /\ (exists k a, In (k, a) (user_bins b) /\ ~ callable_bin a) /\
       add_watch_point g dk b n on dy = (g, Exn ValueError)) \/
    (~ In n (dkeys (g_points g)) /\ (forall k a, In (k, a) (user_bins b) -> callable_bin a) /\
      exists bs, map fst bs = map fst (user_bins b) /\
        (forall k a, In (k, a) (user_bins b) -> exists b', In (k, b') bs /\ conds_of b' = given a) /\
        add_watch_point g dk b n on dy =
          (mk_group (g_dis g) (g_points g ++ [(n, mk_point bs dy (map (fun kb => (fst kb, 0%nat)) bs) false
             (match on with None => g_dis g | Some x => x end) [])]) false (g_all_once g) (g_stop g) (g_count g) (g_calln g), Ok tt)).
  Proof.
    intros Hn. unfold add_watch_point.
    assert (forall X : group W * res unit, match n, b with EmptyString, AOne _ => (g, Exn AttributeError) | _, _ => X end = X) as HX.
    { intros X. destruct n; [congruence|reflexivity]. }
    rewrite HX. clear HX. destruct (String.eqb_spec n "") as [->|_]; [congruence|].
    destruct (dmem (g_points g) n) eqn:Em.
    - left. apply dmem_true in Em. auto.
    - right. apply dmem_false in Em.
      replace (match b with AOne None => None | AOne (Some c) => check_bins [("anonymous"%string, ACond (Some c))] | ADict d => check_bins d end)
        with (check_bins (user_bins b)) by (destruct b as [d|[c|]]; reflexivity).
      destruct (check_bins (user_bins b)) as [bs|] eqn:Eb.
      + right. split; [exact Em|]. destruct (check_bins_given _ _ Eb) as [A B]. split; [exact B|].
        exists bs. split; [exact (check_bins_keys _ _ Eb)|]. split; [exact A|].
        rewrite dset_notin by exact Em. reflexivity.
      + left. split; [exact Em|]. split; [exact (check_bins_none _ Eb)|reflexivity].
  Qed.

  Lemma map_fresh_dget (bs : list (string * bin W)) k b : In (k, b) bs ->
    dget (map (fun kb => (fst kb, 0%nat)) bs) k = Some 0%nat.
  Proof.
    induction bs as [|[k1 b1] bs IH]; cbn; [tauto|]. intros [[= -> ->]|H]; [rewrite String.eqb_refl; reflexivity|].
    destruct (String.eqb k k1); auto.
  Qed.

  Lemma hits_count (b : bin W) a ws : conds_of b = given a -> hits b ws = count_hold (given a) ws.
  Proof. intros E. unfold hits, count_hold, bin_holds, all_hold. rewrite E. reflexivity. Qed.

  (** C09 *)
  Lemma counters_after_add g dk bins name on dy os k a :
    reachable g -> wf_op (OAdd dk bins name on dy) -> name <> EmptyString ->
    snd (add_watch_point g dk bins name on dy) = Ok tt ->
    Forall wf_op os -> Forall (keeps name) os -> In (k, a) (user_bins bins) ->
    let g1 := fst (add_watch_point g dk bins name on dy) in
    exists n, shown (run g1 os) name k = Some n /\
      (count_hold (given a) (completed g1 os) <= n <= count_hold (given a) (effective g1 os))%nat.
  Proof.
    intros R Hwa Hn Hok Hwf Hk Ha g1.
    assert (Inv g1) as I1.
    { change g1 with (fst (exec g (OAdd dk bins name on dy))). apply exec_inv; [exact Hwa|apply reach_inv; exact R]. }
    destruct (add_named g dk bins name on dy Hn) as [[_ E]|[(_ & _ & E)|(Hni & _ & bs & _ & A & E)]];
      [rewrite E in Hok; discriminate|rewrite E in Hok; discriminate|].
    destruct (A k a Ha) as (b & Hb & Eb).
    assert (dget (g_points g1) name = Some (mk_point bs dy (map (fun kb => (fst kb, 0%nat)) bs) false
             (match on with None => g_dis g | Some x => x end) [])) as Hp.
    { unfold g1. rewrite E. cbn. rewrite <- dset_notin by exact Hni. apply dget_set_same. }
    destruct (counters_bounds os g1 name _ k b 0 Hwf I1 Hk Hp Hb (map_fresh_dget bs k b Hb))
      as (p' & n' & A1 & _ & A3 & A4).
    exists n'. rewrite shown_eq, A1. split; [exact A3|]. rewrite <- !(hits_count b a) by exact Eb. lia.
  Qed.

  Lemma counters_step g name os k n0 :
    reachable g -> Forall wf_op os -> Forall (keeps name) os -> shown g name k = Some n0 ->
    exists p b n, dget (g_points g) name = Some p /\ In (k, b) (p_bins p) /\ shown (run g os) name k = Some n /\
      (n0 + hits b (completed g os) <= n <= n0 + hits b (effective g os))%nat.
  Proof.
    intros R Hwf Hk Hs. apply reach_inv in R. rewrite shown_eq in Hs.
    destruct (dget (g_points g) name) as [p|] eqn:Hp; [|discriminate].
    pose proof (i_wf g R name p (dget_In _ _ _ Hp)) as Hw.
    destruct (pt_wf_in p k n0 Hw (dget_In _ _ _ Hs)) as (_ & b & Hb).
    destruct (counters_bounds os g name p k b n0 Hwf R Hk Hp Hb Hs) as (p' & n' & A1 & _ & A3 & A4).
    exists p, b, n'. rewrite shown_eq, A1. auto.
  Qed.

  Lemma reset_shows_zero g name p k b : reachable g -> dget (g_points g) name = Some p -> In (k, b) (p_bins p) ->
    shown (fst (reset_point g name)) name k = Some 0%nat.
  Proof.
    intros R Hp Hb. unfold reset_point. rewrite Hp. cbn. rewrite shown_eq. cbn. rewrite dget_set_same. cbn.
    eapply map_fresh_dget. exact Hb.
  Qed.

  (** C10 *)
  Lemma all_covered_iff g : reachable g ->
    (is_all_covered g = true <-> forall name, In name (dkeys (g_points g)) -> is_point_covered g name = Ok true).
  Proof.
    intros R. apply reach_inv in R. unfold is_all_covered, is_point_covered. split.
    - intros H name Hin. apply dget_Some_key in Hin as [p Hp]. rewrite Hp.
      destruct (g_hinted g) eqn:Eh.
      + rewrite (i_grp g R Eh name p (dget_In _ _ _ Hp)). reflexivity.
      + rewrite forallb_forall in H. specialize (H _ (dget_In _ _ _ Hp)). cbn in H. rewrite H. reflexivity.
    - intros H. destruct (g_hinted g); [reflexivity|]. apply forallb_forall. intros [k p] Hin. cbn.
      apply In_dget in Hin; [|apply R]. specialize (H k). rewrite Hin in H.
      assert (In k (dkeys (g_points g))) as Hk by (apply dget_Some_key; eauto).
      specialize (H Hk). injection H as H. exact H.
  Qed.

  Lemma shown_all p g name : Inv g -> dget (g_points g) name = Some p ->
    (all_hit p <-> forall k b, In (k, b) (p_bins p) -> exists n, shown g name k = Some n /\ (0 < n)%nat).
  Proof.
    intros I Hp. rewrite (all_hit_bins p (i_wf g I name p (dget_In _ _ _ Hp))).
    split; intros H k b Hb; destruct (H k b Hb) as (n & E & L); exists n; rewrite shown_eq, Hp in *; auto.
  Qed.

  Lemma covered_sound g name p : reachable g -> dget (g_points g) name = Some p ->
    is_point_covered g name = Ok true ->
    forall k b, In (k, b) (p_bins p) -> exists n, shown g name k = Some n /\ (0 < n)%nat.
  Proof.
    intros R Hp Hc. apply reach_inv in R. apply (shown_all p g name R Hp).
    unfold is_point_covered in Hc. rewrite Hp in Hc. injection Hc as Hc.
    exact (i_hit g R name p (dget_In _ _ _ Hp) Hc).
  Qed.

  Lemma covered_iff g name p : reachable_ok g -> dget (g_points g) name = Some p -> p_bins p <> [] ->
    (is_point_covered g name = Ok true <->
     forall k b, In (k, b) (p_bins p) -> exists n, shown g name k = Some n /\ (0 < n)%nat).
  Proof.
    intros R Hp Hne. split; [apply covered_sound; [apply reach_ok_reach|]; assumption|].
    intros H. apply reach_ok_inv in R as [I I2]. apply (shown_all p g name I Hp) in H.
    unfold is_point_covered. rewrite Hp. f_equal. exact (i2_conv g I2 name p (dget_In _ _ _ Hp) Hne H).
  Qed.

  (** a point without bins is covered exactly when it has been sampled *)
  Lemma empty_covered os : forall g name p, Forall wf_op os -> Inv g -> no_raise g os -> Forall (keeps name) os ->
    dget (g_points g) name = Some p -> p_bins p = [] ->
    exists p', dget (g_points (run g os)) name = Some p' /\ p_bins p' = [] /\
      p_hinted p' = (p_hinted p || negb (match effective g os with [] => true | _ => false end)).
  Proof.
    induction os as [|o os IH]; intros g name p Hwf I Hn Hk Hp Hb.
    - exists p. unfold run; cbn. rewrite orb_false_r. auto.
    - inversion Hwf; subst. inversion Hk; subst. destruct Hn as [Hn1 Hn2]. rewrite run_cons.
      assert (Inv (fst (exec g o))) as I1 by (apply exec_inv; assumption).
      destruct (exec_keep g o name p) as (p1 & Hp1 & Eb & _ & Hc); try assumption.
      rewrite Hb in Eb.
      destruct (IH (fst (exec g o)) name p1) as (p' & A1 & A2 & A3); try assumption.
      exists p'. split; [exact A1|]. split; [exact A2|]. rewrite A3. cbn [effective].
      destruct o; try (destruct Hc as [_ Hc]; rewrite Hc; reflexivity).
      destruct (sample_stoped g) eqn:Es; [subst p1; reflexivity|]. cbn [negb]. rewrite orb_true_r.
      assert (p_hinted p1 = true) as ->; [|reflexivity].
      cbn [exec] in *. destruct (sample_cases g w) as [(Es' & _)|(_ & ps & ao & r & EL & HC)]; [congruence|].
      destruct HC as [(ah & -> & E)|(e & -> & E)]; rewrite E in *; [|discriminate]. cbn [fst g_points] in *.
      destruct (sample_loop_ok w _ _ _ _ _ _ (i_wf g I) (i_nd g I) EL) as (A & _).
      destruct (A name p (dget_In _ _ _ Hp)) as (p2 & hi & on & Hin2 & Hc2).
      apply In_dget in Hin2; [|rewrite (sample_loop_keys _ _ _ _ _ _ _ EL); apply I].
      rewrite Hp1 in Hin2. injection Hin2 as <-.
      unfold check in Hc2. rewrite Hb in Hc2. cbn in Hc2. injection Hc2 as <- _ _. reflexivity.
  Qed.

  (** C11 *)
  Lemma stopped_frame g w : sample_stoped g = true ->
    snd (sample g w) = Ok tt /\ gd_points (as_dict (fst (sample g w))) = gd_points (as_dict g) /\
    gd_hinted (as_dict (fst (sample g w))) = gd_hinted (as_dict g) /\
    gd_count (as_dict (fst (sample g w))) = gd_count (as_dict g) /\
    gd_stop (as_dict (fst (sample g w))) = gd_stop (as_dict g) /\
    gd_calln (as_dict (fst (sample g w))) = S (gd_calln (as_dict g)) /\
    sample_stoped (fst (sample g w)) = true /\ is_all_covered (fst (sample g w)) = is_all_covered g.
  Proof.
    intros Es. destruct (sample_cases g w) as [(_ & E & E')|(Es' & _)]; [|congruence].
    rewrite E, E'. rewrite !report_points. unfold as_dict. cbn.
    destruct (collect_points (g_points g) 0 0 0 0 false) as [l [[[[bt bh] pt] ph] ho]]. cbn.
    repeat split. exact Es.
  Qed.

  Lemma stopped_sound g : reachable_ok g -> sample_stoped g = true ->
    gd_stop (as_dict g) = true \/
    (is_all_covered g = true /\ forall name p, dget (g_points g) name = Some p -> p_bins p = [] \/ p_once p = true).
  Proof.
    intros R H. apply reach_ok_inv in R as [I I2]. unfold sample_stoped in H.
    assert (gd_stop (as_dict g) = g_stop g) as ->.
    { unfold as_dict. destruct (collect_points _ _ _ _ _ _) as [l [[[[bt bh] pt] ph] ho]]. reflexivity. }
    destruct (g_stop g); [auto|]. right. apply andb_prop in H as [H1 H2].
    split; [unfold is_all_covered; rewrite H1; reflexivity|].
    intros name p Hp. exact (i2_once g I2 H1 H2 name p (dget_In _ _ _ Hp)).
  Qed.

  Lemma stop_reached g w : reachable g -> sample_stoped g = false -> snd (sample g w) = Ok tt ->
    let g' := fst (sample g w) in
    (sample_stoped g' = true <->
     is_all_covered g' = true /\ forall name p, dget (g_points g') name = Some p -> p_bins p = [] \/ p_once p = true).
  Proof.
    intros R Es Hok g'. pose proof (reach_inv g R) as I. unfold g'. clear g'.
    destruct (sample_cases g w) as [(Es' & _)|(_ & ps & ao & r & EL & HC)]; [congruence|].
    destruct HC as [(ah & -> & E)|(e & -> & E)]; rewrite E in *; [|discriminate]. cbn [fst].
    destruct (sample_loop_ok w _ _ _ _ _ _ (i_wf g I) (i_nd g I) EL) as (_ & _ & B & C).
    pose proof (sample_loop_keys _ _ _ _ _ _ _ EL) as Ek.
    assert (NoDup (dkeys ps)) as Hnd by (rewrite Ek; apply I).
    unfold sample_stoped, is_all_covered in *. cbn.
    destruct (g_stop g); [discriminate|].
    rewrite andb_true_iff. split.
    - intros [-> ->]. split; [reflexivity|]. intros name p Hp. destruct C as [C _].
      destruct (C eq_refl) as [_ C']. destruct (C' name p (dget_In _ _ _ Hp)) as [H|[_ H]]; auto.
    - intros [H1 H2].
      assert (forall k p, In (k, p) ps -> p_hinted p = true) as Hall.
      { destruct ah; [apply B; reflexivity|]. rewrite forallb_forall in H1. intros k p Hin. exact (H1 _ Hin). }
      split; [apply B; auto|]. apply C. split; [reflexivity|]. intros k p Hin.
      destruct (H2 k p (In_dget _ _ _ Hnd Hin)); [auto|right; split; eauto].
  Qed.

  Lemma once_false_never_skipped g name p w : reachable_ok g -> dget (g_points g) name = Some p ->
    p_bins p <> [] -> p_once p = false -> gd_stop (as_dict g) = false ->
    sample_stoped g = false /\ gd_count (as_dict (fst (sample g w))) = S (gd_count (as_dict g)).
  Proof.
    intros R Hp Hb Ho Hs. assert (sample_stoped g = false) as Es.
    { destruct (sample_stoped g) eqn:E; [|reflexivity]. destruct (stopped_sound g R E) as [H|[_ H]]; [congruence|].
      destruct (H name p Hp); congruence. }
    split; [exact Es|]. unfold as_dict.
    destruct (sample_cases g w) as [(Es' & _)|(_ & ps & ao & r & EL & HC)]; [congruence|].
    destruct (collect_points (g_points g) 0 0 0 0 false) as [l [[[[bt bh] pt] ph] ho]].
    destruct HC as [(ah & -> & E)|(e & -> & E)]; rewrite E; cbn;
      destruct (collect_points ps 0 0 0 0 false) as [l' [[[[bt' bh'] pt'] ph'] ho']]; reflexivity.
  Qed.

  (** C12: only when the whole group stops *)
  Lemma stopped_forever ws : forall g, sample_stoped g = true ->
    gd_points (as_dict (run g (map OSample ws))) = gd_points (as_dict g) /\
    gd_count (as_dict (run g (map OSample ws))) = gd_count (as_dict g).
  Proof.
    induction ws as [|w ws IH]; intros g H; [split; reflexivity|].
    cbn [map]. rewrite run_cons. cbn [exec].
    destruct (stopped_frame g w H) as (_ & A & _ & B & _ & _ & C & _).
    destruct (IH _ C) as [D E]. rewrite D, E, A, B. auto.
  Qed.

  Lemma once_group_frozen g w ws : reachable g -> sample_stoped g = false -> snd (sample g w) = Ok tt ->
    let g' := fst (sample g w) in
    is_all_covered g' = true -> (forall name p, dget (g_points g') name = Some p -> p_once p = true) ->
    gd_points (as_dict (run g' (map OSample ws))) = gd_points (as_dict g').
  Proof.
    intros R Es Hok g' H1 H2. apply stopped_forever. apply (stop_reached g w R Es Hok). split; [exact H1|].
    intros name p Hp. right. eauto.
  Qed.

  (** C13 *)
  Definition pos (kn : string * nat) : bool := Nat.ltb 0 (snd kn).

  Lemma collect_bins_eq h : forall t i,
    collect_bins h t i = (t + List.length h, i + List.length (filter pos h))%nat.
  Proof.
    induction h as [|[k y] h IH]; intros t i; cbn [collect_bins filter]; [cbn; f_equal; lia|].
    rewrite IH. unfold pos at 2. cbn [snd]. destruct (Nat.ltb 0 y); cbn [List.length]; f_equal; lia.
  Qed.

  Lemma collect_points_eq ps : forall bt bh pt ph ho,
    snd (collect_points (W := W) ps bt bh pt ph ho) =
    (bt + list_sum (map (fun kp => List.length (p_hints (snd kp))) ps),
     bh + list_sum (map (fun kp => List.length (filter pos (p_hints (snd kp)))) ps),
     pt + List.length ps, ph + List.length (filter (fun kp => p_hinted (snd kp)) ps),
     ho || existsb (fun kp => p_once (snd kp)) ps)%nat.
  Proof.
    induction ps as [|[k v] ps IH]; intros bt bh pt ph ho; cbn [collect_points].
    - cbn. rewrite orb_false_r. rewrite !Nat.add_0_r. reflexivity.
    - rewrite collect_bins_eq.
      specialize (IH (bt + List.length (p_hints v))%nat (bh + List.length (filter pos (p_hints v)))%nat (S pt)
        (if p_hinted v then S ph else ph) (if p_once v then true else ho)).
      destruct (collect_points ps _ _ _ _ _) as [l c]. cbn [snd] in *. rewrite IH.
      assert (forall a b c d a' b' c' d' : nat, forall e e' : bool, a = a' -> b = b' -> c = c' -> d = d' -> e = e' ->
        (a, b, c, d, e) = (a', b', c', d', e')) as H5 by (intros; congruence).
      cbn [map snd filter List.length existsb].
      assert (forall x l', list_sum (x :: l') = (x + list_sum l')%nat) as Hs by reflexivity. rewrite !Hs.
      apply H5; try lia.
      + destruct (p_hinted v); cbn [List.length]; lia.
      + destruct (p_once v), ho; reflexivity.
  Qed.

  Lemma report_totals g :
    gd_bin_total (as_dict g) = list_sum (map (fun d => List.length (pd_bins d)) (gd_points (as_dict g))) /\
    gd_bin_hints (as_dict g) = list_sum (map (fun d => List.length (filter pos (pd_bins d))) (gd_points (as_dict g))) /\
    gd_point_total (as_dict g) = List.length (gd_points (as_dict g)) /\
    gd_point_hints (as_dict g) = List.length (filter pd_hinted (gd_points (as_dict g))) /\
    gd_has_once (as_dict g) = existsb pd_once (gd_points (as_dict g)).
  Proof.
    rewrite report_points. unfold as_dict.
    pose proof (collect_points_eq (g_points g) 0 0 0 0 false) as H.
    destruct (collect_points _ _ _ _ _ _) as [l c]. cbn [snd] in H. subst c.
    cbn. rewrite !map_map, map_length. cbn.
    assert (forall ps : dict (point W), List.length (filter (fun kp => p_hinted (snd kp)) ps) =
      List.length (filter pd_hinted (map (fun kp => mk_pd (p_once (snd kp)) (p_hinted (snd kp)) (p_hints (snd kp)) (fst kp)
                     (p_functions (snd kp)) (p_dyn (snd kp))) ps))) as E1.
    { induction ps as [|kp ps IH]; cbn; [reflexivity|]. destruct (p_hinted (snd kp)); cbn; congruence. }
    assert (forall ps : dict (point W), existsb (fun kp => p_once (snd kp)) ps =
      existsb pd_once (map (fun kp => mk_pd (p_once (snd kp)) (p_hinted (snd kp)) (p_hints (snd kp)) (fst kp)
                     (p_functions (snd kp)) (p_dyn (snd kp))) ps)) as E2.
    { induction ps as [|kp ps IH]; cbn; [reflexivity|]. rewrite IH. reflexivity. }
    auto 6.
  Qed.

  Lemma filter_length_le' {A} (f : A -> bool) l : (List.length (filter f l) <= List.length l)%nat.
  Proof. induction l as [|x l IH]; cbn; [lia|]. destruct (f x); cbn; lia. Qed.

  Lemma report_bounds g :
    (gd_bin_hints (as_dict g) <= gd_bin_total (as_dict g))%nat /\ (gd_point_hints (as_dict g) <= gd_point_total (as_dict g))%nat.
  Proof.
    destruct (report_totals g) as (-> & -> & -> & -> & _). split; [|apply filter_length_le'].
    induction (gd_points (as_dict g)) as [|d l IH]; cbn; [lia|].
    pose proof (filter_length_le' pos (pd_bins d)). unfold list_sum in *. lia.
  Qed.

  Lemma report_full g : reachable g ->
    gd_point_hints (as_dict g) = gd_point_total (as_dict g) -> gd_bin_hints (as_dict g) = gd_bin_total (as_dict g).
  Proof.
    intros R. apply reach_inv in R. destruct (report_totals g) as (-> & -> & -> & -> & _). intros H.
    assert (forall d, In d (gd_points (as_dict g)) -> pd_hinted d = true) as Hd.
    { revert H. induction (gd_points (as_dict g)) as [|d l IH]; cbn; [tauto|].
      pose proof (filter_length_le' pd_hinted l). destruct (pd_hinted d) eqn:E; cbn; intros H0; [|lia].
      intros d' [<-|Hin]; [exact E|]. apply IH; [lia|exact Hin]. }
    assert (forall d, In d (gd_points (as_dict g)) -> filter pos (pd_bins d) = pd_bins d) as Hf.
    { intros d Hin. pose proof (Hd d Hin) as Hh. rewrite report_points in Hin.
      apply in_map_iff in Hin as ([k p] & <- & Hin). cbn in *.
      pose proof (i_hit g R k p Hin Hh) as Hall. unfold all_hit in Hall.
      induction (p_hints p) as [|[x y] h IH]; cbn [filter]; [reflexivity|].
      specialize (Hall x y (or_introl eq_refl)) as L.
      assert (pos (x, y) = true) as -> by (apply Nat.ltb_lt; exact L).
      f_equal. apply IH. intros k' n' Hin'. apply (Hall k' n'). right; exact Hin'. }
    clear Hd H. induction (gd_points (as_dict g)) as [|d l IH]; cbn; [reflexivity|].
    rewrite (Hf d (or_introl eq_refl)). unfold list_sum in *. f_equal. apply IH. intros d' H'. apply Hf. right; exact H'.
  Qed.

  Lemma report_hinted g : reachable g -> gd_hinted (as_dict g) = true -> is_all_covered g = true.
  Proof.
    intros R H. unfold as_dict in H. destruct (collect_points _ _ _ _ _ _) as [l [[[[bt bh] pt] ph] ho]].
    cbn in H. unfold is_all_covered. rewrite H. reflexivity.
  Qed.

  Lemma report_hinted_after g w : reachable g -> sample_stoped g = false -> snd (sample g w) = Ok tt ->
    gd_hinted (as_dict (fst (sample g w))) = is_all_covered (fst (sample g w)).
  Proof.
    intros R Es Hok. pose proof (reach_inv g R) as I.
    destruct (sample_cases g w) as [(Es' & _)|(_ & ps & ao & r & EL & HC)]; [congruence|].
    destruct HC as [(ah & -> & E)|(e & -> & E)]; rewrite E in *; [|discriminate]. cbn [fst].
    destruct (sample_loop_ok w _ _ _ _ _ _ (i_wf g I) (i_nd g I) EL) as (_ & _ & B & _).
    unfold as_dict, is_all_covered. cbn.
    destruct (collect_points _ _ _ _ _ _) as [l [[[[bt bh] pt] ph] ho]]. cbn.
    destruct ah; [reflexivity|]. symmetry. apply not_true_iff_false. intros H. rewrite forallb_forall in H.
    enough (false = true) by discriminate. apply B. split; [reflexivity|]. intros k p Hin. exact (H _ Hin).
  Qed.
End P.
