(** Coverage: editing points (C14), raising bins (C15), stop/resume (C16), marks (C17), conditions (C18),
    and the witnesses of the refuted statements. *)
From Coq Require Import List String Ascii ZArith Bool Lia.
From Verif Require Import Py Dict_Proofs Funcov_Model Funcov_Spec Funcov_Proofs FuncovProps_Proofs.
Import ListNotations.
Open Scope list_scope.

Section P.
  Context {W : Type}.
  Implicit Types (g : group W) (p : point W) (w : W).

  (** ** C14 *)
  Lemma add_report g dk b n on dy : n <> EmptyString ->
    (snd (add_watch_point g dk b n on dy) = Ok tt /\
       ~ In n (map pd_name (gd_points (as_dict g))) /\ (forall k a, In (k, a) (user_bins b) -> callable_bin a) /\
       gd_points (as_dict (fst (add_watch_point g dk b n on dy))) =
         gd_points (as_dict g) ++
         [mk_pd (match on with None => g_dis g | Some x => x end) false
            (map (fun ka => (fst ka, 0%nat)) (user_bins b)) n [] dy]) \/
    (add_watch_point g dk b n on dy = (g, Exn ValueError) /\
       (In n (map pd_name (gd_points (as_dict g))) \/ exists k a, In (k, a) (user_bins b) /\ ~ callable_bin a)).
  Proof.
    intros Hn.
    assert (map pd_name (gd_points (as_dict g)) = dkeys (g_points g)) as Hk.
    { rewrite report_points, map_map. reflexivity. }
    rewrite Hk.
    destruct (add_named g dk b n on dy Hn) as [[H E]|[(H & H' & E)|(H & H' & bs & Ebs & _ & E)]]; rewrite E.
    - right. auto.
    - right. auto.
    - left. split; [reflexivity|]. split; [exact H|]. split; [exact H'|]. cbn [fst].
      rewrite !report_points. cbn [g_points]. rewrite map_app. cbn. do 3 f_equal.
      rewrite <- (map_map fst (fun x => (x, 0%nat)) bs), Ebs, map_map. reflexivity.
  Qed.

  Lemma del_report g n : reachable g ->
    (snd (del_point g n) = Ok tt /\ In n (map pd_name (gd_points (as_dict g))) /\
       gd_points (as_dict (fst (del_point g n))) =
         filter (fun d => negb (String.eqb n (pd_name d))) (gd_points (as_dict g))) \/
    (del_point g n = (g, Exn ValueError) /\ ~ In n (map pd_name (gd_points (as_dict g)))).
  Proof.
    intros R. apply reach_inv in R.
    assert (map pd_name (gd_points (as_dict g)) = dkeys (g_points g)) as Hk.
    { rewrite report_points, map_map. reflexivity. }
    rewrite Hk. unfold del_point. destruct (dmem (g_points g) n) eqn:Em.
    - left. apply dmem_true in Em. split; [reflexivity|]. split; [exact Em|].
      rewrite !report_points. cbn [g_points fst].
      assert (NoDup (dkeys (g_points g))) as Hnd by apply R. revert Hnd. clear.
      induction (g_points g) as [|[k p] d IH]; cbn; [reflexivity|]. intros H. inversion H as [|? ? Hni Hnd]; subst.
      destruct (String.eqb_spec n k) as [->|Hne]; cbn.
      + clear - Hni. induction d as [|[k' p'] d IH]; cbn; [reflexivity|]. cbn in Hni.
        destruct (String.eqb_spec k k') as [->|]; [exfalso; auto|]. cbn. f_equal. apply IH. tauto.
      + f_equal. apply IH. exact Hnd.
    - right. apply dmem_false in Em. auto.
  Qed.

  Lemma reset_report g n : reachable g ->
    (snd (reset_point g n) = Ok tt /\ In n (map pd_name (gd_points (as_dict g))) /\
       gd_points (as_dict (fst (reset_point g n))) =
         map (fun d => if String.eqb n (pd_name d)
                       then mk_pd (pd_once d) false (map (fun kn => (fst kn, 0%nat)) (pd_bins d)) (pd_name d)
                              (pd_functions d) (pd_dyn d)
                       else d) (gd_points (as_dict g))) \/
    (reset_point g n = (g, Exn ValueError) /\ ~ In n (map pd_name (gd_points (as_dict g)))).
  Proof.
    intros R. apply reach_inv in R.
    assert (map pd_name (gd_points (as_dict g)) = dkeys (g_points g)) as Hk.
    { rewrite report_points, map_map. reflexivity. }
    rewrite Hk. clear Hk. unfold reset_point. destruct (dget (g_points g) n) as [p|] eqn:Ep.
    - left. split; [reflexivity|]. split; [apply dget_Some_key; eauto|].
      rewrite !report_points. cbn [g_points fst]. rewrite map_map. cbn [pd_name pd_once pd_bins pd_functions pd_dyn].
      pose proof (i_wf g R n p (dget_In _ _ _ Ep)) as [_ Hw]. revert Ep.
      assert (NoDup (dkeys (g_points g))) as Hnd by apply R. revert Hnd.
      induction (g_points g) as [|[k q] d IH]; cbn; [discriminate|]. intros H. inversion H as [|? ? Hni Hnd]; subst.
      destruct (String.eqb_spec n k) as [->|Hne]; cbn.
      + intros [= ->]. f_equal.
        * f_equal. rewrite <- (map_map fst (fun x => (x, 0%nat)) (p_bins p)), <- Hw. unfold dkeys. rewrite map_map. reflexivity.
        * clear - Hni. induction d as [|[k' p'] d IH]; cbn; [reflexivity|]. cbn in Hni.
          destruct (String.eqb_spec k k') as [->|]; [exfalso; auto|]. f_equal. apply IH. tauto.
      + intros Ep. f_equal. apply IH; [exact Hnd|exact Ep].
    - right. apply dget_None in Ep. auto.
  Qed.

  (** ** C15, partial *)
  Lemma raise_not_stopped g w e : reachable g -> is_all_covered g = false -> gd_stop (as_dict g) = false ->
    snd (sample g w) = Exn e -> sample_stoped (fst (sample g w)) = false.
  Proof.
    intros R Hc Hs He.
    assert (gd_stop (as_dict g) = g_stop g) as Es.
    { unfold as_dict. destruct (collect_points _ _ _ _ _ _) as [l [[[[bt bh] pt] ph] ho]]. reflexivity. }
    rewrite Es in Hs.
    assert (g_hinted g = false) as Hh.
    { unfold is_all_covered in Hc. destruct (g_hinted g); [discriminate|reflexivity]. }
    destruct (sample_cases g w) as [(_ & _ & E)|(_ & ps & ao & r & EL & HC)]; [congruence|].
    destruct HC as [(ah & -> & E)|(e' & -> & E)]; rewrite E in *; [discriminate|].
    unfold sample_stoped. cbn. rewrite Hs, Hh. reflexivity.
  Qed.

  Lemma resume_after_anything g : sample_stoped (resume_sample g) = false.
  Proof. unfold sample_stoped. cbn. apply andb_false_r. Qed.

  (** ** C16, partial *)
  Lemma stop_attr_frame ws : forall g, g_stop g = true ->
    gd_points (as_dict (run g (map OSample ws))) = gd_points (as_dict g) /\
    gd_count (as_dict (run g (map OSample ws))) = gd_count (as_dict g) /\
    sample_stoped (run g (map OSample ws)) = true.
  Proof.
    intros g H. assert (sample_stoped g = true) as Hs by (unfold sample_stoped; rewrite H; reflexivity).
    destruct (stopped_forever ws g Hs) as [A B]. split; [exact A|]. split; [exact B|].
    clear A B H. revert g Hs. induction ws as [|w ws IH]; intros g H; [exact H|].
    cbn [map]. rewrite run_cons. apply IH. destruct (stopped_frame g w H) as (_ & _ & _ & _ & _ & _ & C & _). exact C.
  Qed.

  Lemma resume_then_sample g w : reachable g -> snd (sample (resume_sample g) w) = Ok tt ->
    let g' := fst (sample (resume_sample g) w) in
    gd_count (as_dict g') = S (gd_count (as_dict g)) /\
    forall name p k b n, dget (g_points g) name = Some p -> In (k, b) (p_bins p) -> shown g name k = Some n ->
      shown g' name k = Some (n + if bin_holds b w then 1 else 0)%nat.
  Proof.
    intros R Hok g'. split.
    - unfold g'. destruct (sample_cases (resume_sample g) w) as [(Es' & _)|(_ & ps & ao & r & EL & HC)];
        [rewrite resume_after_anything in Es'; discriminate|].
      unfold as_dict. destruct (collect_points (g_points g) 0 0 0 0 false) as [l [[[[bt bh] pt] ph] ho]].
      destruct HC as [(ah & -> & E)|(e & -> & E)]; rewrite E; cbn;
        destruct (collect_points ps 0 0 0 0 false) as [l' [[[[bt' bh'] pt'] ph'] ho']]; reflexivity.
    - intros name p k b n Hp Hb Hs.
      assert (reachable (resume_sample g)) as R2 by (change (resume_sample g) with (fst (exec g OResume)); apply reach_step; [exact I|exact R]).
      pose proof (reach_inv _ R2) as I2.
      rewrite shown_eq, Hp in Hs.
      destruct (exec_keep (resume_sample g) (OSample w) name p) as (p' & Hp' & _ & _ & Hc);
        [exact I|exact I2|exact I|exact Hp|].
      rewrite resume_after_anything in Hc. destruct (Hc k b n Hb Hs) as (n' & E & L).
      cbn [exec] in *. unfold g'. rewrite shown_eq, Hp', E. f_equal.
      change (snd (sample (resume_sample g) w)) with (snd (exec (resume_sample g) (OSample w))) in Hok.
      cbn [exec] in Hok. rewrite Hok in L. cbn [is_ok] in L. lia.
  Qed.
End P.

(** ** C17 *)
Section Marks.
  Context (strip : string -> string) (fnm : string -> string -> bool)
          (rex : string -> option (string -> bool)) (uniq : list string -> list string).
  Context (uniq_in : forall l x, In x (uniq l) <-> In x l).
  Context {W : Type}.
  Implicit Types (g : group W).

  Lemma has_wild_spec s : has_wild s = true <-> wild s.
  Proof.
    unfold wild. induction s as [|c s IH]; cbn [has_wild list_ascii_of_string In]; [split; [discriminate|tauto]|].
    rewrite !orb_true_iff, IH, !Ascii.eqb_eq. split; [intros [[H|H]|[H|H]]|intros [[H|H]|[H|H]]]; auto.
  Qed.

  Lemma sadd_in x y l : In x (sadd y l) <-> In x l \/ x = y.
  Proof.
    unfold sadd. destruct (smem y l) eqn:E.
    - apply smem_In in E. split; [auto|]. intros [H| ->]; assumption.
    - rewrite in_app_iff. cbn. split; [intros [H|[H|[]]]; auto|intros [H| ->]; auto].
  Qed.

  Lemma add_funcs_ok fs : forall s s', add_funcs fs s = (s', Ok tt) ->
    (forall f, In f fs -> fname f <> None) /\
    forall x, In x s' <-> In x s \/ exists f, In f fs /\ fname f = Some x.
  Proof.
    induction fs as [|f fs IH]; intros s s' H; cbn [add_funcs] in H.
    - injection H as <-. split; [intros f []|]. intros x. split; [auto|]. intros [H|(f & [] & _)]; exact H.
    - assert (exists y, fname f = Some y /\ add_funcs fs (sadd y s) = (s', Ok tt)) as (y & Ef & H').
      { destruct f as [y|[y|e]|]; try discriminate; exists y; auto. }
      destruct (IH _ _ H') as [A B]. split.
      + intros f' [<-|Hf]; [congruence|auto].
      + intros x. rewrite B, sadd_in. split.
        * intros [[H1| ->]|(f' & Hf & E)]; [auto|right; exists f; split; [left; reflexivity|exact Ef]|right; exists f'; split; [right; exact Hf|exact E]].
        * intros [H1|(f' & [<-|Hf] & E)]; [auto|left; right; congruence|right; eauto].
  Qed.

  Lemma add_funcs_mono fs : forall s s' r, add_funcs fs s = (s', r) -> incl s s'.
  Proof.
    induction fs as [|f fs IH]; intros s s' r H; cbn [add_funcs] in H; [injection H as <- <-; apply incl_refl|].
    destruct f as [y|[y|e]|]; try (injection H as <- <-; apply incl_refl);
      (intros x Hx; apply (IH _ _ _ H); apply sadd_in; auto).
  Qed.

  Lemma add_funcs_res fs : forall s s' r, add_funcs fs s = (s', r) -> (forall f, In f fs -> fname f <> None) -> r = Ok tt.
  Proof.
    induction fs as [|f fs IH]; intros s s' r H Hf; cbn [add_funcs] in H; [injection H as <- <-; reflexivity|].
    pose proof (Hf f (or_introl eq_refl)) as H1.
    destruct f as [y|[y|e]|]; cbn in H1; try congruence; (eapply IH; [exact H|intros f' Hf'; apply Hf; right; exact Hf']).
  Qed.

  Definition get (d : dict (list string)) k := match dget d k with Some l => l | None => [] end.

  Lemma mark_loop_mono bs fs : forall d d' r, mark_loop bs fs d = (d', r) -> forall k, incl (get d k) (get d' k).
  Proof.
    induction bs as [|b bs IH]; intros d d' r H k; cbn [mark_loop] in H; [injection H as <- <-; apply incl_refl|].
    destruct (add_funcs fs _) as [s [u|e]] eqn:E.
    - apply add_funcs_mono in E. eapply incl_tran; [|eapply IH; exact H]. unfold get.
      destruct (string_dec k b) as [->|Hne]; [rewrite dget_set_same; exact E|rewrite dget_set_other by exact Hne; apply incl_refl].
    - apply add_funcs_mono in E. injection H as <- <-. unfold get.
      destruct (string_dec k b) as [->|Hne]; [rewrite dget_set_same; exact E|rewrite dget_set_other by exact Hne; apply incl_refl].
  Qed.

  Lemma mark_loop_other bs fs : forall d d' r k, mark_loop bs fs d = (d', r) -> ~ In k bs -> get d' k = get d k.
  Proof.
    induction bs as [|b bs IH]; intros d d' r k H Hk; cbn [mark_loop] in H; [injection H as <- <-; reflexivity|].
    cbn in Hk. destruct (add_funcs fs _) as [s [u|e]].
    - rewrite (IH _ _ _ k H) by tauto. unfold get. rewrite dget_set_other by (intros ->; tauto). reflexivity.
    - injection H as <- <-. unfold get. rewrite dget_set_other by (intros ->; tauto). reflexivity.
  Qed.

  Lemma mark_loop_ok bs fs : forall d d', mark_loop bs fs d = (d', Ok tt) ->
    forall k x, In k bs -> (In x (get d' k) <-> In x (get d k) \/ exists f, In f fs /\ fname f = Some x).
  Proof.
    induction bs as [|b bs IH]; intros d d' H k x Hk; cbn [mark_loop] in H; [destruct Hk|].
    change (match dget d b with Some s => s | None => [] end) with (get d b) in H.
    destruct (add_funcs fs (get d b)) as [s [[]|e]] eqn:E; [|discriminate].
    destruct (add_funcs_ok _ _ _ E) as [_ B].
    destruct (in_dec string_dec k bs) as [Hin|Hni].
    - rewrite (IH _ _ H k x Hin). unfold get at 1. destruct (string_dec k b) as [->|Hne].
      + rewrite dget_set_same, B. tauto.
      + rewrite dget_set_other by exact Hne. reflexivity.
    - destruct Hk as [->|Hk]; [|contradiction].
      rewrite (mark_loop_other _ _ _ _ _ _ H Hni). unfold get at 1. rewrite dget_set_same. apply B.
  Qed.

  Lemma mark_loop_res bs fs : forall d d' r, mark_loop bs fs d = (d', r) -> (forall f, In f fs -> fname f <> None) -> r = Ok tt.
  Proof.
    induction bs as [|b bs IH]; intros d d' r H Hf; cbn [mark_loop] in H; [injection H as <- <-; reflexivity|].
    destruct (add_funcs fs _) as [s r0] eqn:E. pose proof (add_funcs_res _ _ _ _ E Hf) as ->. eapply IH; eauto.
  Qed.

  (** one pattern *)
  Lemma filter_nil_iff {A} (f : A -> bool) l : filter f l = [] <-> forall x, In x l -> f x = false.
  Proof.
    induction l as [|x l IH]; cbn; [tauto|]. destruct (f x) eqn:E; split; intros H.
    - discriminate.
    - specialize (H x (or_introl eq_refl)). congruence.
    - intros y [<-|Hy]; [exact E|apply IH; assumption].
    - apply IH. intros y Hy. apply H. right; exact Hy.
  Qed.

  Definition one (avail : list string) (p0 : string) : res (list string) :=
    if smem (strip p0) avail then Ok [strip p0]
    else if has_wild (strip p0) then Ok (filter (fun b => fnm b (strip p0)) avail)
    else match rex (strip p0) with None => Exn (UserExn 0) | Some m => Ok (filter m avail) end.

  Lemma one_ok avail p bs : one avail p = Ok bs -> forall b, In b bs <-> selects strip fnm rex avail p b.
  Proof.
    unfold one, selects. intros H b.
    destruct (smem (strip p) avail) eqn:E1.
    - apply smem_In in E1. injection H as <-. cbn. split.
      + intros [<-|[]]. split; [exact E1|]. left. auto.
      + intros [_ [[_ ->]|[[H _]|[H _]]]]; [auto|contradiction|contradiction].
    - assert (~ In (strip p) avail) as E1' by (intros X; apply smem_In in X; congruence).
      destruct (has_wild (strip p)) eqn:E2.
      + apply has_wild_spec in E2. injection H as <-. rewrite filter_In. split.
        * intros [H1 H2]. split; [exact H1|]. right; left. auto.
        * intros [H1 [[H _]|[(_ & _ & H)|(_ & H & _)]]]; [contradiction|auto|contradiction].
      + assert (~ wild (strip p)) as E2' by (intros X; apply has_wild_spec in X; congruence).
        destruct (rex (strip p)) as [m|] eqn:Em; [|discriminate]. injection H as <-. rewrite filter_In. split.
        * intros [H1 H2]. split; [exact H1|]. right; right. eauto.
        * intros [H1 [[H _]|[(_ & H & _)|(_ & _ & m' & Em' & H)]]]; [contradiction|contradiction|].
          injection Em' as <-. auto.
  Qed.

  Lemma match_bins_cons avail p t : match_bins strip fnm rex avail (p :: t) =
    match one avail p with
    | Exn e => Exn e
    | Ok [] => Exn AssertionError
    | Ok bs => match match_bins strip fnm rex avail t with Exn e => Exn e | Ok r' => Ok (bs ++ r') end
    end.
  Proof. reflexivity. Qed.

  Lemma match_bins_ok avail pats : forall bs, match_bins strip fnm rex avail pats = Ok bs ->
    (forall b, In b bs <-> exists pat, In pat pats /\ selects strip fnm rex avail pat b) /\
    (forall pat, In pat pats -> exists b, selects strip fnm rex avail pat b).
  Proof.
    induction pats as [|p pats IH]; intros bs H.
    - injection H as <-. split; [|intros ? []]. intros b. split; [intros []|intros (pat & [] & _)].
    - rewrite match_bins_cons in H. destruct (one avail p) as [[|b0 l]|e] eqn:E1; try discriminate.
      destruct (match_bins strip fnm rex avail pats) as [r'|e] eqn:E2; [|discriminate]. injection H as <-.
      destruct (IH r' eq_refl) as [A B]. pose proof (one_ok _ _ _ E1) as C. split.
      + intros b. change (b0 :: l ++ r') with ((b0 :: l) ++ r'). rewrite in_app_iff, C, A. split.
        * intros [H|(pat & H1 & H2)]; [exists p|exists pat]; split; auto; [left; reflexivity|right; exact H1].
        * intros (pat & [<-|H1] & H2); [auto|right; eauto].
      + intros pat [<-|H]; [|auto]. exists b0. apply C. left; reflexivity.
  Qed.

  Lemma match_bins_nomatch avail pats pat : In pat pats -> (forall b, ~ selects strip fnm rex avail pat b) ->
    exists e, match_bins strip fnm rex avail pats = Exn e.
  Proof.
    intros Hin Hno. destruct (match_bins strip fnm rex avail pats) as [bs|e] eqn:E; [|eauto].
    destruct (match_bins_ok _ _ _ E) as [_ B]. destruct (B pat Hin) as [b Hb]. exfalso. eapply Hno; eauto.
  Qed.

  Lemma mark_get g name k : marks g name k = match dget (g_points g) name with Some p => get (p_functions p) k | None => [] end.
  Proof. rewrite marks_eq. reflexivity. Qed.

  Lemma mark_frame g name fs pats re :
    let g' := fst (mark_function strip fnm rex uniq g name fs pats re) in
    map strip_functions (gd_points (as_dict g')) = map strip_functions (gd_points (as_dict g)) /\
    (forall n k, n <> name -> marks g' n k = marks g n k) /\
    (forall n k, incl (marks g n k) (marks g' n k)) /\
    g_hinted g' = g_hinted g /\ sample_stoped g' = sample_stoped g.
  Proof.
    cbv zeta. unfold mark_function. destruct (dget (g_points g) name) as [p|] eqn:Ep; [|cbn; repeat split; auto; intros; apply incl_refl].
    destruct pats as [|p0 pats]; [cbn; repeat split; auto; intros; apply incl_refl|].
    destruct (match_bins strip fnm rex _ _) as [bs|e]; [|cbn; repeat split; auto; intros; apply incl_refl].
    destruct (mark_loop (uniq bs) fs (p_functions p)) as [d r] eqn:El. cbn [fst].
    split; [|split; [|split; [|split; reflexivity]]].
    - rewrite !report_points. cbn [g_points]. rewrite !map_map. revert Ep.
      induction (g_points g) as [|[k q] l IH]; cbn; [discriminate|].
      destruct (String.eqb name k); cbn; [intros [= ->]; reflexivity|]. intros Ep. f_equal. auto.
    - intros n k Hn. rewrite !mark_get. cbn [g_points]. rewrite dget_set_other by exact Hn. reflexivity.
    - intros n k. rewrite !mark_get. cbn [g_points]. destruct (string_dec n name) as [->|Hn].
      + rewrite dget_set_same, Ep. cbn. eapply mark_loop_mono; exact El.
      + rewrite dget_set_other by exact Hn. apply incl_refl.
  Qed.

  Lemma mark_ok g name p fs pats re : dget (g_points g) name = Some p ->
    snd (mark_function strip fnm rex uniq g name fs pats re) = Ok tt ->
    let g' := fst (mark_function strip fnm rex uniq g name fs pats re) in
    forall k x, In x (marks g' name k) <->
      In x (marks g name k) \/
      ((exists pat, In pat pats /\ selects strip fnm rex (map fst (p_bins p)) pat k) /\ exists f, In f fs /\ fname f = Some x).
  Proof.
    cbv zeta. intros Ep Hok k x. unfold mark_function in *. rewrite Ep in *.
    destruct pats as [|p0 pats]; [discriminate|].
    destruct (match_bins strip fnm rex _ _) as [bs|e] eqn:Em; [|discriminate].
    destruct (mark_loop (uniq bs) fs (p_functions p)) as [d r] eqn:El. cbn [fst snd] in *. subst r.
    rewrite !mark_get. cbn [g_points]. rewrite dget_set_same, Ep. cbn [p_functions].
    destruct (match_bins_ok _ _ _ Em) as [A _].
    destruct (in_dec string_dec k (uniq bs)) as [Hin|Hni].
    - rewrite (mark_loop_ok _ _ _ _ El k x Hin). rewrite uniq_in, A in Hin. tauto.
    - rewrite (mark_loop_other _ _ _ _ _ _ El Hni). rewrite uniq_in, A in Hni. tauto.
  Qed.

  Lemma mark_succeeds g name p fs pats re : dget (g_points g) name = Some p -> pats <> [] ->
    (forall pat, In pat pats -> rex (strip pat) <> None) ->
    (forall pat, In pat pats -> exists b, selects strip fnm rex (map fst (p_bins p)) pat b) ->
    (forall f, In f fs -> fname f <> None) ->
    snd (mark_function strip fnm rex uniq g name fs pats re) = Ok tt.
  Proof.
    intros Ep Hne Hrex Hsel Hf. unfold mark_function. rewrite Ep. destruct pats as [|p0 pats]; [congruence|].
    set (avail := map fst (p_bins p)) in *.
    assert (exists bs, match_bins strip fnm rex avail (p0 :: pats) = Ok bs) as [bs ->].
    { clear Hne. revert Hrex Hsel. generalize (p0 :: pats) as l. induction l as [|q l IH]; intros Hrex Hsel; [exists []; reflexivity|].
      rewrite match_bins_cons.
      assert (exists l0, one avail q = Ok l0) as [l0 E].
      { unfold one. destruct (smem _ _); [eauto|]. destruct (has_wild _); [eauto|].
        pose proof (Hrex q (or_introl eq_refl)). destruct (rex (strip q)); [eauto|congruence]. }
      rewrite E. destruct (Hsel q (or_introl eq_refl)) as [b Hb]. apply (one_ok _ _ _ E) in Hb.
      destruct l0 as [|b0 l0]; [destruct Hb|].
      destruct IH as [r Er]; [intros; apply Hrex; right; assumption|intros; apply Hsel; right; assumption|].
      rewrite Er. eauto. }
    destruct (mark_loop (uniq bs) fs (p_functions p)) as [d r] eqn:El. cbn. eapply mark_loop_res; eauto.
  Qed.

  Lemma mark_nomatch g name p fs pats pat re : dget (g_points g) name = Some p -> In pat pats ->
    (forall b, ~ selects strip fnm rex (map fst (p_bins p)) pat b) ->
    exists e, mark_function strip fnm rex uniq g name fs pats re = (g, Exn e).
  Proof.
    intros Ep Hin Hno. unfold mark_function. rewrite Ep. destruct pats as [|p0 pats]; [destruct Hin|].
    destruct (match_bins_nomatch _ _ _ Hin Hno) as [e E]. rewrite E. eauto.
  Qed.
End Marks.

(** ** C18 *)
Lemma cond_spec c t :
  pcall c t = true <->
  let v := match t with TInt z => z | TObj z => z end in
  match c with
  | CEq x => v = x | CNe x => v <> x | CGt x => (v > x)%Z | CLt x => (v < x)%Z
  | CGe x => (v >= x)%Z | CLe x => (v <= x)%Z | CIn l => In v l | CNotIn l => ~ In v l
  | CRange lo hi => (lo <= v <= hi)%Z
  end.
Proof.
  unfold pcall. set (v := match t with TInt z => z | TObj z => z end). cbv zeta.
  assert (forall l, existsb (Z.eqb v) l = true <-> In v l) as Hin.
  { intros l. rewrite existsb_exists. split; [intros (x & Hx & E); apply Z.eqb_eq in E; subst; exact Hx|].
    intros H. exists v. split; [exact H|apply Z.eqb_refl]. }
  destruct c; cbn [pcheck].
  - apply Z.eqb_eq.
  - rewrite Z.gtb_lt. lia.
  - apply Z.ltb_lt.
  - rewrite Z.geb_le. lia.
  - apply Z.leb_le.
  - rewrite negb_true_iff, Z.eqb_neq. reflexivity.
  - apply Hin.
  - rewrite negb_true_iff, <- not_true_iff_false, Hin. reflexivity.
  - rewrite andb_true_iff, !Z.leb_le. reflexivity.
Qed.

Lemma cond_complement x lo t :
  pcall (CNe x) t = negb (pcall (CEq x) t) /\ pcall (CLe x) t = negb (pcall (CGt x) t) /\
  pcall (CGe x) t = negb (pcall (CLt x) t) /\ pcall (CNotIn lo) t = negb (pcall (CIn lo) t).
Proof.
  unfold pcall. set (v := match t with TInt z => z | TObj z => z end). cbn [pcheck].
  repeat split.
  - destruct (Z.leb_spec v x), (Z.gtb_spec v x); cbn; try reflexivity; lia.
  - destruct (Z.geb_spec v x), (Z.ltb_spec v x); cbn; try reflexivity; lia.
Qed.

(** ** witnesses *)
Section Wit.
  Let always : abin nat := ACond (Some (fun _ => Ok true)).
  Let never : abin nat := ACond (Some (fun _ => Ok false)).
  Let raise1 : abin nat := ACond (Some (fun w => if Nat.eqb w 1 then Exn (UserExn 0) else Ok true)).

  Lemma once_still_counted : exists (os1 : list (op nat)) w,
    let g := run (cov_init true) os1 in
    Forall wf_op os1 /\ no_raise (cov_init true) (os1 ++ [OSample w]) /\
    (exists p, dget (g_points g) "A"%string = Some p /\ p_once p = true) /\
    is_point_covered g "A"%string = Ok true /\
    shown (fst (sample g w)) "A"%string "hit"%string <> shown g "A"%string "hit"%string.
  Proof.
    exists [OAdd "" (ADict [("hit"%string, always)]) "A" None false; OAdd "" (ADict [("miss"%string, never)]) "B" None false; OSample 0%nat], 0%nat.
    cbv zeta. split; [repeat constructor; cbn; intuition|].
    split; [vm_compute; repeat split; reflexivity|].
    split; [eexists; split; vm_compute; reflexivity|]. split; [vm_compute; reflexivity|]. intros X. vm_compute in X. discriminate X.
  Qed.

  Lemma report_disagrees : exists os : list (op nat),
    let g := run (cov_init true) os in
    Forall wf_op os /\ no_raise (cov_init true) os /\ gd_points (as_dict g) <> [] /\
    is_all_covered g = true /\ gd_hinted (as_dict g) = false.
  Proof.
    exists [OAdd "" (ADict [("hit"%string, always)]) "A" None false; OAdd "" (ADict [("miss"%string, never)]) "B" None false; OSample 0%nat; ODel "B"].
    cbv zeta. split; [repeat constructor; cbn; intuition|].
    split; [vm_compute; repeat split; reflexivity|]. split; [intros X; vm_compute in X; discriminate X|].
    split; vm_compute; reflexivity.
  Qed.

  Lemma raise_disables : exists (os : list (op nat)),
    let g := run (cov_init true) os in
    Forall wf_op os /\ reachable g /\
    (forall name p, dget (g_points g) name = Some p -> p_once p = false) /\
    sample_stoped g = false /\ gd_stop (as_dict g) = false /\
    snd (sample g 1%nat) = Exn (UserExn 0) /\
    (forall ws : list nat,
       shown (run (fst (sample g 1%nat)) (map OSample ws)) "A"%string "b"%string =
       shown g "A"%string "b"%string) /\
    (forall w : nat, w <> 1%nat -> shown (fst (sample g w)) "A"%string "b"%string <> shown g "A"%string "b"%string).
  Proof.
    set (os := [OAdd "" (ADict [("b"%string, raise1)]) "A" (Some false) false; OSample 0%nat]).
    exists os. cbv zeta.
    assert (Forall wf_op os) as Hwf by (repeat constructor; cbn; intuition).
    split; [exact Hwf|]. split; [exists true, os; auto|].
    split.
    { intros name p. cbn. destruct (String.eqb name "A"); [|discriminate]. intros [= <-]. reflexivity. }
    split; [reflexivity|]. split; [reflexivity|]. split; [reflexivity|]. split.
    - intros ws. rewrite !shown_eq.
      assert (sample_stoped (fst (sample (run (cov_init true) os) 1%nat)) = true) as Hs by reflexivity.
      destruct (stopped_forever ws _ Hs) as [E _].
      assert (forall g g' : group nat, gd_points (as_dict g) = gd_points (as_dict g') -> shown g "A" "b" = shown g' "A" "b") as Hx.
      { intros g g' Hg. unfold shown. rewrite Hg. reflexivity. }
      rewrite <- !shown_eq. rewrite (Hx _ _ E). reflexivity.
    - intros w Hw. destruct w as [|[|w]]; [|congruence|]; intros X; vm_compute in X; discriminate X.
  Qed.

  Lemma stop_call_ineffective : exists (g : group nat) w, reachable g /\
    snd (call_stop_sample g) = Exn TypeError /\
    shown (fst (sample (fst (call_stop_sample g)) w)) "A"%string "hit"%string <> shown g "A"%string "hit"%string.
  Proof.
    set (os := [OAdd "" (ADict [("hit"%string, always)]) "A" None false] : list (op nat)).
    exists (run (cov_init true) os), 0%nat.
    split; [exists true, os; split; [repeat constructor; cbn; intuition|reflexivity]|].
    split; [reflexivity|]. intros X. vm_compute in X. discriminate X.
  Qed.

  Lemma unnamed_callable_rejected : forall (g : group nat) dk c on dy,
    add_watch_point g dk (AOne (Some c)) "" on dy = (g, Exn AttributeError).
  Proof. reflexivity. Qed.
End Wit.
