(** Lemmas about the coverage model. *)
From Coq Require Import List String ZArith Bool Lia.
From Verif Require Import Py Dict_Proofs Funcov_Model Funcov_Spec.
Import ListNotations.

Open Scope list_scope.

Section P.
  Context {W : Type}.
  Implicit Types (g : group W) (p : point W) (w : W).

  (** ** one point *)
  Definition pt_wf p : Prop := NoDup (map fst (p_bins p)) /\ dkeys (p_hints p) = map fst (p_bins p).

  Lemma eval_bin_holds (b : bin W) w c : eval_bin b w = Ok c -> c = bin_holds b w.
  Proof.
    unfold bin_holds. destruct b as [f|cs]; cbn [eval_bin conds_of].
    - cbn. intros ->. destruct c; reflexivity.
    - revert c; induction cs as [|f cs IH]; intros c; cbn [eval_list forallb]; [intros [= <-]; reflexivity|].
      destruct (f w) as [[|]|e]; [apply IH|intros [= <-]; reflexivity|discriminate].
  Qed.

  Definition posb (kn : string * nat) : bool := Nat.ltb 0 (snd kn).

  Lemma check_loop_keys bs w once : forall hints hi on h' r,
    check_loop bs w once hints hi on = (h', r) -> dkeys h' = dkeys hints.
  Proof.
    induction bs as [|[k b] bs IH]; intros hints hi on h' r H; cbn [check_loop] in H.
    - injection H as <- <-. reflexivity.
    - destruct (dget hints k) as [h|] eqn:Eh; [|injection H as <- <-; reflexivity].
      destruct (eval_bin b w) as [c|e]; [|injection H as <- <-; reflexivity].
      apply IH in H. rewrite H. apply dset_keys_in. apply dget_Some_key. eauto.
  Qed.

  Lemma check_loop_other bs w once : forall hints hi on h' r k,
    check_loop bs w once hints hi on = (h', r) -> ~ In k (map fst bs) -> dget h' k = dget hints k.
  Proof.
    induction bs as [|[k1 b] bs IH]; intros hints hi on h' r k H Hk; cbn [check_loop] in H.
    - injection H as <- <-. reflexivity.
    - cbn in Hk. destruct (dget hints k1) as [h|] eqn:Eh; [|injection H as <- <-; reflexivity].
      destruct (eval_bin b w) as [c|e]; [|injection H as <- <-; reflexivity].
      apply IH with (k := k) in H; [|tauto]. rewrite H. apply dget_set_other. intros ->; tauto.
  Qed.

  Lemma check_loop_mono bs w once : forall hints hi on h' r k n,
    check_loop bs w once hints hi on = (h', r) -> dget hints k = Some n ->
    exists n', dget h' k = Some n' /\ (n <= n')%nat.
  Proof.
    induction bs as [|[k1 b] bs IH]; intros hints hi on h' r k n H Hk; cbn [check_loop] in H.
    - injection H as <- <-. eauto.
    - destruct (dget hints k1) as [h|] eqn:Eh; [|injection H as <- <-; eauto].
      destruct (eval_bin b w) as [c|e]; [|injection H as <- <-; eauto].
      destruct (string_dec k k1) as [->|Hne].
      + rewrite Hk in Eh. injection Eh as ->.
        destruct (IH _ _ _ _ _ k1 _ H (dget_set_same _ _ _)) as (n' & E & L). exists n'. split; [exact E|lia].
      + eapply IH; [exact H|]. rewrite dget_set_other by exact Hne. exact Hk.
  Qed.

  Lemma check_loop_ok bs w once : NoDup (map fst bs) -> forall hints hi on h' hi' on',
    check_loop bs w once hints hi on = (h', Ok (hi', on')) ->
    (forall k b, In (k, b) bs -> exists n, dget hints k = Some n /\
        dget h' k = Some (n + if bin_holds b w then 1 else 0)%nat /\ (exists c, eval_bin b w = Ok c)) /\
    (hi' = true <-> hi = true /\ forall k b, In (k, b) bs -> exists n, dget h' k = Some n /\ (0 < n)%nat) /\
    (on' = true <-> on = true /\ (bs = [] \/ (hi' = true /\ once = true))).
  Proof.
    induction bs as [|[k1 b1] bs IH]; intros Hnd hints hi on h' hi' on' H; cbn [check_loop] in H.
    - injection H as <- <- <-. split; [intros k b []|]. split; [split; [intros ->; split; [reflexivity|intros k b []]|tauto]|].
      split; [auto|tauto].
    - cbn in Hnd. inversion Hnd as [|? ? Hni Hnd']; subst.
      destruct (dget hints k1) as [h|] eqn:Eh; [|discriminate].
      destruct (eval_bin b1 w) as [c|e] eqn:Ec; [|discriminate].
      pose proof (eval_bin_holds _ _ _ Ec) as Hc. subst c.
      set (n1 := (h + (if bin_holds b1 w then 1 else 0))%nat) in *.
      set (hi1 := if Nat.eqb n1 0 then false else hi) in *.
      set (on1 := if negb (hi1 && once) then false else on) in *.
      pose proof (check_loop_other _ _ _ _ _ _ _ _ k1 H Hni) as Hk1. rewrite dget_set_same in Hk1.
      destruct (IH Hnd' _ _ _ _ _ _ H) as (A & B & C).
      split; [|split].
      + intros k b [[= <- <-]|Hin].
        * exists h. split; [exact Eh|]. split; [exact Hk1|]. eauto.
        * destruct (A k b Hin) as (n & E1 & E2 & E3). exists n.
          rewrite dget_set_other in E1; [auto|]. intros ->. apply Hni. apply in_map_iff. exists (k1, b). auto.
      + rewrite B. unfold hi1. destruct (Nat.eqb_spec n1 0) as [E0|E0].
        * split; [intros [X _]; discriminate|]. intros [_ X].
          destruct (X k1 b1 (or_introl eq_refl)) as (n & E & L). rewrite Hk1 in E. injection E as <-. lia.
        * split; intros [X Y]; (split; [exact X|]).
          -- intros k b [[= <- <-]|Hin]; [exists n1; split; [exact Hk1|lia]|eauto].
          -- intros k b Hin. apply (Y k b). right; exact Hin.
      + rewrite C. unfold on1. destruct hi1 eqn:E1, once eqn:E2; cbn [andb negb].
        * split; [|intros [X Y]].
          -- intros [X [->|[Y Z]]]; split; auto. right. split; [|reflexivity].
             cbn [check_loop] in H. injection H as _ <- _. reflexivity.
          -- split; [exact X|]. destruct Y as [Y|Y]; [discriminate|right; exact Y].
        * split; [intros [X _]; discriminate|intros [_ [X|[_ X]]]; discriminate].
        * split; [intros [X _]; discriminate|]. intros [_ [X|[X _]]]; [discriminate|].
          apply B in X as [X _]. discriminate.
        * split; [intros [X _]; discriminate|intros [_ [X|[_ X]]]; discriminate].
  Qed.

  Lemma check_frame p w p' r : check p w = (p', r) ->
    p_bins p' = p_bins p /\ p_once p' = p_once p /\ p_dyn p' = p_dyn p /\ p_functions p' = p_functions p /\
    dkeys (p_hints p') = dkeys (p_hints p).
  Proof.
    unfold check. destruct (check_loop _ w _ _ true true) as [h [[hi on]|e]] eqn:E; intros [= <- <-]; cbn;
      pose proof (check_loop_keys _ _ _ _ _ _ _ _ E); auto.
  Qed.

  Lemma check_mono p w p' r k n : check p w = (p', r) -> dget (p_hints p) k = Some n ->
    exists n', dget (p_hints p') k = Some n' /\ (n <= n')%nat.
  Proof.
    unfold check. destruct (check_loop _ w _ _ true true) as [h [[hi on]|e]] eqn:E; intros [= <- <-]; cbn; intros H;
      eapply check_loop_mono; eauto.
  Qed.

  Lemma pt_wf_in p k n : pt_wf p -> In (k, n) (p_hints p) -> dget (p_hints p) k = Some n /\ exists b, In (k, b) (p_bins p).
  Proof.
    intros [H1 H2] Hin. split.
    - apply In_dget; [rewrite H2; exact H1|exact Hin].
    - assert (In k (map fst (p_bins p))) as Hk.
      { rewrite <- H2. apply in_map_iff. exists (k, n). auto. }
      apply in_map_iff in Hk as ([k' b] & E & Hb). cbn in E. subst k'. eauto.
  Qed.

  Lemma pt_wf_bin p k b : pt_wf p -> In (k, b) (p_bins p) -> exists n, dget (p_hints p) k = Some n.
  Proof.
    intros [H1 H2] Hin. apply dget_Some_key. rewrite H2. apply in_map_iff. exists (k, b). auto.
  Qed.

  Lemma all_hit_bins p : pt_wf p -> (all_hit p <-> forall k b, In (k, b) (p_bins p) -> exists n, dget (p_hints p) k = Some n /\ (0 < n)%nat).
  Proof.
    intros Hw. split.
    - intros H k b Hb. destruct (pt_wf_bin p k b Hw Hb) as [n Hn]. exists n. split; [exact Hn|].
      apply (H k). apply dget_In. exact Hn.
    - intros H k n Hin. destruct (pt_wf_in p k n Hw Hin) as [E [b Hb]].
      destruct (H k b Hb) as (n' & E' & L). rewrite E in E'. injection E' as <-. exact L.
  Qed.

  Lemma check_ok p w p' hi on : pt_wf p -> check p w = (p', Ok (hi, on)) ->
    pt_wf p' /\ p_hinted p' = hi /\ (hi = true <-> all_hit p') /\
    (on = true <-> p_bins p = [] \/ (hi = true /\ p_once p = true)) /\
    (forall k b, In (k, b) (p_bins p) -> exists n, dget (p_hints p) k = Some n /\
        dget (p_hints p') k = Some (n + if bin_holds b w then 1 else 0)%nat).
  Proof.
    intros Hw H. pose proof (check_frame _ _ _ _ H) as (F1 & F2 & F3 & F4 & F5).
    assert (pt_wf p') as Hw' by (destruct Hw; split; congruence).
    split; [exact Hw'|]. destruct Hw as [Hnd Hk].
    unfold check in H. destruct (check_loop _ w _ _ true true) as [h [[hi0 on0]|e]] eqn:E; [|discriminate].
    injection H as <- -> ->. cbn [p_hinted p_hints p_bins] in *.
    destruct (check_loop_ok _ _ _ Hnd _ _ _ _ _ _ E) as (A & B & C).
    split; [reflexivity|]. split; [|split].
    - rewrite B. rewrite all_hit_bins by exact Hw'. cbn. tauto.
    - rewrite C. tauto.
    - intros k b Hb. destruct (A k b Hb) as (n & E1 & E2 & _). eauto.
  Qed.

  Lemma check_exn p w p' e : pt_wf p -> check p w = (p', Exn e) -> pt_wf p' /\ p_hinted p' = p_hinted p.
  Proof.
    intros [Hnd Hk] H. pose proof (check_frame _ _ _ _ H) as (F1 & F2 & F3 & F4 & F5).
    split; [split; congruence|].
    unfold check in H. destruct (check_loop _ w _ _ true true) as [h [[hi0 on0]|e']] eqn:E; [discriminate|].
    injection H as <- ->. reflexivity.
  Qed.

  Lemma check_hit_mono p w p' r : pt_wf p -> check p w = (p', r) -> all_hit p -> all_hit p'.
  Proof.
    intros Hw H Ha. pose proof (check_frame _ _ _ _ H) as (F1 & _ & _ & _ & F5).
    assert (pt_wf p') as Hw' by (destruct Hw; split; congruence).
    rewrite all_hit_bins in * by assumption. rewrite F1. intros k b Hb.
    destruct (Ha k b Hb) as (n & E & L). destruct (check_mono _ _ _ _ _ _ H E) as (n' & E' & L'). exists n'. split; [exact E'|lia].
  Qed.

  (** ** the sample loop *)
  Lemma sample_loop_keys w : forall ps ah ao ps' ao' r, sample_loop ps w ah ao = (ps', ao', r) -> dkeys ps' = dkeys ps.
  Proof.
    induction ps as [|[k p] ps IH]; intros ah ao ps' ao' r H; cbn [sample_loop] in H.
    - injection H as <- <- <-. reflexivity.
    - destruct (check p w) as [p' [[hi on]|e]].
      + destruct (sample_loop ps w _ _) as [[t' ao2] r'] eqn:E. injection H as <- <- <-.
        cbn. f_equal. eapply IH; eauto.
      + injection H as <- <- <-. reflexivity.
  Qed.

  (** correspondence of points before and after *)
  Lemma sample_loop_get w : forall ps ah ao ps' ao' r, sample_loop ps w ah ao = (ps', ao', r) ->
    forall k p', dget ps' k = Some p' -> exists p, dget ps k = Some p /\ (p' = p \/ exists r, check p w = (p', r)).
  Proof.
    induction ps as [|[k1 p1] ps IH]; intros ah ao ps' ao' r H k p' Hk; cbn [sample_loop] in H.
    - injection H as <- <- <-. discriminate.
    - destruct (check p1 w) as [p1' [[hi on]|e]] eqn:Ec.
      + destruct (sample_loop ps w _ _) as [[t' ao2] r'] eqn:E. injection H as <- <- <-.
        cbn [dget] in *. destruct (String.eqb k k1).
        * injection Hk as <-. exists p1. split; [reflexivity|]. right. eauto.
        * eapply IH; eauto.
      + injection H as <- <- <-. cbn [dget] in *. destruct (String.eqb k k1).
        * injection Hk as <-. exists p1. split; [reflexivity|]. right. eauto.
        * eauto.
  Qed.

  Lemma sample_loop_ok w : forall ps ah ao ps' ao' ah', 
    (forall k p, In (k, p) ps -> pt_wf p) -> NoDup (dkeys ps) ->
    sample_loop ps w ah ao = (ps', ao', Ok ah') ->
    (forall k p, In (k, p) ps -> exists p' hi on, In (k, p') ps' /\ check p w = (p', Ok (hi, on))) /\
    (forall k p', In (k, p') ps' -> exists p hi on, In (k, p) ps /\ check p w = (p', Ok (hi, on))) /\
    (ah' = true <-> ah = true /\ forall k p', In (k, p') ps' -> p_hinted p' = true) /\
    (ao' = true <-> ao = true /\ forall k p', In (k, p') ps' -> p_bins p' = [] \/ (p_hinted p' = true /\ p_once p' = true)).
  Proof.
    induction ps as [|[k1 p1] ps IH]; intros ah ao ps' ao' ah' Hwf Hnd H; cbn [sample_loop] in H.
    - injection H as <- <- <-. repeat split; try (intros ? ? []); tauto.
    - cbn in Hnd. inversion Hnd as [|? ? Hni Hnd']; subst.
      destruct (check p1 w) as [p1' [[hi on]|e]] eqn:Ec; [|discriminate].
      destruct (sample_loop ps w _ _) as [[t' ao2] r'] eqn:E. injection H as <- <- ->.
      destruct (IH _ _ _ _ _ (fun k p Hp => Hwf k p (or_intror Hp)) Hnd' E) as (A & A' & B & C).
      pose proof (Hwf k1 p1 (or_introl eq_refl)) as Hw1.
      destruct (check_ok _ _ _ _ _ Hw1 Ec) as (Hw1' & Hh & Hhi & Hon & _).
      pose proof (check_frame _ _ _ _ Ec) as (F1 & F2 & _).
      split; [|split; [|split]].
      + intros k p [[= <- <-]|Hin].
        * exists p1', hi, on. split; [left; reflexivity|exact Ec].
        * destruct (A k p Hin) as (p' & hi' & on' & Hin' & Hc). exists p', hi', on'. split; [right; exact Hin'|exact Hc].
      + intros k p' [[= <- <-]|Hin].
        * exists p1, hi, on. split; [left; reflexivity|exact Ec].
        * destruct (A' k p' Hin) as (p & hi' & on' & Hin' & Hc). exists p, hi', on'. split; [right; exact Hin'|exact Hc].
      + rewrite B. destruct hi.
        * split; intros [X Y]; (split; [exact X|]); intros k p' Hp'.
          -- destruct Hp' as [[= <- <-]|Hp']; [exact Hh|eauto].
          -- apply (Y k). right; exact Hp'.
        * split; [intros [X _]; discriminate|]. intros [_ Y]. specialize (Y k1 p1' (or_introl eq_refl)). congruence.
      + rewrite C. destruct on.
        * split; intros [X Y]; (split; [exact X|]); intros k p' Hp'.
          -- destruct Hp' as [[= <- <-]|Hp']; [|eauto]. rewrite F1, F2, Hh. apply Hon. reflexivity.
          -- apply (Y k). right; exact Hp'.
        * split; [intros [X _]; discriminate|]. intros [_ Y]. specialize (Y k1 p1' (or_introl eq_refl)).
          rewrite F1, F2, Hh in Y. apply Hon in Y. discriminate.
  Qed.

  (** ** group invariants *)
  Record Inv g : Prop := {
    i_nd : NoDup (dkeys (g_points g));
    i_wf : forall k p, In (k, p) (g_points g) -> pt_wf p;
    i_hit : forall k p, In (k, p) (g_points g) -> p_hinted p = true -> all_hit p;
    i_grp : g_hinted g = true -> forall k p, In (k, p) (g_points g) -> p_hinted p = true }.

  Record Inv2 g : Prop := {
    i2_once : g_hinted g = true -> g_all_once g = true ->
              forall k p, In (k, p) (g_points g) -> p_bins p = [] \/ p_once p = true;
    i2_conv : forall k p, In (k, p) (g_points g) -> p_bins p <> [] -> all_hit p -> p_hinted p = true }.

  Lemma init_inv dis : Inv (cov_init dis) /\ Inv2 (cov_init dis).
  Proof. split; constructor; cbn; try (intros; contradiction); try constructor; discriminate. Qed.

  Lemma fresh_wf bs dyn hi on fs : NoDup (map fst bs) -> pt_wf (mk_point bs dyn (map (fun kb => (fst kb, 0%nat)) bs) hi on fs).
  Proof. intros H. split; [exact H|]. cbn. unfold dkeys. rewrite map_map. reflexivity. Qed.

  Lemma check_bins_keys d bs : check_bins (W := W) d = Some bs -> map fst bs = map fst d.
  Proof.
    revert bs; induction d as [|[k [[c|]|cs]] d IH]; intros bs H; cbn [check_bins] in H; try discriminate.
    - injection H as <-. reflexivity.
    - destruct (check_bins d) as [r|]; [|discriminate]. injection H as <-. cbn. f_equal. auto.
    - destruct (check_conds cs); [|discriminate]. destruct (check_bins d) as [r|]; [|discriminate].
      injection H as <-. cbn. f_equal. auto.
  Qed.

  Lemma add_cases g dk b n on dy g' r : wf_op (OAdd dk b n on dy) ->
    add_watch_point g dk b n on dy = (g', r) ->
    (g' = g /\ (r = Exn ValueError \/ r = Exn AttributeError)) \/
    (r = Ok tt /\ exists key bs, ~ In key (dkeys (g_points g)) /\ NoDup (map fst bs) /\
      key = (if String.eqb n "" then dk else n) /\
      g' = mk_group (g_dis g) (g_points g ++ [(key, mk_point bs dy (map (fun kb => (fst kb, 0%nat)) bs) false
             (match on with None => g_dis g | Some x => x end) [])]) false (g_all_once g) (g_stop g) (g_count g) (g_calln g)).
  Proof.
    intros Hwf. unfold add_watch_point.
    assert (forall X : group W * res unit, match n, b with EmptyString, AOne _ => (g, Exn AttributeError) | _, _ => X end = (g', r) ->
        (g' = g /\ r = Exn AttributeError) \/ X = (g', r)) as HX.
    { intros X HX. destruct n, b; auto; left; injection HX as <- <-; auto. }
    intros H. apply HX in H as [[-> ->]|H]; [auto|]. clear HX.
    set (key := if String.eqb n "" then dk else n) in *.
    destruct (dmem (g_points g) key) eqn:Em.
    - injection H as <- <-. auto.
    - apply dmem_false in Em.
      destruct (match b with AOne None => None | AOne (Some c) => check_bins [("anonymous"%string, ACond (Some c))] | ADict d => check_bins d end) as [bs|] eqn:Eb.
      + injection H as <- <-. right. split; [reflexivity|]. exists key, bs.
        split; [exact Em|]. split; [|split; [reflexivity|rewrite dset_notin by exact Em; reflexivity]].
        destruct b as [d|[c|]].
        * cbn in Hwf. rewrite (check_bins_keys _ _ Eb). exact Hwf.
        * cbn in Eb. injection Eb as <-. cbn. constructor; [intros []|constructor].
        * discriminate.
      + injection H as <- <-. auto.
  Qed.

  Lemma NoDup_snoc (l : list string) x : NoDup l -> ~ In x l -> NoDup (l ++ [x]).
  Proof.
    intros H1 H2. apply NoDup_Add with (a := x) (l := l).
    - replace l with (l ++ [])%list at 1 by apply app_nil_r. apply Add_app.
    - split; assumption.
  Qed.

  Lemma all_hit_fresh bs dyn hi on fs : bs <> [] -> ~ all_hit (mk_point (W := W) bs dyn (map (fun kb => (fst kb, 0%nat)) bs) hi on fs).
  Proof.
    intros Hne H. destruct bs as [|[k b] bs]; [congruence|].
    specialize (H k 0%nat (or_introl eq_refl)). lia.
  Qed.

  Lemma sample_cases g w :
    (sample_stoped g = true /\ fst (sample g w) = mk_group (g_dis g) (g_points g) (g_hinted g) (g_all_once g) (g_stop g) (g_count g) (S (g_calln g))
      /\ snd (sample g w) = Ok tt) \/
    (sample_stoped g = false /\ exists ps ao r, sample_loop (g_points g) w true true = (ps, ao, r) /\
      ((exists ah, r = Ok ah /\ sample g w = (mk_group (g_dis g) ps ah ao (g_stop g) (S (g_count g)) (S (g_calln g)), Ok tt)) \/
       (exists e, r = Exn e /\ sample g w = (mk_group (g_dis g) ps (g_hinted g) ao (g_stop g) (S (g_count g)) (S (g_calln g)), Exn e)))).
  Proof.
    unfold sample, sample_stoped. destruct (g_stop g); [left; auto|].
    destruct (g_hinted g && g_all_once g); [left; auto|].
    right. split; [reflexivity|]. destruct (sample_loop _ w true true) as [[ps ao] [ah|e]]; eauto 10.
  Qed.

  Lemma sample_inv g w : Inv g -> Inv (fst (sample g w)).
  Proof.
    intros I. destruct (sample_cases g w) as [(_ & E & _)|(_ & ps & ao & r & EL & HC)].
    - rewrite E. destruct I. constructor; cbn; auto.
    - assert (NoDup (dkeys ps)) as Hnd by (rewrite (sample_loop_keys _ _ _ _ _ _ _ EL); apply I).
      assert (forall k p', In (k, p') ps -> pt_wf p' /\ (p_hinted p' = true -> all_hit p') /\
               (forall p, In (k, p) (g_points g) -> p_hinted p = true -> p_hinted p' = true)) as Hp.
      { intros k p' Hin. apply In_dget in Hin; [|exact Hnd].
        destruct (sample_loop_get _ _ _ _ _ _ _ EL k p' Hin) as (p & Hg & Hc).
        pose proof (dget_In _ _ _ Hg) as Hin0.
        assert (forall p0, In (k, p0) (g_points g) -> p0 = p) as Hu.
        { intros p0 Hp0. apply In_dget in Hp0; [|apply I]. congruence. }
        pose proof (i_wf g I k p Hin0) as Hw. pose proof (i_hit g I k p Hin0) as Hh.
        destruct Hc as [->|[[[hi on]|e] Hc]].
        - split; [exact Hw|]. split; [exact Hh|]. intros p0 Hp0. rewrite (Hu p0 Hp0). auto.
        - destruct (check_ok _ _ _ _ _ Hw Hc) as (Hw' & E1 & E2 & _).
          split; [exact Hw'|]. split; [rewrite E1; apply E2|].
          intros p0 Hp0 Hh0. rewrite (Hu p0 Hp0) in Hh0. rewrite E1. apply E2. exact (check_hit_mono _ _ _ _ Hw Hc (Hh Hh0)).
        - destruct (check_exn _ _ _ _ Hw Hc) as (Hw' & E1).
          split; [exact Hw'|]. split.
          + rewrite E1. intros Hh0. exact (check_hit_mono _ _ _ _ Hw Hc (Hh Hh0)).
          + intros p0 Hp0 Hh0. rewrite (Hu p0 Hp0) in Hh0. congruence. }
      destruct HC as [(ah & -> & ->)|(e & -> & ->)]; cbn [fst].
      + constructor; cbn.
        * exact Hnd.
        * intros k p' Hin. apply (Hp k p' Hin).
        * intros k p' Hin. apply (Hp k p' Hin).
        * intros Hah. destruct (sample_loop_ok w _ _ _ _ _ _ (i_wf g I) (i_nd g I) EL) as (_ & _ & B & _).
          apply B. exact Hah.
      + constructor; cbn.
        * exact Hnd.
        * intros k p' Hin. apply (Hp k p' Hin).
        * intros k p' Hin. apply (Hp k p' Hin).
        * intros Hgh k p' Hin.
          destruct (Hp k p' Hin) as (_ & _ & Hmono).
          assert (In k (dkeys (g_points g))) as Hk.
          { rewrite <- (sample_loop_keys _ _ _ _ _ _ _ EL). apply in_map_iff. exists (k, p'). auto. }
          apply in_map_iff in Hk as ([k' p] & Ek & Hin0). cbn in Ek. subst k'.
          apply (Hmono p Hin0). eapply i_grp; eauto.
  Qed.

  Lemma sample_inv2 g w : Inv g -> Inv2 g -> snd (sample g w) = Ok tt -> Inv2 (fst (sample g w)).
  Proof.
    intros I I2 Hok. destruct (sample_cases g w) as [(_ & E & _)|(_ & ps & ao & r & EL & HC)].
    - rewrite E. destruct I2. constructor; cbn; auto.
    - destruct HC as [(ah & -> & E)|(e & -> & E)]; rewrite E in *; cbn [fst snd] in *; [|discriminate].
      destruct (sample_loop_ok w _ _ _ _ _ _ (i_wf g I) (i_nd g I) EL) as (_ & A' & B & C).
      constructor; cbn.
      + intros _ Hao k p' Hin. apply C in Hao as [_ Hao]. destruct (Hao k p' Hin) as [H|[_ H]]; auto.
      + intros k p' Hin _ Hall. destruct (A' k p' Hin) as (p & hi & on & Hp & Hc).
        destruct (check_ok _ _ _ _ _ (i_wf g I k p Hp) Hc) as (_ & E1 & E2 & _). rewrite E1. apply E2. exact Hall.
  Qed.

  Lemma mark_cases st fn rx un g n fs pats re g' r : mark_function st fn rx un g n fs pats re = (g', r) ->
    g' = g \/ exists p d, dget (g_points g) n = Some p /\
      g' = mk_group (g_dis g) (dset (g_points g) n (mk_point (p_bins p) (p_dyn p) (p_hints p) (p_hinted p) (p_once p) d))
             (g_hinted g) (g_all_once g) (g_stop g) (g_count g) (g_calln g).
  Proof.
    unfold mark_function. destruct (dget (g_points g) n) as [p|]; [|intros [= <- <-]; auto].
    destruct pats; [intros [= <- <-]; auto|].
    destruct (match_bins _ _ _ _ _); [|intros [= <- <-]; auto].
    destruct (mark_loop _ _ _) as [d r0]. intros [= <- <-]. right. exists p, d. auto.
  Qed.

  Lemma exec_inv g o : wf_op o -> Inv g -> Inv (fst (exec g o)).
  Proof.
    intros Hwf I. destruct o as [dk b n on dy|n|n|w| | |bb| |st fn rx un n fs pats re]; cbn [exec].
    - destruct (add_watch_point g dk b n on dy) as [g' r] eqn:E.
      destruct (add_cases _ _ _ _ _ _ _ _ Hwf E) as [[-> _]|(_ & key & bs & Hni & Hnd & _ & ->)]; [exact I|].
      constructor; cbn.
      + unfold dkeys. rewrite map_app. cbn. apply NoDup_snoc; [apply I|exact Hni].
      + intros k p Hin. apply in_app_or in Hin as [Hin|[[= <- <-]|[]]]; [eapply i_wf; eauto|apply fresh_wf; exact Hnd].
      + intros k p Hin. apply in_app_or in Hin as [Hin|[[= <- <-]|[]]]; [eapply i_hit; eauto|discriminate].
      + discriminate.
    - unfold del_point. destruct (dmem (g_points g) n) eqn:Em; [|exact I]. cbn.
      constructor; cbn.
      + apply ddel_nodup, I.
      + intros k p Hin. apply ddel_In in Hin. eapply i_wf; eauto.
      + intros k p Hin. apply ddel_In in Hin. eapply i_hit; eauto.
      + intros Hh k p Hin. apply ddel_In in Hin. eapply i_grp; eauto.
    - unfold reset_point. destruct (dget (g_points g) n) as [p0|] eqn:Ed; [|exact I]. cbn.
      pose proof (i_wf g I n p0 (dget_In _ _ _ Ed)) as [Hnd0 _].
      constructor; cbn.
      + apply dset_nodup, I.
      + intros k p Hin. apply dset_In in Hin as [[-> ->]|[_ Hin]]; [apply fresh_wf; exact Hnd0|eapply i_wf; eauto|apply I].
      + intros k p Hin. apply dset_In in Hin as [[-> ->]|[_ Hin]]; [discriminate|eapply i_hit; eauto|apply I].
      + discriminate.
    - apply sample_inv. exact I.
    - apply init_inv.
    - exact I.
    - destruct I. constructor; cbn; auto.
    - destruct I. constructor; cbn; auto.
    - destruct (mark_function st fn rx un g n fs pats re) as [g' r] eqn:E.
      destruct (mark_cases _ _ _ _ _ _ _ _ _ _ _ E) as [->|(p0 & d & Ed & ->)]; [exact I|]. cbn.
      pose proof (dget_In _ _ _ Ed) as Hin0.
      constructor; cbn.
      + apply dset_nodup, I.
      + intros k p Hin. apply dset_In in Hin as [[-> ->]|[_ Hin]]; [exact (i_wf g I n p0 Hin0)|eapply i_wf; eauto|apply I].
      + intros k p Hin. apply dset_In in Hin as [[-> ->]|[_ Hin]]; [exact (i_hit g I n p0 Hin0)|eapply i_hit; eauto|apply I].
      + intros Hh k p Hin. apply dset_In in Hin as [[-> ->]|[_ Hin]]; [exact (i_grp g I Hh n p0 Hin0)|eapply i_grp; eauto|apply I].
  Qed.

  Lemma exec_inv2 g o : wf_op o -> Inv g -> Inv2 g ->
    (match o with OSample _ => snd (exec g o) = Ok tt | _ => True end) -> Inv2 (fst (exec g o)).
  Proof.
    intros Hwf I I2 Hok. destruct o as [dk b n on dy|n|n|w| | |bb| |st fn rx un n fs pats re]; cbn [exec] in *.
    - destruct (add_watch_point g dk b n on dy) as [g' r] eqn:E.
      destruct (add_cases _ _ _ _ _ _ _ _ Hwf E) as [[-> _]|(_ & key & bs & Hni & Hnd & _ & ->)]; [exact I2|].
      constructor; cbn.
      + discriminate.
      + intros k p Hin Hne Hall. apply in_app_or in Hin as [Hin|[[= <- <-]|[]]]; [eapply i2_conv; eauto|].
        exfalso. eapply all_hit_fresh; [|exact Hall]. exact Hne.
    - unfold del_point. destruct (dmem (g_points g) n) eqn:Em; [|exact I2]. cbn.
      constructor; cbn.
      + intros H1 H2 k p Hin. apply ddel_In in Hin. eapply i2_once; eauto.
      + intros k p Hin. apply ddel_In in Hin. eapply i2_conv; eauto.
    - unfold reset_point. destruct (dget (g_points g) n) as [p0|] eqn:Ed; [|exact I2]. cbn.
      constructor; cbn.
      + discriminate.
      + intros k p Hin Hne Hall. apply dset_In in Hin as [[-> ->]|[_ Hin]]; [|eapply i2_conv; eauto|apply I].
        exfalso. eapply all_hit_fresh; [|exact Hall]. exact Hne.
    - apply sample_inv2; assumption.
    - apply init_inv.
    - exact I2.
    - destruct I2. constructor; cbn; auto.
    - destruct I2. constructor; cbn; auto. discriminate.
    - destruct (mark_function st fn rx un g n fs pats re) as [g' r] eqn:E.
      destruct (mark_cases _ _ _ _ _ _ _ _ _ _ _ E) as [->|(p0 & d & Ed & ->)]; [exact I2|]. cbn.
      pose proof (dget_In _ _ _ Ed) as Hin0.
      constructor; cbn.
      + intros H1 H2 k p Hin. apply dset_In in Hin as [[-> ->]|[_ Hin]]; [exact (i2_once g I2 H1 H2 n p0 Hin0)|eapply i2_once; eauto|apply I].
      + intros k p Hin. apply dset_In in Hin as [[-> ->]|[_ Hin]]; [exact (i2_conv g I2 n p0 Hin0)|eapply i2_conv; eauto|apply I].
  Qed.

  Lemma run_inv os : forall g, Forall wf_op os -> Inv g -> Inv (run g os).
  Proof.
    unfold run. induction os as [|o os IH]; intros g Hwf I; cbn [fold_left]; [exact I|].
    inversion Hwf; subst. apply IH; [assumption|]. apply exec_inv; assumption.
  Qed.

  Lemma run_inv2 os : forall g, Forall wf_op os -> no_raise g os -> Inv g -> Inv2 g -> Inv2 (run g os).
  Proof.
    unfold run. induction os as [|o os IH]; intros g Hwf Hn I I2; cbn [fold_left]; [exact I2|].
    inversion Hwf; subst. destruct Hn as [Hn1 Hn2].
    apply IH; [assumption|exact Hn2|apply exec_inv; assumption|apply exec_inv2; assumption].
  Qed.
End P.
