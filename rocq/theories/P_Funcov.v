(** Property theorems for coverage groups (toffee/funcov.py). *)
From Coq Require Import List String Ascii ZArith Bool Lia.
From Verif Require Import Py Funcov_Model Funcov_Spec Funcov_Proofs FuncovProps_Proofs FuncovEdit_Proofs.
Import ListNotations.
Open Scope list_scope.

(** ** C09 *)
(** After a named point is added to any reachable group, and after any further history that neither deletes
    nor resets it, the counter shown for a bin lies between the number of completed effective samples in which
    all the conditions written by the user hold, and the number of all effective samples in which they hold. *)
Theorem C09_counters_bounds : forall (W : Type) (g : group W) dk bins name on dy os k a,
  reachable g -> wf_op (OAdd dk bins name on dy) -> name <> EmptyString ->
  snd (add_watch_point g dk bins name on dy) = Ok tt ->
  Forall wf_op os -> Forall (keeps name) os -> In (k, a) (user_bins bins) ->
  let g1 := fst (add_watch_point g dk bins name on dy) in
  exists n, shown (run g1 os) name k = Some n /\
    (count_hold (given a) (completed g1 os) <= n <= count_hold (given a) (effective g1 os))%nat.
Proof. intros W. exact counters_after_add. Qed.
Print Assumptions C09_counters_bounds.

(** If moreover no bin raised, the counter is exact. *)
Theorem C09_counters_exact : forall (W : Type) (g : group W) dk bins name on dy os k a,
  reachable g -> wf_op (OAdd dk bins name on dy) -> name <> EmptyString ->
  snd (add_watch_point g dk bins name on dy) = Ok tt ->
  Forall wf_op os -> Forall (keeps name) os -> In (k, a) (user_bins bins) ->
  let g1 := fst (add_watch_point g dk bins name on dy) in
  no_raise g1 os ->
  shown (run g1 os) name k = Some (count_hold (given a) (effective g1 os)).
Proof.
  intros W g dk bins name on dy os k a R Hwa Hn Hok Hwf Hk Ha g1 Hr.
  destruct (counters_after_add g dk bins name on dy os k a R Hwa Hn Hok Hwf Hk Ha) as (n & E & L).
  fold g1 in E, L. rewrite (completed_no_raise os g1 Hr) in L. rewrite E. f_equal. lia.
Qed.
Print Assumptions C09_counters_exact.

(** A reset starts the count again at zero, and the same counting rule holds from any reachable state. *)
Theorem C09_counters_after_reset : forall (W : Type) (g : group W) name p k b os,
  reachable g -> dget (g_points g) name = Some p -> In (k, b) (p_bins p) ->
  Forall wf_op os -> Forall (keeps name) os ->
  let g1 := fst (reset_point g name) in
  no_raise g1 os ->
  exists b', In (k, b') (p_bins p) /\ shown (run g1 os) name k = Some (hits b' (effective g1 os)).
Proof.
  intros W g name p k b os R Hp Hb Hwf Hk g1 Hr.
  pose proof (reset_shows_zero g name p k b R Hp Hb) as Hz. fold g1 in Hz.
  assert (reachable g1) as R1 by (change g1 with (fst (exec g (OReset name))); apply reach_step; [exact I|exact R]).
  destruct (counters_step g1 name os k 0 R1 Hwf Hk Hz) as (p1 & b1 & n & Hp1 & Hb1 & E & L).
  rewrite (completed_no_raise os g1 Hr) in L.
  assert (p_bins p1 = p_bins p) as Eb.
  { unfold g1, reset_point in Hp1. rewrite Hp in Hp1. cbn in Hp1. rewrite Dict_Proofs.dget_set_same in Hp1.
    injection Hp1 as <-. reflexivity. }
  exists b1. rewrite Eb in Hb1. split; [exact Hb1|]. rewrite E. f_equal. lia.
Qed.
Print Assumptions C09_counters_after_reset.

Definition ge (n : nat) : abin nat := ACond (Some (fun w => Ok (Nat.leb n w))).
Definition le (n : nat) : option (cond nat) := Some (fun w => Ok (Nat.leb w n)).
Definition ex_bins : abins nat := ADict [("hi"%string, ge 5); ("mid"%string, AList [Some (fun w => Ok (Nat.leb 2 w)); le 4])].
Example C09_example :
  let g1 := fst (add_watch_point (cov_init true) "" ex_bins "p" None false) in
  let os := [OSample 3%nat; OAdd "" (ADict [("z"%string, ge 9)]) "q" None false; OSample 1%nat; OSample 7%nat; OSample 4%nat] in
  snd (add_watch_point (cov_init true) "" ex_bins "p" None false) = Ok tt /\
  Forall wf_op os /\ Forall (keeps "p"%string) os /\ no_raise g1 os /\
  effective g1 os = [3; 1; 7; 4]%nat /\ shown (run g1 os) "p" "mid" = Some 2%nat.
Proof.
  cbv zeta. split; [reflexivity|]. split; [repeat constructor; cbn; intuition|]. split; [repeat constructor|].
  split; [vm_compute; auto 10|]. split; reflexivity.
Qed.

(** ** C10 *)
Theorem C10_covered_iff_all_bins_hit : forall (W : Type) (g : group W) name p,
  reachable_ok g -> dget (g_points g) name = Some p -> p_bins p <> [] ->
  (is_point_covered g name = Ok true <->
   forall k b, In (k, b) (p_bins p) -> exists n, shown g name k = Some n /\ (0 < n)%nat).
Proof. intros W. exact covered_iff. Qed.
Print Assumptions C10_covered_iff_all_bins_hit.

(** Also when bins have raised, a point reported as covered has every bin hit. *)
Theorem C10_covered_sound : forall (W : Type) (g : group W) name p,
  reachable g -> dget (g_points g) name = Some p -> is_point_covered g name = Ok true ->
  forall k b, In (k, b) (p_bins p) -> exists n, shown g name k = Some n /\ (0 < n)%nat.
Proof. intros W. exact covered_sound. Qed.
Print Assumptions C10_covered_sound.

Theorem C10_all_covered_iff : forall (W : Type) (g : group W), reachable g ->
  (is_all_covered g = true <-> forall name, In name (map pd_name (gd_points (as_dict g))) -> is_point_covered g name = Ok true).
Proof.
  intros W g R. rewrite (all_covered_iff g R).
  assert (map pd_name (gd_points (as_dict g)) = dkeys (g_points g)) as -> by (rewrite report_points, map_map; reflexivity).
  reflexivity.
Qed.
Print Assumptions C10_all_covered_iff.

(** A point without bins becomes covered with the first effective sample after its creation or reset. *)
Theorem C10_empty_point_covered_iff_sampled : forall (W : Type) (g : group W) name p os,
  reachable g -> Forall wf_op os -> no_raise g os -> Forall (keeps name) os ->
  dget (g_points g) name = Some p -> p_bins p = [] -> is_point_covered g name = Ok false ->
  (is_point_covered (run g os) name = Ok true <-> effective g os <> []).
Proof.
  intros W g name p os R Hwf Hn Hk Hp Hb Hc.
  destruct (empty_covered os g name p Hwf (reach_inv g R) Hn Hk Hp Hb) as (p' & Hp' & _ & E).
  unfold is_point_covered in *. rewrite Hp in Hc. rewrite Hp'. injection Hc as Hc. rewrite E, Hc. cbn.
  destruct (effective g os); cbn; split; intros; congruence.
Qed.
Print Assumptions C10_empty_point_covered_iff_sampled.

Definition ex_os : list (op nat) :=
  [OAdd "" ex_bins "p" (Some false) false; OAdd "" (AOne (Some (fun w => Ok (Nat.eqb w 3)))) "q" None false; OSample 3%nat; OSample 8%nat].
Lemma ex_wf : Forall wf_op ex_os.
Proof. repeat constructor; cbn; intuition; discriminate. Qed.
Example C10_example : reachable_ok (run (cov_init true) ex_os) /\
  is_point_covered (run (cov_init true) ex_os) "p" = Ok true /\ is_all_covered (run (cov_init true) ex_os) = true /\
  is_all_covered (run (cov_init true) (firstn 3 ex_os)) = false.
Proof.
  split; [exists true, ex_os; split; [exact ex_wf|]; split; [vm_compute; auto 10|reflexivity]|]. vm_compute. auto.
Qed.
Example C10_example_empty :
  let g := run (cov_init true) [OAdd "" (ADict (W := nat) []) "e" None false] in
  is_point_covered g "e" = Ok false /\ is_point_covered (run g [OSample 0%nat]) "e" = Ok true.
Proof. vm_compute. auto. Qed.

(** ** C11 *)
(** When sampling is stopped, sample() changes nothing but the call counter. *)
Theorem C11_skip_changes_nothing : forall (W : Type) (g : group W) w, sample_stoped g = true ->
  snd (sample g w) = Ok tt /\ gd_points (as_dict (fst (sample g w))) = gd_points (as_dict g) /\
  gd_hinted (as_dict (fst (sample g w))) = gd_hinted (as_dict g) /\
  gd_count (as_dict (fst (sample g w))) = gd_count (as_dict g) /\
  gd_stop (as_dict (fst (sample g w))) = gd_stop (as_dict g) /\
  gd_calln (as_dict (fst (sample g w))) = S (gd_calln (as_dict g)) /\
  sample_stoped (fst (sample g w)) = true /\ is_all_covered (fst (sample g w)) = is_all_covered g.
Proof. intros W. exact stopped_frame. Qed.
Print Assumptions C11_skip_changes_nothing.

Theorem C11_stopped_only_if_covered : forall (W : Type) (g : group W), reachable_ok g -> sample_stoped g = true ->
  gd_stop (as_dict g) = true \/
  (is_all_covered g = true /\ forall name p, dget (g_points g) name = Some p -> p_bins p = [] \/ p_once p = true).
Proof. intros W. exact stopped_sound. Qed.
Print Assumptions C11_stopped_only_if_covered.

(** An effective sample stops the group exactly when everything is covered and once. *)
Theorem C11_stops_exactly : forall (W : Type) (g : group W) w,
  reachable g -> sample_stoped g = false -> snd (sample g w) = Ok tt ->
  let g' := fst (sample g w) in
  (sample_stoped g' = true <->
   is_all_covered g' = true /\ forall name p, dget (g_points g') name = Some p -> p_bins p = [] \/ p_once p = true).
Proof. intros W. exact stop_reached. Qed.
Print Assumptions C11_stops_exactly.

Theorem C11_never_skipped_with_repeat_point : forall (W : Type) (g : group W) name p w,
  reachable_ok g -> dget (g_points g) name = Some p -> p_bins p <> [] -> p_once p = false ->
  gd_stop (as_dict g) = false ->
  sample_stoped g = false /\ gd_count (as_dict (fst (sample g w))) = S (gd_count (as_dict g)).
Proof. intros W. exact once_false_never_skipped. Qed.
Print Assumptions C11_never_skipped_with_repeat_point.

(** A new group, or one that clear() was called on, has no points and has counted nothing, and it is not stopped: its first sample is counted. *)
Theorem C11_begins : forall (W : Type) dis (g0 g : group W) w, g = cov_init dis \/ g = clear g0 ->
  sample_stoped g = false /\ gd_points (as_dict g) = [] /\ gd_hinted (as_dict g) = false /\ gd_count (as_dict g) = 0%nat /\ gd_calln (as_dict g) = 0%nat /\ gd_stop (as_dict g) = false /\
  snd (sample g w) = Ok tt /\ gd_count (as_dict (fst (sample g w))) = 1%nat.
Proof. intros W dis g0 g w [->| ->]; repeat split. Qed.
Print Assumptions C11_begins.

(** Adding or resetting a point takes the automatic stop back: the next sample is evaluated, unless the user has stopped the group. *)
Theorem C11_edit_resumes : forall (W : Type) (g g' : group W), (exists dk b n on dy, add_watch_point g dk b n on dy = (g', Ok tt)) \/ (exists n, reset_point g n = (g', Ok tt)) ->
  sample_stoped g' = gd_stop (as_dict g) /\ forall w, gd_stop (as_dict g) = false -> gd_count (as_dict (fst (sample g' w))) = S (gd_count (as_dict g)).
Proof.
  intros W g g' H. assert (X : g_hinted g' = false /\ g_stop g' = g_stop g /\ g_count g' = g_count g).
  { destruct H as [[dk [b [n [on [dy H]]]]]|[n H]].
    - unfold add_watch_point in H. repeat match type of H with (if ?c then _ else _) = _ => destruct c | (match ?c with _ => _ end) = _ => destruct c end; try discriminate; injection H as <-; repeat split.
    - unfold reset_point in H. destruct (dget (g_points g) n); [|discriminate]. injection H as <-. repeat split. }
  destruct X as [H1 [H2 H3]]. assert (D : gd_stop (as_dict g) = g_stop g /\ gd_count (as_dict g) = g_count g) by (unfold as_dict; destruct (collect_points _ _ _ _ _ _) as [l [[[[? ?] ?] ?] ?]]; now split). destruct D as [D1 D2].
  rewrite D1, D2. split; [unfold sample_stoped; rewrite H1, H2; now destruct (g_stop g)|]. intros w E.
  assert (Y : forall h : group W, gd_count (as_dict h) = g_count h) by (intros h; unfold as_dict; destruct (collect_points _ _ _ _ _ _) as [l [[[[? ?] ?] ?] ?]]; reflexivity). rewrite Y. unfold sample. rewrite H2, E, H1. cbn [andb].
  repeat match goal with |- context [match ?c with _ => _ end] => destruct c end; cbn; congruence.
Qed.
Print Assumptions C11_edit_resumes.

Example C11_example :
  let g := run (cov_init true) (OAdd "" (AOne (Some (fun w => Ok (Nat.eqb w 3)))) "q" None false :: map OSample [1; 3]%nat) in
  sample_stoped g = true /\ gd_stop (as_dict g) = false /\ is_all_covered g = true /\
  gd_calln (as_dict (run g (map OSample [3; 3]%nat))) = 4%nat /\ gd_count (as_dict (run g (map OSample [3; 3]%nat))) = 2%nat.
Proof. vm_compute. auto 10. Qed.

Example C11_edit_example :
  let g := run (cov_init true) (OAdd "" (AOne (Some (fun w => Ok (Nat.eqb w 3)))) "q" None false :: map OSample [1; 3]%nat) in
  sample_stoped g = true /\ snd (reset_point g "q") = Ok tt /\ snd (add_watch_point g "" ex_bins "p" None false) = Ok tt.
Proof. repeat split; reflexivity. Qed.

(** ** C12 *)
(** The documented meaning of [once] fails: a covered once-point is still evaluated and counted while some
    other point of its group is not covered. *)
Theorem C12_once_point_frozen_refuted : exists (os1 : list (op nat)) w,
  let g := run (cov_init true) os1 in
  Forall wf_op os1 /\ no_raise (cov_init true) (os1 ++ [OSample w]) /\
  (exists p, dget (g_points g) "A"%string = Some p /\ p_once p = true) /\
  is_point_covered g "A"%string = Ok true /\
  shown (fst (sample g w)) "A"%string "hit"%string <> shown g "A"%string "hit"%string.
Proof. exact once_still_counted. Qed.
Print Assumptions C12_once_point_frozen_refuted.

(** What holds: once a whole group of once-points is covered, no later sample changes any point.
    Missing: the freeze of a single covered point in a group that is not finished. *)
Theorem C12_once_group_frozen_partial : forall (W : Type) (g : group W) w ws,
  reachable g -> sample_stoped g = false -> snd (sample g w) = Ok tt ->
  let g' := fst (sample g w) in
  is_all_covered g' = true -> (forall name p, dget (g_points g') name = Some p -> p_once p = true) ->
  gd_points (as_dict (run g' (map OSample ws))) = gd_points (as_dict g').
Proof. intros W. exact once_group_frozen. Qed.
Print Assumptions C12_once_group_frozen_partial.

Example C12_example :
  let g := run (cov_init true) [OAdd "" ex_bins "p" None false; OSample 3%nat] in
  sample_stoped g = false /\ snd (sample g 6%nat) = Ok tt /\ is_all_covered (fst (sample g 6%nat)) = true.
Proof. vm_compute. auto. Qed.

(** ** C13 *)
Theorem C13_report_totals : forall (W : Type) (g : group W),
  gd_bin_total (as_dict g) = list_sum (map (fun d => List.length (pd_bins d)) (gd_points (as_dict g))) /\
  gd_bin_hints (as_dict g) = list_sum (map (fun d => List.length (filter positive (pd_bins d))) (gd_points (as_dict g))) /\
  gd_point_total (as_dict g) = List.length (gd_points (as_dict g)) /\
  gd_point_hints (as_dict g) = List.length (filter pd_hinted (gd_points (as_dict g))) /\
  gd_has_once (as_dict g) = existsb pd_once (gd_points (as_dict g)).
Proof. intros W. exact report_totals. Qed.
Print Assumptions C13_report_totals.

Theorem C13_report_bounds : forall (W : Type) (g : group W),
  (gd_bin_hints (as_dict g) <= gd_bin_total (as_dict g))%nat /\ (gd_point_hints (as_dict g) <= gd_point_total (as_dict g))%nat.
Proof. intros W. exact report_bounds. Qed.
Print Assumptions C13_report_bounds.

(** All points covered implies all bins hit, in numbers. *)
Theorem C13_report_full : forall (W : Type) (g : group W), reachable g ->
  gd_point_hints (as_dict g) = gd_point_total (as_dict g) -> gd_bin_hints (as_dict g) = gd_bin_total (as_dict g).
Proof. intros W. exact report_full. Qed.
Print Assumptions C13_report_full.

Theorem C13_report_hinted_sound : forall (W : Type) (g : group W), reachable g ->
  gd_hinted (as_dict g) = true -> is_all_covered g = true.
Proof. intros W. exact report_hinted. Qed.
Print Assumptions C13_report_hinted_sound.

(** The field [hinted] of the report can disagree with is_all_covered(). *)
Theorem C13_report_hinted_agrees_refuted : exists os : list (op nat),
  let g := run (cov_init true) os in
  Forall wf_op os /\ no_raise (cov_init true) os /\ gd_points (as_dict g) <> [] /\
  is_all_covered g = true /\ gd_hinted (as_dict g) = false.
Proof. exact report_disagrees. Qed.
Print Assumptions C13_report_hinted_agrees_refuted.

(** They agree directly after every effective sample.  Missing: after del_point, add or reset. *)
Theorem C13_report_hinted_agrees_partial : forall (W : Type) (g : group W) w,
  reachable g -> sample_stoped g = false -> snd (sample g w) = Ok tt ->
  gd_hinted (as_dict (fst (sample g w))) = is_all_covered (fst (sample g w)).
Proof. intros W. exact report_hinted_after. Qed.
Print Assumptions C13_report_hinted_agrees_partial.

Example C13_example : let d := as_dict (run (cov_init true) ex_os) in
  (gd_bin_total d, gd_bin_hints d, gd_point_total d, gd_point_hints d, gd_has_once d) = (3, 3, 2, 2, true)%nat.
Proof. reflexivity. Qed.

(** ** C14 *)
Theorem C14_add_point_frame : forall (W : Type) (g : group W) dk b n on dy, n <> EmptyString ->
  (snd (add_watch_point g dk b n on dy) = Ok tt /\
     ~ In n (map pd_name (gd_points (as_dict g))) /\ (forall k a, In (k, a) (user_bins b) -> callable_bin a) /\
     gd_points (as_dict (fst (add_watch_point g dk b n on dy))) =
       gd_points (as_dict g) ++
       [mk_pd (match on with None => g_dis g | Some x => x end) false
          (map (fun ka => (fst ka, 0%nat)) (user_bins b)) n [] dy]) \/
  (add_watch_point g dk b n on dy = (g, Exn ValueError) /\
     (In n (map pd_name (gd_points (as_dict g))) \/ exists k a, In (k, a) (user_bins b) /\ ~ callable_bin a)).
Proof. intros W. exact add_report. Qed.
Print Assumptions C14_add_point_frame.

Theorem C14_del_point_frame : forall (W : Type) (g : group W) n, reachable g ->
  (snd (del_point g n) = Ok tt /\ In n (map pd_name (gd_points (as_dict g))) /\
     gd_points (as_dict (fst (del_point g n))) =
       filter (fun d => negb (String.eqb n (pd_name d))) (gd_points (as_dict g))) \/
  (del_point g n = (g, Exn ValueError) /\ ~ In n (map pd_name (gd_points (as_dict g)))).
Proof. intros W. exact del_report. Qed.
Print Assumptions C14_del_point_frame.

Theorem C14_reset_point_frame : forall (W : Type) (g : group W) n, reachable g ->
  (snd (reset_point g n) = Ok tt /\ In n (map pd_name (gd_points (as_dict g))) /\
     gd_points (as_dict (fst (reset_point g n))) =
       map (fun d => if String.eqb n (pd_name d)
                     then mk_pd (pd_once d) false (map (fun kn => (fst kn, 0%nat)) (pd_bins d)) (pd_name d)
                            (pd_functions d) (pd_dyn d)
                     else d) (gd_points (as_dict g))) \/
  (reset_point g n = (g, Exn ValueError) /\ ~ In n (map pd_name (gd_points (as_dict g)))).
Proof. intros W. exact reset_report. Qed.
Print Assumptions C14_reset_point_frame.

Example C14_example : let g := run (cov_init true) ex_os in
  map pd_name (gd_points (as_dict (fst (del_point g "p")))) = ["q"%string] /\
  shown (fst (reset_point g "p")) "p" "mid" = Some 0%nat /\ shown (fst (reset_point g "p")) "q" "anonymous" = Some 1%nat /\
  snd (add_watch_point g "" ex_bins "p" None false) = Exn ValueError /\
  snd (add_watch_point g "" (ADict [("a"%string, ge 1); ("b"%string, AList [le 2; None])]) "r" None false) = Exn ValueError.
Proof. vm_compute. auto 10. Qed.

(** ** C15 *)
(** A raising bin can disable sampling for good: the only point has once=False, sampling is on, sample()
    raises once, and from then on every sample is ignored although it would have counted before. *)
Theorem C15_raise_keeps_sampling_refuted : exists (os : list (op nat)),
  let g := run (cov_init true) os in
  Forall wf_op os /\ reachable g /\
  (forall name p, dget (g_points g) name = Some p -> p_once p = false) /\
  sample_stoped g = false /\ gd_stop (as_dict g) = false /\
  snd (sample g 1%nat) = Exn (UserExn 0) /\
  (forall ws : list nat,
     shown (run (fst (sample g 1%nat)) (map OSample ws)) "A"%string "b"%string = shown g "A"%string "b"%string) /\
  (forall w : nat, w <> 1%nat -> shown (fst (sample g w)) "A"%string "b"%string <> shown g "A"%string "b"%string).
Proof. exact raise_disables. Qed.
Print Assumptions C15_raise_keeps_sampling_refuted.

(** What holds: if the group was not completely covered before, sampling stays on.
    Missing: groups that were completely covered with a once=False point. *)
Theorem C15_raise_keeps_sampling_partial : forall (W : Type) (g : group W) w e,
  reachable g -> is_all_covered g = false -> gd_stop (as_dict g) = false ->
  snd (sample g w) = Exn e -> sample_stoped (fst (sample g w)) = false.
Proof. intros W. exact raise_not_stopped. Qed.
Print Assumptions C15_raise_keeps_sampling_partial.

Example C15_example :
  let r := AOne (Some (fun w => if Nat.eqb w 1 then Exn (UserExn 7) else Ok (Nat.eqb w 2))) in
  let g := run (cov_init true) [OAdd "" r "A" None false; OSample 0%nat] in
  is_all_covered g = false /\ gd_stop (as_dict g) = false /\ snd (sample g 1%nat) = Exn (UserExn 7).
Proof. vm_compute. auto. Qed.

(** ** C16 *)
(** stop_sample() cannot be called: it raises TypeError and the next sample still counts. *)
Theorem C16_stop_sample_refuted : exists (g : group nat) w, reachable g /\
  snd (call_stop_sample g) = Exn TypeError /\
  shown (fst (sample (fst (call_stop_sample g)) w)) "A"%string "hit"%string <> shown g "A"%string "hit"%string.
Proof. exact stop_call_ineffective. Qed.
Print Assumptions C16_stop_sample_refuted.

(** Assigning the attribute [stop_sample = True] does stop sampling for any number of samples.
    Missing: the method call. *)
Theorem C16_stop_attribute_partial : forall (W : Type) (g : group W) ws,
  let g1 := set_stop_attr g true in
  gd_points (as_dict (run g1 (map OSample ws))) = gd_points (as_dict g1) /\
  gd_count (as_dict (run g1 (map OSample ws))) = gd_count (as_dict g1) /\
  sample_stoped (run g1 (map OSample ws)) = true.
Proof. intros W g ws. exact (stop_attr_frame ws (set_stop_attr g true) eq_refl). Qed.
Print Assumptions C16_stop_attribute_partial.

(** Setting the attribute back to False ends the pause: whatever was sampled in between leaves no trace, and the group goes on as it
    would have without the pause (sampling not having been stopped before). *)
Lemma paused W ws : forall (g : group W), g_stop g = true -> exists n, run g (map OSample ws) = mk_group (g_dis g) (g_points g) (g_hinted g) (g_all_once g) (g_stop g) (g_count g) n.
Proof.
  induction ws as [|w ws IH]; intros g Hg; [exists (g_calln g); now destruct g|]. cbn [map run fold_left exec]. assert (E0 : fst (sample g w) = mk_group (g_dis g) (g_points g) (g_hinted g) (g_all_once g) (g_stop g) (g_count g) (S (g_calln g))) by (unfold sample; now rewrite Hg). rewrite E0.
  destruct (IH (mk_group (g_dis g) (g_points g) (g_hinted g) (g_all_once g) (g_stop g) (g_count g) (S (g_calln g))) Hg) as [n E]. exists n. exact E.
Qed.
Theorem C16_pause : forall (W : Type) (g : group W) ws, g_stop g = false ->
  let g1 := run g (OSetStop true :: map OSample ws ++ [OSetStop false]) in
  sample_stoped g1 = sample_stoped g /\ gd_points (as_dict g1) = gd_points (as_dict g) /\ gd_count (as_dict g1) = gd_count (as_dict g) /\
  forall w, snd (sample g1 w) = snd (sample g w) /\ gd_points (as_dict (fst (sample g1 w))) = gd_points (as_dict (fst (sample g w))) /\
            gd_count (as_dict (fst (sample g1 w))) = gd_count (as_dict (fst (sample g w))) /\ sample_stoped (fst (sample g1 w)) = sample_stoped (fst (sample g w)).
Proof.
  intros W g ws Hg g1. destruct (paused W ws (set_stop_attr g true) eq_refl) as [n E].
  assert (X : g1 = mk_group (g_dis g) (g_points g) (g_hinted g) (g_all_once g) (g_stop g) (g_count g) n).
  { unfold g1. cbn [run fold_left exec fst]. rewrite fold_left_app. unfold run in E. rewrite E. cbn. now rewrite Hg. }
  assert (AD : forall h1 h2 : group W, g_points h1 = g_points h2 -> g_count h1 = g_count h2 -> gd_points (as_dict h1) = gd_points (as_dict h2) /\ gd_count (as_dict h1) = gd_count (as_dict h2)).
  { intros h1 h2 E1 E2. unfold as_dict. rewrite E1, E2. destruct (collect_points (g_points h2) 0 0 0 0 false) as [l [[[[bt bh] pt] ph] ho]]. split; reflexivity. }
  rewrite X. clear X E g1. split; [reflexivity|]. destruct (AD (mk_group (g_dis g) (g_points g) (g_hinted g) (g_all_once g) (g_stop g) (g_count g) n) g eq_refl eq_refl) as [A1 A2]. split; [exact A1|]. split; [exact A2|].
  intros w. unfold sample, sample_stoped. cbn [g_stop g_hinted g_all_once g_points g_count g_calln g_dis]. rewrite Hg. destruct (g_hinted g && g_all_once g) eqn:B; [|destruct (sample_loop (g_points g) w true true) as [[ps ao] [ah|e]]];
    cbn [fst snd g_stop g_hinted g_all_once]; match goal with |- _ /\ gd_points (as_dict ?h1) = gd_points (as_dict ?h2) /\ _ => destruct (AD h1 h2 eq_refl eq_refl) end; auto.
Qed.
Print Assumptions C16_pause.
Example C16_pause_example :
  let g := run (cov_init true) ex_os in
  g_stop g = false /\ shown g "p" "mid" = Some 1%nat /\
  shown (run g [OSetStop true; OSample 3%nat; OSample 3%nat; OSetStop false; OSample 3%nat]) "p" "mid" = Some 2%nat.
Proof. vm_compute. auto. Qed.

(** resume_sample() always restarts: the next sample evaluates every bin of every point exactly once. *)
Theorem C16_resume_then_sample : forall (W : Type) (g : group W) w, reachable g ->
  snd (sample (resume_sample g) w) = Ok tt ->
  let g' := fst (sample (resume_sample g) w) in
  gd_count (as_dict g') = S (gd_count (as_dict g)) /\
  forall name p k b n, dget (g_points g) name = Some p -> In (k, b) (p_bins p) -> shown g name k = Some n ->
    shown g' name k = Some (n + if bin_holds b w then 1 else 0)%nat.
Proof. intros W. exact resume_then_sample. Qed.
Print Assumptions C16_resume_then_sample.

Example C16_example :
  let g := run (cov_init true) (ex_os ++ [OSetStop true; OSample 3%nat; OResume]) in
  shown g "p" "mid" = Some 1%nat /\ snd (sample (resume_sample g) 3%nat) = Ok tt /\
  shown (fst (sample (resume_sample g) 3%nat)) "p" "mid" = Some 2%nat.
Proof. vm_compute. auto. Qed.

(** ** C17 *)
(** [uniq] stands for list(set(.)): any function that keeps exactly the elements. *)
Theorem C17_marks_exact : forall strip fnm rex uniq, (forall l x, In x (uniq l) <-> In x l) ->
  forall (W : Type) (g : group W) name p fs pats re, dget (g_points g) name = Some p ->
  snd (mark_function strip fnm rex uniq g name fs pats re) = Ok tt ->
  let g' := fst (mark_function strip fnm rex uniq g name fs pats re) in
  forall k x, In x (marks g' name k) <->
    In x (marks g name k) \/
    ((exists pat, In pat pats /\ selects strip fnm rex (map fst (p_bins p)) pat k) /\ exists f, In f fs /\ fname f = Some x).
Proof. intros strip fnm rex uniq Hu W. exact (mark_ok strip fnm rex uniq Hu). Qed.
Print Assumptions C17_marks_exact.

(** In every case: marks are never removed, other points and all other fields are untouched. *)
Theorem C17_marks_frame : forall strip fnm rex uniq (W : Type) (g : group W) name fs pats re,
  let g' := fst (mark_function strip fnm rex uniq g name fs pats re) in
  map strip_functions (gd_points (as_dict g')) = map strip_functions (gd_points (as_dict g)) /\
  (forall n k, n <> name -> marks g' n k = marks g n k) /\
  (forall n k, incl (marks g n k) (marks g' n k)) /\
  g_hinted g' = g_hinted g /\ sample_stoped g' = sample_stoped g.
Proof. intros strip fnm rex uniq W. exact (mark_frame strip fnm rex uniq). Qed.
Print Assumptions C17_marks_frame.

(** A pattern that selects no bin makes the call raise with the group unchanged. *)
Theorem C17_marks_no_match : forall strip fnm rex uniq (W : Type) (g : group W) name p fs pats pat re,
  dget (g_points g) name = Some p -> In pat pats ->
  (forall b, ~ selects strip fnm rex (map fst (p_bins p)) pat b) ->
  exists e, mark_function strip fnm rex uniq g name fs pats re = (g, Exn e).
Proof. intros strip fnm rex uniq W. exact (mark_nomatch strip fnm rex uniq). Qed.
Print Assumptions C17_marks_no_match.

(** The call succeeds when every pattern compiles and selects something and every function is acceptable. *)
Theorem C17_marks_succeed : forall strip fnm rex uniq (W : Type) (g : group W) name p fs pats re,
  dget (g_points g) name = Some p -> pats <> [] ->
  (forall pat, In pat pats -> rex (strip pat) <> None) ->
  (forall pat, In pat pats -> exists b, selects strip fnm rex (map fst (p_bins p)) pat b) ->
  (forall f, In f fs -> fname f <> None) ->
  snd (mark_function strip fnm rex uniq g name fs pats re) = Ok tt.
Proof. intros strip fnm rex uniq W. exact (mark_succeeds strip fnm rex uniq). Qed.
Print Assumptions C17_marks_succeed.

Example C17_example :
  let m := mark_function (W := nat) (fun s => s) (fun _ _ => true) (fun p => Some (String.prefix p)) (fun l => l) in
  let g := run (cov_init true) ex_os in
  snd (m g "p"%string [FStr "t1"; FCall (Ok "t2"%string)] ["m"; "hi"]%string true) = Ok tt /\
  marks (fst (m g "p"%string [FStr "t1"; FCall (Ok "t2"%string)] ["m"]%string true)) "p" "mid" = ["t1"; "t2"]%string /\
  snd (m g "p"%string [FStr "t1"] ["m"; "x"]%string true) = Exn AssertionError.
Proof. vm_compute. auto. Qed.

(** ** C18 *)
Theorem C18_conditions : forall c t,
  pcall c t = true <->
  let v := match t with TInt z => z | TObj z => z end in
  match c with
  | CEq x => v = x | CNe x => v <> x | CGt x => (v > x)%Z | CLt x => (v < x)%Z
  | CGe x => (v >= x)%Z | CLe x => (v <= x)%Z | CIn l => In v l | CNotIn l => ~ In v l
  | CRange lo hi => (lo <= v <= hi)%Z
  end.
Proof. exact cond_spec. Qed.
Print Assumptions C18_conditions.

Theorem C18_complementary : forall x l t,
  pcall (CNe x) t = negb (pcall (CEq x) t) /\ pcall (CLe x) t = negb (pcall (CGt x) t) /\
  pcall (CGe x) t = negb (pcall (CLt x) t) /\ pcall (CNotIn l) t = negb (pcall (CIn l) t).
Proof. exact cond_complement. Qed.
Print Assumptions C18_complementary.

(** A list bin counts exactly when all of its conditions hold, whatever their order. *)
Theorem C18_list_bin : forall (W : Type) (cs : list (cond W)) w b, eval_bin (BList cs) w = Ok b ->
  (b = true <-> forall c, In c cs -> c w = Ok true).
Proof.
  intros W cs w b H. rewrite (eval_bin_holds _ _ _ H). unfold bin_holds. cbn [conds_of].
  rewrite forallb_forall. split; intros X c Hc; specialize (X c Hc); [destruct (c w) as [[|]|e]; congruence|rewrite X; reflexivity].
Qed.
Print Assumptions C18_list_bin.

Example C18_example : pcall (CRange 2 5) (TObj 5) = true /\ pcall (CNotIn [1; 4]%Z) (TInt 4) = false.
Proof. split; reflexivity. Qed.

(** ** C66 *)
(** A bare callable given without a name is rejected with AttributeError, although the documentation of
    [bins] allows a single condition and [name] has a default. *)
Theorem C66_unnamed_single_condition_refuted : forall (g : group nat) dk c on dy,
  add_watch_point g dk (AOne (Some c)) "" on dy = (g, Exn AttributeError).
Proof. exact unnamed_callable_rejected. Qed.
Print Assumptions C66_unnamed_single_condition_refuted.

(** With a name it is accepted and behaves as the bin "anonymous". *)
Theorem C66_named_single_condition_partial : forall (W : Type) (g : group W) dk c n on dy,
  n <> EmptyString -> ~ In n (map pd_name (gd_points (as_dict g))) ->
  snd (add_watch_point g dk (AOne (Some c)) n on dy) = Ok tt /\
  shown (fst (add_watch_point g dk (AOne (Some c)) n on dy)) n "anonymous" = Some 0%nat.
Proof.
  intros W g dk c n on dy Hn Hni.
  assert (map pd_name (gd_points (as_dict g)) = dkeys (g_points g)) as Hk by (rewrite report_points, map_map; reflexivity).
  rewrite Hk in Hni.
  destruct (add_named g dk (AOne (Some c)) n on dy Hn) as [[H _]|[(_ & (k & a & [[= <- <-]|[]] & Hc) & _)|(_ & _ & bs & Eb & _ & E)]].
  - contradiction.
  - exfalso. apply Hc. discriminate.
  - rewrite E. split; [reflexivity|]. cbn [fst]. rewrite shown_eq. cbn [g_points].
    rewrite <- Dict_Proofs.dset_notin by exact Hni. rewrite Dict_Proofs.dget_set_same. cbn [p_hints].
    destruct bs as [|[k b] [|? ?]]; try discriminate. injection Eb as ->. reflexivity.
Qed.
Print Assumptions C66_named_single_condition_partial.
