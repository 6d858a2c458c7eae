(** C73: elements of signal lists and bundle lists are never mixed up. *)
From Coq Require Import List String Ascii Bool Arith Lia.
From Verif Require Import Py Bundle_Model Bundle_Spec Bundle_Proofs Bundle2_Proofs Bundle4_Proofs Bundle5_Proofs Lists_Model Lists_Spec Lists_Proofs P_Bundle.
Import ListNotations.
Open Scope string_scope.
Open Scope list_scope.

Lemma list_names_ok fmt limit names : list_names fmt limit None = Ok names -> has_hash fmt = true /\ List.length names = limit /\ (forall i x, nth_error names i = Some x <-> i < limit /\ x = replace_hash fmt (dec i)).
Proof.
  unfold list_names. destruct (Nat.eqb limit 0); [discriminate|]. destruct (has_hash fmt) eqn:E; [|discriminate]. cbn [negb]. intros [= <-]. split; [reflexivity|]. split; [now rewrite map_length, seq_length|].
  intros i x. rewrite nth_error_map. destruct (nth_error (seq 0 limit) i) as [j|] eqn:Ej; cbn [option_map].
  - assert (L : i < limit) by (rewrite <- (seq_length limit 0); apply nth_error_Some; congruence). assert (X := nth_error_nth _ _ 0 Ej). rewrite seq_nth in X by exact L. cbn in X. subst j. split; [intros [= <-]; auto|intros [_ ->]; reflexivity].
  - apply nth_error_None in Ej. rewrite seq_length in Ej. split; [discriminate|lia].
Qed.
(** The names of the elements are pairwise different, for every format and every length. *)
Theorem C73_distinct : forall fmt limit names, list_names fmt limit None = Ok names -> NoDup names.
Proof.
  intros fmt limit names H. destruct (list_names_ok _ _ _ H) as (Hh & _ & Hn). apply NoDup_nth_error. intros i j Hi E. destruct (nth_error names i) as [x|] eqn:Ei; [|now apply nth_error_Some in Hi].
  symmetry in E. apply Hn in Ei, E. destruct Ei as [_ ->], E as [_ E].
  destruct (rep_inj fmt (dec i) (dec j) "" "" Hh (dec_dig i) (dec_dig j) Logic.I Logic.I) as [X _]; [now rewrite E|]. now apply dec_inj.
Qed.
Print Assumptions C73_distinct.
(** A list can be created for every format with a '#' and every positive length, and for no other. *)
Theorem C73_created : forall fmt limit rule, (exists names, list_names fmt limit rule = Ok names /\ List.length names = limit) <-> (0 < limit /\ exists f1 f2, fmt = (f1 ++ "#" ++ f2)%string).
Proof.
  intros fmt limit rule. assert (HH : has_hash fmt = true <-> exists f1 f2, fmt = (f1 ++ "#" ++ f2)%string).
  { induction fmt as [|a t IH]; cbn [has_hash]; [split; [discriminate|intros ([|] & f2 & E); discriminate]|]. destruct (Ascii.eqb_spec a "#"%char) as [->|Na]; cbn [orb].
    - split; [intros _; exists "", t; reflexivity|reflexivity].
    - rewrite IH. split; [intros (f1 & f2 & ->); exists (String a f1), f2; reflexivity|]. intros ([|b f1] & f2 & E); cbn in E; [congruence|]. injection E as _ ->. exists f1, f2. reflexivity. }
  rewrite <- HH. unfold list_names. destruct (Nat.eqb_spec limit 0) as [->|Nz]; [split; [intros (? & ? & _); discriminate|lia]|]. destruct (has_hash fmt); cbn [negb].
  - split; [intros _; split; [lia|reflexivity]|]. intros _. eexists. split; [reflexivity|]. now rewrite map_length, seq_length.
  - split; [intros (? & ? & _); discriminate|intros [_ ?]; discriminate].
Qed.
Print Assumptions C73_created.

Lemma kid_list n c names : forall k sg, kid (bundle_list n c names) sg = Some k <-> exists i x, sg = PElem n i /\ nth_error names i = Some x /\ k = with_prefix c x.
Proof.
  unfold bundle_list. intros k sg. assert (G : forall a, kid (map (fun x => (PElem n (fst x), with_prefix c (snd x))) (combine (seq a (List.length names)) names)) sg = Some k <-> exists i x, sg = PElem n (a + i) /\ nth_error names i = Some x /\ k = with_prefix c x).
  { induction names as [|x t IH]; intros a; cbn [List.length seq combine map kid fst snd]; [split; [discriminate|intros ([|] & x & _ & E & _); discriminate]|].
    destruct (seg_eq_dec sg (PElem n a)) as [->|Ne].
    - split; [intros [= <-]; exists 0, x; rewrite Nat.add_0_r; auto|]. intros (i & y & E & Ey & ->). injection E as E. assert (i = 0) by lia. subst i. cbn in Ey. now injection Ey as ->.
    - rewrite IH. split.
      + intros (i & y & -> & E). exists (S i), y. split; [f_equal; lia|exact E].
      + intros ([|i] & y & E & E'); [rewrite Nat.add_0_r in E; congruence|]. exists i, y. split; [rewrite E; f_equal; lia|exact E']. }
  apply (G 0).
Qed.
Lemma accepts_prefix c x p l s : accepts (with_prefix c x) p l s <-> exists n, s = (x ++ n)%string /\ takes c p l n.
Proof. destruct c as [nm m ls sls ks bls ck]. cbn [with_prefix]. destruct p as [|sg t]; reflexivity. Qed.

(** No name fits two elements of a bundle list, nor two different rests for one element: for every format, also if one element's
    prefix is the beginning of another's (v1 and v10). *)
Theorem C73_element : forall fmt limit names n c i j p q l l' s, list_names fmt limit None = Ok names -> takes_names c ->
  forall ci cj, kid (bundle_list n c names) (PElem n i) = Some ci -> kid (bundle_list n c names) (PElem n j) = Some cj ->
  accepts ci p l s -> accepts cj q l' s -> i = j.
Proof.
  intros fmt limit names n c i j p q l l' s H Ht ci cj Ki Kj Ai Aj. destruct (list_names_ok _ _ _ H) as (Hh & _ & Hn).
  apply kid_list in Ki as (i' & x & [= <-] & Ex & ->), Kj as (j' & y & [= <-] & Ey & ->). apply Hn in Ex, Ey. destruct Ex as [_ ->], Ey as [_ ->].
  apply accepts_prefix in Ai as (a & -> & Ta), Aj as (b & E & Tb). destruct (rep_inj fmt (dec i) (dec j) a b Hh (dec_dig i) (dec_dig j) (Ht _ _ _ Ta) (Ht _ _ _ Tb) E) as [X _]. now apply dec_inj.
Qed.
Print Assumptions C73_element.

Lemma flat_leaf nm sigs l x : leaf_in (b_leaves (flat_class nm sigs)) l = Some x <-> exists n, l = LSig n /\ In n sigs /\ x = mk_leaf (LSig n) n true SPlaceholder.
Proof.
  cbn [flat_class b_leaves]. induction sigs as [|a t IH]; cbn [map leaf_in l_id In]; [split; [discriminate|intros (n & _ & [] & _)]|].
  destruct (leafid_eq_dec l (LSig a)) as [->|Ne].
  - split; [intros [= <-]; exists a; auto|]. intros (n & [= <-] & _ & ->). reflexivity.
  - rewrite IH. split; intros (n & E & Hi & Ex); exists n; repeat split; auto. destruct Hi as [->|Hi]; [congruence|exact Hi].
Qed.
Lemma flat_takes nm sigs p l n : takes (flat_class nm sigs) p l n <-> p = [] /\ l = LSig n /\ In n sigs.
Proof.
  destruct p as [|sg t]; cbn [takes].
  - split.
    + intros (x & H & <-). apply flat_leaf in H as (n & -> & Hi & ->). auto.
    + intros (_ & -> & Hi). exists (mk_leaf (LSig n) n true SPlaceholder). split; [apply flat_leaf; exists n; auto|reflexivity].
  - cbn. split; [intros []|intros (E & _); discriminate].
Qed.
Section One.
Context (nm pre n nm' fmt : string) (limit : nat) (sigs names : list string).
Context (H : list_names fmt limit None = Ok names) (ND : NoDup sigs) (HD : forall x, In x sigs -> no_digit x).
Let c := flat_class nm' sigs.
Let b := only_list nm pre n (bundle_list n c names).
Lemma one_accepts p l s : accepts b p l s <-> exists k x, p = [PElem n k] /\ l = LSig x /\ k < limit /\ In x sigs /\ s = (pre ++ replace_hash fmt (dec k) ++ x)%string.
Proof.
  destruct (list_names_ok _ _ _ H) as (Hh & _ & Hn). unfold b, only_list. rewrite accepts_B. split.
  - intros (s1 & E & A). assert (E' : s = (pre ++ s1)%string). { assert (X : renames (MPrefix pre) s s1) by now apply translate_iff. exact X. }
    clear E. destruct p as [|sg t]; [destruct A as (x & A & _); discriminate|]. destruct (kid _ sg) as [ck|] eqn:K; [|destruct A].
    apply kid_list in K as (k & y & -> & Ey & ->). apply Hn in Ey as [L ->]. apply accepts_prefix in A as (x & -> & T). apply flat_takes in T as (-> & -> & Hi). exists k, x. auto.
  - intros (k & x & -> & -> & L & Hi & ->). exists (replace_hash fmt (dec k) ++ x)%string. split; [now apply translate_iff|].
    assert (K : kid (bundle_list n c names) (PElem n k) = Some (with_prefix c (replace_hash fmt (dec k)))) by (apply kid_list; exists k, (replace_hash fmt (dec k)); repeat split; apply Hn; auto).
    rewrite K. apply accepts_prefix. exists x. split; [reflexivity|]. apply flat_takes. auto.
Qed.
Lemma one_created : created (fresh b).
Proof.
  split; [reflexivity|]. cbn [fresh t_b]. assert (KI : forall s k, In (s, k) (bundle_list n c names) -> exists x, k = with_prefix c x).
  { unfold bundle_list. intros s k Hi. apply in_map_iff in Hi as ([i x] & E & _). injection E as _ <-. cbn. eauto. }
  split; constructor.
  - intros l [].
  - intros s k Hi. destruct (KI _ _ Hi) as [x ->]. cbn. constructor; [|intros ? ? []]. intros l Hl. apply in_map_iff in Hl as (y & <- & _). reflexivity.
  - constructor.
  - constructor.
  - unfold bundle_list. rewrite map_map. cbn [fst]. assert (X : forall a (l : list string), NoDup (map (fun x => PElem n (fst x)) (combine (seq a (List.length l)) l)) /\ forall i, In (PElem n i) (map (fun x => PElem n (fst x)) (combine (seq a (List.length l)) l)) -> a <= i).
    { intros a l. revert a. induction l as [|y t IH]; intros a; cbn; [split; [constructor|intros i []]|]. destruct (IH (S a)) as [I1 I2]. split; [constructor; [intros Hi; apply I2 in Hi; lia|exact I1]|]. intros i [[= <-]|Hi]; [lia|]. apply I2 in Hi. lia. }
    apply X.
  - intros s k Hi. destruct (KI _ _ Hi) as [x ->]. cbn. constructor; [| |constructor|intros ? ? []]; rewrite map_map; cbn; [|now rewrite map_id].
    apply FinFun.Injective_map_NoDup; [intros u v [= E]; exact E|exact ND].
Qed.
(** Binding a bundle that consists of a bundle list: signal [x] of element [k] is connected exactly to the pin whose name is the prefix,
    the format with [k] for '#', and [x]; the elements are never mixed up. *)
Theorem C73_bind : forall acc d st t1 st1 k x i, dut_ok d -> bind acc (fresh b) d st = Ok (t1, st1) ->
  slot_at (t_b t1) ([PElem n k], LSig x) = Some (SPin i) <-> (k < limit /\ In x sigs /\ In ((pre ++ replace_hash fmt (dec k) ++ x)%string, i) (d_pins d)).
Proof.
  intros acc d st t1 st1 k x i Hd HB. split.
  - intros Hs. destruct (C41_only _ _ _ _ _ _ _ _ one_created Hd HB Hs) as (s & Hi & Ha & _). cbn [fst snd fresh t_b] in Ha. apply one_accepts in Ha as (k' & x' & [= <-] & [= <-] & L & Hx & ->). auto.
  - intros (L & Hx & Hi). set (s := (pre ++ replace_hash fmt (dec k) ++ x)%string) in *. assert (A : accepts b [PElem n k] (LSig x) s) by (apply one_accepts; exists k, x; auto).
    destruct (list_names_ok _ _ _ H) as (Hh & _ & Hn).
    assert (U : forall pl, goes_to b s pl -> pl = ([PElem n k], LSig x)).
    { intros [p l] G. apply goes_accepts in G. cbn [fst snd] in G. apply one_accepts in G as (k' & x' & -> & -> & L' & Hx' & E). unfold s in E.
      apply (app_len_inj pre pre) in E; [|reflexivity]. destruct E as [_ E]. destruct (rep_inj fmt (dec k) (dec k') x x' Hh (dec_dig k) (dec_dig k') (HD _ Hx) (HD _ Hx') E) as [X ->]. now apply dec_inj in X as ->. }
    destruct (accepted_goes b _ _ _ (proj2 (proj2 one_created)) A) as [pl G]. assert (E := U _ G). subst pl.
    apply (C41_exact acc (fresh b) d st t1 st1 s i); auto using one_created. intros s' j Hi' G'. apply goes_accepts in G'. cbn [fst snd fresh t_b] in G'. apply one_accepts in G' as (k' & x' & [= <-] & [= <-] & _ & _ & ->). reflexivity.
Qed.
End One.
Print Assumptions C73_bind.
Lemma slist_leaf n names l x : leaf_in (signal_list n names) l = Some x <-> exists k nm, l = LEl n k /\ nth_error names k = Some nm /\ x = mk_leaf (LEl n k) nm true SPlaceholder.
Proof.
  unfold signal_list. assert (X : forall a, leaf_in (map (fun x => mk_leaf (LEl n (fst x)) (snd x) true SPlaceholder) (combine (seq a (List.length names)) names)) l = Some x <-> exists k nm, l = LEl n (a + k) /\ nth_error names k = Some nm /\ x = mk_leaf (LEl n (a + k)) nm true SPlaceholder).
  { induction names as [|y t IH]; intros a; cbn [List.length seq combine map leaf_in l_id fst snd].
    - split; [discriminate|]. intros ([|k] & nm & _ & E & _); discriminate.
    - destruct (leafid_eq_dec l (LEl n a)) as [->|Ne].
      + split; [intros [= <-]; exists 0, y; rewrite Nat.add_0_r; auto|]. intros (k & nm & [= E] & E2 & ->). assert (k = 0) by lia. subst k. cbn in E2. injection E2 as <-. now rewrite Nat.add_0_r.
      + rewrite IH. split.
        * intros (k & nm & E1 & E2 & E3). exists (S k), nm. rewrite Nat.add_succ_r. auto.
        * intros ([|k] & nm & E1 & E2 & E3); [rewrite Nat.add_0_r in E1; congruence|]. exists k, nm. rewrite Nat.add_succ_r in E1, E3. auto. }
  apply (X 0).
Qed.
Section Signals.
Context (nm pre n fmt : string) (limit : nat) (names : list string).
Context (H : list_names fmt limit None = Ok names).
Let b := only_signals nm pre n (signal_list n names).
Lemma sigs_accepts p l s : accepts b p l s <-> exists k, p = [] /\ l = LEl n k /\ k < limit /\ s = (pre ++ replace_hash fmt (dec k))%string.
Proof.
  destruct (list_names_ok _ _ _ H) as (Hh & _ & Hn). unfold b, only_signals. rewrite accepts_B. split.
  - intros (s1 & E & A). assert (E' : s = (pre ++ s1)%string). { assert (X : renames (MPrefix pre) s s1) by now apply translate_iff. exact X. }
    clear E. destruct p as [|sg t]; [|destruct A]. destruct A as (x & A & Ex). apply slist_leaf in A as (k & y & -> & Ey & ->). apply Hn in Ey as [L ->]. cbn [l_name] in Ex. subst s1. exists k. auto.
  - intros (k & -> & -> & L & ->). exists (replace_hash fmt (dec k)). split; [now apply translate_iff|]. exists (mk_leaf (LEl n k) (replace_hash fmt (dec k)) true SPlaceholder). split; [|reflexivity]. apply slist_leaf. exists k, (replace_hash fmt (dec k)). split; [reflexivity|]. split; [|reflexivity]. apply Hn. auto.
Qed.
Lemma sigs_created : created (fresh b).
Proof.
  split; [reflexivity|]. cbn [fresh t_b].
  split; constructor.
  - intros l Hl. unfold signal_list in Hl. apply in_map_iff in Hl as (y & <- & _). reflexivity.
  - intros s k [].
  - unfold signal_list. rewrite map_map. cbn [l_id]. assert (X : forall a (l : list string), NoDup (map (fun x => LEl n (fst x)) (combine (seq a (List.length l)) l)) /\ forall i, In (LEl n i) (map (fun x => LEl n (fst x)) (combine (seq a (List.length l)) l)) -> a <= i).
    { intros a l. revert a. induction l as [|y t IH]; intros a; cbn; [split; [constructor|intros i []]|]. destruct (IH (S a)) as [I1 I2]. split; [constructor; [intros Hi; apply I2 in Hi; lia|exact I1]|]. intros i [[= <-]|Hi]; [lia|]. apply I2 in Hi. lia. }
    apply X.
  - unfold signal_list. rewrite map_map. cbn [l_name]. pose proof (C73_distinct _ _ _ H) as D. assert (X : forall a (l : list string), map (fun x => snd x) (combine (seq a (List.length l)) l) = l) by (intros a l; revert a; induction l as [|y t IH]; intros a; cbn; congruence). rewrite X. exact D.
  - constructor.
  - intros s k [].
Qed.
(** Binding a bundle that consists of a signal list: element [k] is connected exactly to the pin whose name is the prefix and the format with [k] for '#'. *)
Theorem C73_bind_signals : forall acc d st t1 st1 k i, dut_ok d -> bind acc (fresh b) d st = Ok (t1, st1) ->
  slot_at (t_b t1) ([], LEl n k) = Some (SPin i) <-> (k < limit /\ In ((pre ++ replace_hash fmt (dec k))%string, i) (d_pins d)).
Proof.
  intros acc d st t1 st1 k i Hd HB. split.
  - intros Hs. destruct (C41_only _ _ _ _ _ _ _ _ sigs_created Hd HB Hs) as (s & Hi & Ha & _). cbn [fst snd fresh t_b] in Ha. apply sigs_accepts in Ha as (k' & _ & [= <-] & L & ->). auto.
  - intros (L & Hi). set (s := (pre ++ replace_hash fmt (dec k))%string) in *. assert (A : accepts b [] (LEl n k) s) by (apply sigs_accepts; exists k; auto).
    destruct (list_names_ok _ _ _ H) as (Hh & _ & Hn).
    assert (U : forall pl, goes_to b s pl -> pl = ([], LEl n k)).
    { intros [p l] G. apply goes_accepts in G. cbn [fst snd] in G. apply sigs_accepts in G as (k' & -> & -> & L' & E). unfold s in E.
      apply (app_len_inj pre pre) in E; [|reflexivity]. destruct E as [_ E]. destruct (rep_inj fmt (dec k) (dec k') "" "" Hh (dec_dig k) (dec_dig k') Logic.I Logic.I) as [X _]; [now rewrite E|]. now apply dec_inj in X as ->. }
    destruct (accepted_goes b _ _ _ (proj2 (proj2 sigs_created)) A) as [pl G]. assert (E := U _ G). subst pl.
    apply (C41_exact acc (fresh b) d st t1 st1 s i); auto using sigs_created. intros s' j Hi' G'. apply goes_accepts in G'. cbn [fst snd fresh t_b] in G'. apply sigs_accepts in G' as (k' & _ & [= <-] & _ & ->). reflexivity.
Qed.
End Signals.
Print Assumptions C73_bind_signals.
Example C73_nonvacuous_signals : list_names "v#" 12 None = Ok (map (fun i => replace_hash "v#" (dec i)) (seq 0 12)) /\
  exists t1 st1, bind true (fresh (only_signals "top" "io_" "vec" (signal_list "vec" (map (fun i => replace_hash "v#" (dec i)) (seq 0 12))))) (mk_dut 0 [("io_v10", 3); ("io_v1", 4)]) st0 = Ok (t1, st1) /\
  slot_at (t_b t1) ([], LEl "vec" 1) = Some (SPin 4) /\ slot_at (t_b t1) ([], LEl "vec" 10) = Some (SPin 3).
Proof. split; [reflexivity|]. run. Qed.
(** In particular: ten or more elements, format "v#": element 1 takes "v1x", element 10 takes "v10x". *)
Definition vnames : list string := map (fun i => replace_hash "v#" (dec i)) (seq 0 12).
Definition vb : bundle := only_list "top" "io_" "vec" (bundle_list "vec" (flat_class "" ["x"; "y"]) vnames).
Example C73_ex : list_names "v#" 12 None = Ok vnames /\ NoDup ["x"; "y"] /\ (forall x, In x ["x"; "y"] -> no_digit x) /\ takes_names (flat_class "" ["x"; "y"]) /\
  exists t1 st1, bind true (fresh vb) (mk_dut 0 [("io_v10x", 3); ("io_v1x", 4); ("io_v11y", 5)]) st0 = Ok (t1, st1) /\
  slot_at (t_b t1) ([PElem "vec" 1], LSig "x") = Some (SPin 4) /\ slot_at (t_b t1) ([PElem "vec" 10], LSig "x") = Some (SPin 3) /\ slot_at (t_b t1) ([PElem "vec" 11], LSig "y") = Some (SPin 5).
Proof.
  split; [reflexivity|]. split; [nodup|]. assert (D : forall x, In x ["x"; "y"] -> no_digit x) by (intros x [<-|[<-|[]]]; reflexivity). split; [exact D|]. split; [|run].
  intros p l x T. apply flat_takes in T as (_ & _ & Hx). auto.
Qed.
(** The condition on the names is needed: if a sub-bundle of the element has a prefix that begins with a digit, "v10x" fits element 1
    (then "0" of the sub-bundle, then x) and element 10 (signal x), and goes to element 1. *)
Definition odd : bundle := B "" (MPrefix "") [mk_leaf (LSig "x") "x" true SPlaceholder] [] [(PSub "s", B "" (MPrefix "0") [mk_leaf (LSig "x") "x" true SPlaceholder] [] [] [] None)] [] None.
Definition oddb : bundle := only_list "top" "io_" "vec" (bundle_list "vec" odd vnames).
Theorem C73_digit_prefix_mixes_up : exists t1 st1, bind true (fresh oddb) (mk_dut 0 [("io_v10x", 3)]) st0 = Ok (t1, st1) /\
  slot_at (t_b t1) ([PElem "vec" 10], LSig "x") = Some SDummy /\ slot_at (t_b t1) ([PElem "vec" 1; PSub "s"], LSig "x") = Some (SPin 3).
Proof. run. Qed.
Print Assumptions C73_digit_prefix_mixes_up.
