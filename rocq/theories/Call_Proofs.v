(** Binding of arguments: the algorithm of inspect.Signature against the meaning of a call. *)
From Coq Require Import List String Bool Arith ZArith Lia.
From Verif Require Import Py Dict_Proofs Port_Model Call_Model Call_Spec.
Import ListNotations.
Open Scope string_scope.
Open Scope list_scope.
Open Scope nat_scope.

Section Bind.
Context {V : Type}.
Notation param := (param V). Notation pv := (pv V).
Implicit Types (ps : list param) (p q : param) (args : list V) (kw : dict V) (acc : dict pv).

(** With no positional argument left only the keywords matter. *)
Definition finish_pos (x : res (dict pv * signature V)) kw : res (dict pv * dict V * option string) :=
  rbind x (fun x => let (acc, rest) := x in bind_kw rest kw acc None).
Lemma bind_pos_nil ps kw acc : finish_pos (bind_pos ps [] kw acc) kw = bind_kw ps kw acc None.
Proof.
  destruct ps as [|p ps]; [reflexivity|]. unfold finish_pos. cbn [bind_pos]. destruct (p_kind p) eqn:K; cbn [rbind bind_kw]; rewrite ?K; try reflexivity.
  all: unfold dmem; destruct (dget kw (p_name p)) as [v|] eqn:G; cbn [rbind bind_kw]; rewrite ?K, ?G; try reflexivity; destruct (has_default p) eqn:HD; cbn [rbind bind_kw]; rewrite ?K, ?G, ?HD; reflexivity.
Qed.

(** The keyword loop. *)
Definition take_kw kw p : option V := match p_kind p with VarPos | VarKw => None | _ => dget kw (p_name p) end.
Definition starred p : bool := match p_kind p with VarPos | VarKw => true | _ => false end.
Definition missing kw p : bool := negb (starred p) && negb (dmem kw (p_name p)) && negb (has_default p).
Definition rest_kw ps kw : dict V := filter (fun x => negb (existsb (fun q => by_keyword q && String.eqb (fst x) (p_name q)) ps)) kw.
Definition kwp_of ps (k : option string) : option string := fold_left (fun k p => match p_kind p with VarKw => Some (p_name p) | _ => k end) ps k.

Lemma ddel_filter kw k : NoDup (dkeys kw) -> ddel kw k = filter (fun x => negb (String.eqb (fst x) k)) kw.
Proof.
  induction kw as [|[k1 v1] kw IH]; cbn; auto. intros H. inversion H as [|? ? Hni Hnd]; subst. rewrite (String.eqb_sym k1 k). destruct (String.eqb_spec k k1) as [->|Hne]; cbn.
  - symmetry. change (map fst kw) with (dkeys kw) in *. clear - Hni. induction kw as [|[a b] kw IH]; cbn; auto. destruct (String.eqb_spec a k1) as [->|]; [exfalso; apply Hni; left; reflexivity|]. cbn. f_equal. apply IH. intros Hx; apply Hni; right; exact Hx.
  - f_equal. auto.
Qed.
Lemma filter_filter {A} (f g : A -> bool) l : filter f (filter g l) = filter (fun x => g x && f x) l.
Proof. induction l as [|x l IH]; cbn; auto. destruct (g x); cbn; [destruct (f x); congruence|auto]. Qed.

Lemma bind_kw_spec ps : forall kw acc k, NoDup (map p_name ps) -> NoDup (dkeys kw) -> (forall p, In p ps -> p_kind p = PosOnly -> ~ In (p_name p) (dkeys kw)) -> (forall p, In p ps -> ~ In (p_name p) (dkeys acc)) ->
  (existsb (missing kw) ps = true /\ bind_kw ps kw acc k = Exn TypeError) \/
  (existsb (missing kw) ps = false /\ bind_kw ps kw acc k = Ok (acc ++ flat_map (fun p => match take_kw kw p with Some v => [(p_name p, One v)] | None => [] end) ps, rest_kw ps kw, kwp_of ps k)).
Proof.
  induction ps as [|p ps IH]; intros kw acc k ND NK PO NA.
  - right. split; auto. cbn. rewrite app_nil_r. f_equal. f_equal. f_equal. unfold rest_kw. cbn. clear. induction kw as [|x l IH]; cbn; congruence.
  - inversion ND as [|? ? N1 N2]; subst. assert (PO' : forall q, In q ps -> p_kind q = PosOnly -> ~ In (p_name q) (dkeys kw)) by (intros; apply PO; auto; now right). assert (NA' : forall q, In q ps -> ~ In (p_name q) (dkeys acc)) by (intros; apply NA; now right).
    assert (OTH : forall q, In q ps -> p_name q <> p_name p) by (intros q Hq E; apply N1; rewrite <- E; now apply in_map).
    assert (SKIP : by_keyword p = false \/ dget kw (p_name p) = None -> rest_kw (p :: ps) kw = rest_kw ps kw).
    { intros H. unfold rest_kw. apply filter_ext_in. intros [a v] Hin. cbn [existsb fst]. destruct H as [->|H]; auto. destruct (String.eqb_spec a (p_name p)) as [->|]; [|now rewrite andb_false_r]. apply dget_None in H. exfalso. apply H. apply in_map_iff. exists (p_name p, v). auto. }
    cbn [existsb flat_map bind_kw]. destruct (starred p) eqn:ST.
    + assert (X : forall k', bind_kw ps kw acc k' = bind_kw ps kw acc k' /\ missing kw p = false /\ take_kw kw p = None /\ by_keyword p = false).
      { intros k'. unfold missing, take_kw, by_keyword, starred in *. destruct (p_kind p); try discriminate; auto. }
      destruct (X k) as [_ [M [T B]]]. rewrite M, T. cbn [orb app]. rewrite (SKIP (or_introl B)). unfold starred in ST. destruct (p_kind p) eqn:K; try discriminate.
      * destruct (IH kw acc k N2 NK PO' NA') as [[A1 A2]|[A1 A2]]; [left|right]; split; auto. rewrite A2. unfold kwp_of. cbn [fold_left]. rewrite K. reflexivity.
      * destruct (IH kw acc (Some (p_name p)) N2 NK PO' NA') as [[A1 A2]|[A1 A2]]; [left|right]; split; auto. rewrite A2. unfold kwp_of. cbn [fold_left]. rewrite K. reflexivity.
    + assert (KW : kwp_of (p :: ps) k = kwp_of ps k) by (unfold kwp_of; cbn [fold_left]; unfold starred in ST; destruct (p_kind p); auto; discriminate).
      destruct (dget kw (p_name p)) as [v|] eqn:G.
      * assert (M : missing kw p = false) by (unfold missing, dmem; rewrite G, ST; reflexivity). assert (T : take_kw kw p = Some v) by (unfold take_kw; rewrite G; unfold starred in ST; destruct (p_kind p); auto; discriminate).
        assert (KP : p_kind p <> PosOnly) by (intros E; apply (PO p (or_introl eq_refl) E); apply dget_Some_key; eauto).
        assert (B : by_keyword p = true) by (unfold by_keyword; unfold starred in ST; destruct (p_kind p); auto; congruence).
        rewrite M, T. cbn [orb app].
        assert (E : (match p_kind p with VarKw => bind_kw ps kw acc (Some (p_name p)) | VarPos => bind_kw ps kw acc k | _ => match p_kind p with PosOnly => Exn TypeError | _ => bind_kw ps (ddel kw (p_name p)) (dset acc (p_name p) (One v)) k end end) = bind_kw ps (ddel kw (p_name p)) (dset acc (p_name p) (One v)) k).
        { unfold starred in ST. destruct (p_kind p); auto; congruence. }
        match goal with |- context [match p_kind p with PosOnly => ?a | PosKw => ?b | VarPos => ?c | KwOnly => ?d | VarKw => ?e end] => replace (match p_kind p with PosOnly => a | PosKw => b | VarPos => c | KwOnly => d | VarKw => e end) with (bind_kw ps (ddel kw (p_name p)) (dset acc (p_name p) (One v)) k) by (unfold starred in ST; destruct (p_kind p); auto; congruence) end.
        rewrite dset_notin by (apply NA; now left).
        assert (GK : forall q, In q ps -> dget (ddel kw (p_name p)) (p_name q) = dget kw (p_name q)) by (intros q Hq; apply dget_del_other; auto).
        assert (MK : existsb (missing (ddel kw (p_name p))) ps = existsb (missing kw) ps).
        { clear - GK. induction ps as [|q ps IH]; cbn; auto. rewrite IH by (intros; apply GK; now right). f_equal. unfold missing, dmem. now rewrite (GK q (or_introl eq_refl)). }
        assert (FK : flat_map (fun q => match take_kw (ddel kw (p_name p)) q with Some v => [(p_name q, One v)] | None => [] end) ps = flat_map (fun q => match take_kw kw q with Some v => [(p_name q, One v)] | None => [] end) ps).
        { clear - GK. induction ps as [|q ps IH]; cbn; auto. rewrite IH by (intros; apply GK; now right). f_equal. unfold take_kw. now rewrite (GK q (or_introl eq_refl)). }
        destruct (IH (ddel kw (p_name p)) (acc ++ [(p_name p, One v)]) k N2) as [[A1 A2]|[A1 A2]].
        -- now apply ddel_nodup.
        -- intros q Hq Kq Hi. apply (PO' q Hq Kq). eapply ddel_keys_incl; eauto.
        -- intros q Hq Hi. unfold dkeys in Hi. rewrite map_app in Hi. apply in_app_or in Hi as [Hi|[Hi|[]]]; [now apply (NA' q Hq)|]. cbn in Hi. apply (OTH q Hq). auto.
        -- left. rewrite <- MK. auto.
        -- right. rewrite <- MK. split; auto. rewrite A2, FK, KW. rewrite <- app_assoc. cbn [app]. f_equal. f_equal. f_equal. unfold rest_kw. rewrite ddel_filter by auto. rewrite filter_filter. apply filter_ext. intros [a w]. cbn [existsb fst]. rewrite B. cbn [andb]. now rewrite negb_orb.
      * assert (T : take_kw kw p = None) by (unfold take_kw; rewrite G; destruct (p_kind p); auto). rewrite T. cbn [app]. rewrite (SKIP (or_intror eq_refl)), KW.
        match goal with |- context [match p_kind p with PosOnly => ?a | PosKw => ?b | VarPos => ?c | KwOnly => ?d | VarKw => ?e end] => replace (match p_kind p with PosOnly => a | PosKw => b | VarPos => c | KwOnly => d | VarKw => e end) with (if has_default p then bind_kw ps kw acc k else Exn TypeError) by (unfold starred in ST; destruct (p_kind p); auto; congruence) end.
        unfold missing at 1 3. unfold dmem. rewrite G, ST. cbn [negb andb]. destruct (has_default p) eqn:HD; cbn [negb orb]; [|left; auto]. exact (IH kw acc k N2 NK PO' NA').
Qed.

(** * The dictionary with defaults *)
Definition fin (d : dict pv) p : option pv :=
  match dget d (p_name p) with
  | Some v => Some v
  | None => match p_default p, p_kind p with Some v, _ => Some (One v) | None, VarPos => Some (Tup []) | None, VarKw => Some (Dct []) | None, _ => None end
  end.
Lemma apply_fin d ps : (forall p, In p ps -> fin d p <> None) -> Forall2 (fun p x => fst x = p_name p /\ fin d p = Some (snd x)) ps (apply_defaults ps d).
Proof.
  induction ps as [|p ps IH]; intros H; cbn [apply_defaults]; [constructor|]. assert (IH' := IH (fun q Hq => H q (or_intror Hq))). pose proof (H p (or_introl eq_refl)) as X. unfold fin in X.
  destruct (dget d (p_name p)) as [v|] eqn:G; [constructor; auto; cbn; unfold fin; rewrite G; auto|]. destruct (p_default p) as [v|] eqn:D; [constructor; auto; cbn; unfold fin; rewrite G, D; auto|].
  destruct (p_kind p) eqn:K; try congruence; constructor; auto; cbn; unfold fin; rewrite G, D, K; auto.
Qed.

Lemma place_left x l1 l2 : In x l1 -> place x (l1 ++ l2) = place x l1.
Proof. induction l1 as [|y l IH]; cbn; [tauto|]. intros H. destruct (String.eqb_spec x y); auto. f_equal. apply IH. destruct H; congruence. Qed.
Lemma place_right x l1 l2 : ~ In x l1 -> place x (l1 ++ l2) = List.length l1 + place x l2.
Proof. induction l1 as [|y l IH]; cbn; auto. intros H. destruct (String.eqb_spec x y); [exfalso; auto|]. f_equal. apply IH. tauto. Qed.
Lemma place_lt x l : In x l -> place x l < List.length l.
Proof. induction l as [|y l IH]; cbn; [tauto|]. intros H. destruct (String.eqb_spec x y); [lia|]. assert (In x l) by (destruct H; congruence). specialize (IH H0). lia. Qed.
Lemma existsb_false {A} (f : A -> bool) l : existsb f l = false <-> forall x, In x l -> f x = false.
Proof.
  split.
  - intros H x Hx. destruct (f x) eqn:E; auto. assert (existsb f l = true) by (apply existsb_exists; eauto). congruence.
  - intros H. destruct (existsb f l) eqn:E; auto. apply existsb_exists in E as [x [Hx E]]. rewrite (H x Hx) in E. discriminate.
Qed.
Lemma kwp_none ps k : existsb (is_kind VarKw) ps = false -> kwp_of ps k = k.
Proof. revert k. induction ps as [|p ps IH]; intros k; cbn; auto. intros H. apply orb_false_iff in H as [H1 H2]. unfold is_kind in H1. unfold kwp_of in *. cbn. rewrite IH by auto. destruct (p_kind p); auto; discriminate. Qed.
Lemma kwp_some ps k : existsb (is_kind VarKw) ps = true -> exists p, In p ps /\ p_kind p = VarKw /\ kwp_of ps k = Some (p_name p).
Proof.
  revert k. induction ps as [|p ps IH]; intros k; cbn [existsb]; [discriminate|]. intros H. unfold kwp_of. cbn [fold_left]. destruct (existsb (is_kind VarKw) ps) eqn:E.
  - destruct (IH (match p_kind p with VarKw => Some (p_name p) | _ => k end) eq_refl) as [q [A [B C]]]. exists q. split; [now right|]. split; auto.
  - rewrite orb_false_r in H. exists p. split; [now left|]. assert (p_kind p = VarKw) by (unfold is_kind in H; destruct (p_kind p); auto; discriminate). rewrite H0. split; auto. apply (kwp_none ps (Some (p_name p)) E).
Qed.
Lemma dget_app {A} (a b : dict A) k : dget (a ++ b) k = match dget a k with Some v => Some v | None => dget b k end.
Proof. induction a as [|[x v] a IH]; cbn; auto. destruct (String.eqb k x); auto. Qed.
Lemma dget_flat kw ps p : NoDup (map p_name ps) -> In p ps -> dget (flat_map (fun p => match take_kw kw p with Some v => [(p_name p, One v)] | None => [] end) ps) (p_name p) = option_map One (take_kw kw p).
Proof.
  induction ps as [|q ps IH]; cbn; [tauto|]. intros ND H. inversion ND as [|? ? N1 N2]; subst. rewrite dget_app. destruct H as [->|H].
  - destruct (take_kw kw p) as [v|]; cbn; [now rewrite String.eqb_refl|]. apply dget_None. intros Hi. apply in_map_iff in Hi as [[a b] [E Hi]]. cbn in E. subst a. apply in_flat_map in Hi as [q [Hq Hi]]. destruct (take_kw kw q); [|destruct Hi]. destruct Hi as [Hi|[]]. injection Hi as E _. apply N1. rewrite <- E. now apply in_map.
  - assert (p_name p <> p_name q) by (intros E; apply N1; rewrite <- E; now apply in_map). destruct (take_kw kw q) as [v|]; cbn; [|auto]. destruct (String.eqb_spec (p_name p) (p_name q)); [contradiction|auto].
Qed.
Lemma dget_flat_out kw ps n : ~ In n (map p_name ps) -> dget (flat_map (fun p => match take_kw kw p with Some v => [(p_name p, One v)] | None => [] end) ps) n = None.
Proof. intros H. apply dget_None. intros Hi. apply in_map_iff in Hi as [[a b] [E Hi]]. cbn in E. subst a. apply in_flat_map in Hi as [q [Hq Hi]]. destruct (take_kw kw q); [|destruct Hi]. destruct Hi as [Hi|[]]. injection Hi as E _. apply H. rewrite <- E. now apply in_map. Qed.

(** * The end of binding: [done] are bound by position, [ps] are not. *)
Definition final (x : res (dict pv * dict V * option string)) : res (dict pv) :=
  rbind x (fun y => let '(acc1, extra, kwp) := y in match extra with [] => Ok acc1 | _ => match kwp with Some n => Ok (dset acc1 n (Dct extra)) | None => Exn TypeError end end).
Lemma bind_final ps args kw : bind ps args kw = final (finish_pos (bind_pos ps args kw []) kw).
Proof. unfold bind, final, finish_pos. destruct (bind_pos ps args kw []) as [[a r]|e]; cbn; auto. Qed.
Definition good_end ps0 args kw (r : res (dict pv)) : Prop :=
  (accepted_call ps0 args kw /\ exists d, r = Ok d /\ call_dict ps0 args kw (apply_defaults ps0 d)) \/ (~ accepted_call ps0 args kw /\ r = Exn TypeError).
Lemma last_stage ps0 done ps args kw acc : ps0 = done ++ ps -> NoDup (map p_name ps0) -> proper_kw ps0 kw ->
  Forall (fun p => p_default p = None) (filter starred ps0) ->
  (forall p q, In p ps0 -> In q ps0 -> p_kind p = VarKw -> p_kind q = VarKw -> p_name p = p_name q) ->
  dkeys acc = map p_name done -> (forall p, In p done -> p_kind p <> VarKw) -> (forall p, In p done -> dget acc (p_name p) = denotes ps0 args kw p) ->
  (forall p, In p done -> p_kind p = PosKw \/ p_kind p = KwOnly -> ~ In (p_name p) (dkeys kw)) ->
  (forall p, In p ps -> positional p = true -> List.length args <= place (p_name p) (positions ps0)) ->
  (forall p, In p ps -> p_kind p = VarPos -> skipn (List.length (positions ps0)) args = []) ->
  (List.length args <= List.length (positions ps0) \/ existsb (is_kind VarPos) ps0 = true) ->
  good_end ps0 args kw (final (bind_kw ps kw acc None)).
Proof.
  intros E ND [NK PO] DF UQ KA NVK DA NKW PL VP CNT.
  assert (ND2 : NoDup (map p_name ps)) by (subst ps0; rewrite map_app in ND; clear - ND; induction (map p_name done) as [|x l IH]; auto; cbn in ND; inversion ND; auto).
  assert (DJ : forall p q, In p done -> In q ps -> p_name p <> p_name q).
  { subst ps0. rewrite map_app in ND. intros p q Hp Hq Eq. clear - ND Hp Hq Eq. induction done as [|x l IH]; cbn in *; [tauto|]. inversion ND; subst. destruct Hp as [->|Hp]; auto. apply H1. apply in_or_app. right. rewrite Eq. now apply in_map. }
  assert (NA : forall p, In p ps -> ~ In (p_name p) (dkeys acc)) by (intros p Hp Hi; rewrite KA in Hi; apply in_map_iff in Hi as [q [Eq Hq]]; exact (DJ q p Hq Hp Eq)).
  assert (PO2 : forall p, In p ps -> p_kind p = PosOnly -> ~ In (p_name p) (dkeys kw)) by (intros; apply PO; auto; subst ps0; apply in_or_app; auto).
  (* what the parameters that are not bound by position mean *)
  assert (DN : forall p, In p ps -> starred p = false -> denotes ps0 args kw p = option_map One (or_else (take_kw kw p) (p_default p))).
  { intros p Hp St. unfold denotes, take_kw. unfold starred in St. pose proof (PL p Hp) as P1. unfold positional in P1. destruct (p_kind p) eqn:K; try discriminate; auto.
    - rewrite (proj2 (nth_error_None args _)) by auto. cbn [or_else]. rewrite (proj2 (dget_None kw (p_name p))) by (apply PO2; auto). reflexivity.
    - rewrite (proj2 (nth_error_None args _)) by auto. reflexivity. }
  assert (MS : forall p, In p ps -> missing kw p = true -> denotes ps0 args kw p = None).
  { intros p Hp M. unfold missing in M. apply andb_true_iff in M as [M M3]. apply andb_true_iff in M as [M1 M2]. apply negb_true_iff in M1. rewrite (DN p Hp M1). unfold dmem in M2. unfold take_kw, has_default in *. destruct (dget kw (p_name p)); [discriminate|]. destruct (p_default p); [discriminate|]. destruct (p_kind p); reflexivity. }
  assert (C2 : forall p, In p ps0 -> p_kind p = PosKw -> place (p_name p) (positions ps0) < List.length args -> ~ In (p_name p) (dkeys kw)).
  { intros p Hp K L. subst ps0. apply in_app_or in Hp as [Hp|Hp]; [apply NKW; auto|]. exfalso. assert (positional p = true) by (unfold positional; now rewrite K). specialize (PL p Hp H). lia. }
  destruct (bind_kw_spec ps kw acc None ND2 NK PO2 NA) as [[A1 A2]|[A1 A2]].
  - right. rewrite A2. split; [|reflexivity]. intros [_ [_ [X _]]]. apply existsb_exists in A1 as [p [Hp M]]. apply (X p); [subst ps0; apply in_or_app; auto|]. auto.
  - rewrite A2. set (ext := flat_map _ ps) in *.
    assert (RK : rest_kw ps kw = rest_kw ps0 kw).
    { unfold rest_kw. apply filter_ext_in. intros [a v] Hin. f_equal. subst ps0. rewrite existsb_app. assert (X : existsb (fun q => by_keyword q && String.eqb (fst (a, v)) (p_name q)) done = false); [|now rewrite X].
      apply existsb_false. intros q Hq. cbn [fst]. destruct (by_keyword q) eqn:B; auto. destruct (String.eqb_spec a (p_name q)) as [->|]; auto. exfalso. apply (NKW q Hq); [unfold by_keyword in B; destruct (p_kind q); auto; discriminate|]. apply in_map_iff. exists (p_name q, v). auto. }
    assert (KWP : (existsb (is_kind VarKw) ps0 = false /\ kwp_of ps None = None) \/ (exists p, In p ps /\ p_kind p = VarKw /\ kwp_of ps None = Some (p_name p))).
    { destruct (existsb (is_kind VarKw) ps) eqn:X; [right; now apply kwp_some|left]. split; [|now apply kwp_none]. subst ps0. rewrite existsb_app, X, orb_false_r. apply existsb_false. intros q Hq. specialize (NVK q Hq). unfold is_kind. destruct (p_kind q); auto. congruence. }
    (* the values before the ** parameter is set *)
    assert (DV : forall p, In p ps0 -> p_kind p <> VarKw -> fin (acc ++ ext) p = denotes ps0 args kw p).
    { intros p Hp K. unfold fin. rewrite dget_app. assert (SD : starred p = true -> p_default p = None) by (intros St; rewrite Forall_forall in DF; apply DF; apply filter_In; auto).
      rewrite E in Hp. apply in_app_or in Hp as [Hp|Hp].
      - rewrite (DA p Hp). destruct (denotes ps0 args kw p) as [v|] eqn:D; auto. exfalso.
        assert (In (p_name p) (dkeys acc)) by (rewrite KA; now apply in_map). apply dget_Some_key in H as [v Hv]. rewrite (DA p Hp) in Hv. congruence.
      - rewrite (proj2 (dget_None acc (p_name p))) by auto. unfold ext. rewrite (dget_flat kw ps p ND2 Hp). destruct (starred p) eqn:St.
        + rewrite (SD eq_refl). unfold take_kw, denotes. unfold starred in St. destruct (p_kind p) eqn:K2; try discriminate; try congruence. cbn. now rewrite (VP p Hp K2).
        + rewrite (DN p Hp St). destruct (take_kw kw p); cbn; auto. destruct (p_default p); cbn; auto. unfold starred in St. destruct (p_kind p); auto; discriminate. }
    assert (KX : forall n, In n (dkeys ext) -> exists p, In p ps /\ starred p = false /\ p_name p = n).
    { intros n Hn. apply in_map_iff in Hn as [[a b] [Eq Hi]]. cbn in Eq. subst a. apply in_flat_map in Hi as [q [Hq Hi]]. destruct (take_kw kw q) eqn:T; [|destruct Hi]. destruct Hi as [Hi|[]]. injection Hi as Eq _. exists q. split; auto. split; auto. unfold take_kw in T. unfold starred. destruct (p_kind q); auto; discriminate. }
    assert (ALL : forall p, In p ps0 -> denotes ps0 args kw p <> None).
    { intros p Hp. rewrite E in Hp. apply in_app_or in Hp as [Hp|Hp].
      - rewrite <- (DA p Hp). intros X. apply dget_None in X. apply X. rewrite KA. now apply in_map.
      - destruct (starred p) eqn:St; [unfold starred in St; unfold denotes; destruct (p_kind p); discriminate|]. rewrite (DN p Hp St). apply existsb_false with (x := p) in A1; auto. unfold missing in A1. rewrite St in A1. cbn [negb andb] in A1.
        unfold take_kw, dmem, has_default in *. destruct (dget kw (p_name p)) eqn:G; cbn in A1.
        + unfold starred in St. destruct (p_kind p); cbn; discriminate.
        + destruct (p_default p); [|discriminate]. destruct (p_kind p); cbn; discriminate. }
    assert (CD : forall d, (forall p, In p ps0 -> fin d p = denotes ps0 args kw p) -> call_dict ps0 args kw (apply_defaults ps0 d)).
    { intros d Hd. unfold call_dict. pose proof (apply_fin d ps0 (fun p Hp X => ALL p Hp (eq_trans (eq_sym (Hd p Hp)) X))) as F. clear - F Hd.
      assert (G : forall l l2, (forall p, In p l -> fin d p = denotes ps0 args kw p) -> Forall2 (fun p x => fst x = p_name p /\ fin d p = Some (snd x)) l l2 -> Forall2 (fun p x => fst x = p_name p /\ denotes ps0 args kw p = Some (snd x)) l l2); [|exact (G _ _ Hd F)].
      clear. intros l. induction l as [|p l IH]; intros l2 Hd F; inversion F as [|? ? ? ? [F1 F2] F3]; subst; constructor; [|apply IH; auto; intros; apply Hd; now right]. split; auto. rewrite <- Hd; auto. now left. }
    assert (LEFT : forall k, In k (dkeys (rest_kw ps0 kw)) -> In k (dkeys kw) /\ ~ exists p, In p ps0 /\ by_keyword p = true /\ p_name p = k).
    { intros k Hk. apply in_map_iff in Hk as [[a b] [Eq Hi]]. cbn in Eq. subst a. apply filter_In in Hi as [Hi X]. split; [apply in_map_iff; exists (k, b); auto|]. intros [p [P1 [P2 P3]]]. apply negb_true_iff in X. apply existsb_false with (x := p) in X; auto. cbn in X. rewrite P2, P3, String.eqb_refl in X. discriminate. }
    assert (RIGHT : rest_kw ps0 kw = [] -> forall k, In k (dkeys kw) -> exists p, In p ps0 /\ by_keyword p = true /\ p_name p = k).
    { intros R k Hk. apply in_map_iff in Hk as [[a b] [Eq Hi]]. cbn in Eq. subst a. destruct (existsb (fun q => by_keyword q && String.eqb k (p_name q)) ps0) eqn:X.
      - apply existsb_exists in X as [q [Hq X]]. apply andb_true_iff in X as [X1 X2]. apply String.eqb_eq in X2. exists q. auto.
      - exfalso. assert (In (k, b) (rest_kw ps0 kw)) by (apply filter_In; split; auto; cbn [fst]; now rewrite X). rewrite R in H. destruct H. }
    assert (VKN : forall p, In p ps -> p_kind p = VarKw -> ~ In (p_name p) (dkeys (acc ++ ext))).
    { intros p Hp K Hi. unfold dkeys in Hi. rewrite map_app in Hi. apply in_app_or in Hi as [Hi|Hi]; [exact (NA p Hp Hi)|]. destruct (KX _ Hi) as [q [Q1 [Q2 Q3]]]. assert (q = p); [|subst; unfold starred in Q2; rewrite K in Q2; discriminate].
      clear - ND2 Hp Q1 Q3. induction ps as [|x l IH]; cbn in *; [tauto|]. inversion ND2; subst. destruct Hp as [->|Hp], Q1 as [->|Q1]; auto; exfalso; apply H1; [rewrite <- Q3|rewrite Q3]; now apply in_map. }
    unfold final. cbn [rbind]. rewrite RK. destruct (rest_kw ps0 kw) as [|x0 ex] eqn:R.
    + left. split; [repeat split; auto; intros k Hk; left; eapply RIGHT; eauto|]. exists (acc ++ ext). split; auto. apply CD. intros p Hp. destruct (is_kind VarKw p) eqn:K.
      * assert (K' : p_kind p = VarKw) by (unfold is_kind in K; destruct (p_kind p); auto; discriminate). assert (Hp' : In p ps) by (rewrite E in Hp; apply in_app_or in Hp as [Hp|Hp]; auto; exfalso; exact (NVK p Hp K')).
        unfold fin. rewrite (proj2 (dget_None _ _) (VKN p Hp' K')). rewrite Forall_forall in DF. rewrite (DF p) by (apply filter_In; split; auto; unfold starred; now rewrite K'). rewrite K'. unfold denotes. rewrite K'. fold (rest_kw ps0 kw). rewrite R. reflexivity.
      * apply DV; auto. unfold is_kind in K. destruct (p_kind p); congruence.
    + destruct KWP as [[K1 K2]|[p [P1 [P2 P3]]]].
      * right. rewrite K2. split; auto. intros [_ [_ [_ X]]]. destruct (LEFT (fst x0)) as [L1 L2]; [now left|]. destruct (X _ L1) as [Y|Y]; [contradiction|congruence].
      * left. split; [repeat split; auto; intros k Hk; right; apply existsb_exists; exists p; split; [rewrite E; apply in_or_app; auto|unfold is_kind; now rewrite P2]|]. rewrite P3. eexists. split; [reflexivity|]. apply CD. intros q Hq. destruct (is_kind VarKw q) eqn:K.
        -- assert (K' : p_kind q = VarKw) by (unfold is_kind in K; destruct (p_kind q); auto; discriminate). assert (EQ : p_name q = p_name p) by (apply UQ; auto; rewrite E; apply in_or_app; auto). unfold fin. rewrite EQ, dget_set_same. unfold denotes. rewrite K'. fold (rest_kw ps0 kw). rewrite R. reflexivity.
        -- assert (K' : p_kind q <> VarKw) by (unfold is_kind in K; destruct (p_kind q); congruence). rewrite <- (DV q Hq K'). unfold fin. rewrite dget_set_other; auto. intros EQ. assert (q = p); [|subst; contradiction].
           assert (Hp0 : In p ps0) by (rewrite E; apply in_or_app; auto). clear - ND Hp0 Hq EQ. induction ps0 as [|x l IH]; cbn in *; [tauto|]. inversion ND; subst. destruct Hp0 as [->|Hp], Hq as [->|Q1]; auto; exfalso; apply H1; [rewrite <- EQ|rewrite EQ]; now apply in_map.
Qed.

(** * The order of the kinds *)
Definition rank (k : pkind) : nat := match k with PosOnly => 0 | PosKw => 1 | VarPos => 2 | KwOnly => 3 | VarKw => 4 end.
Definition before (p q : param) : Prop := rank (p_kind p) <= rank (p_kind q) /\ ~ (p_kind p = VarPos /\ p_kind q = VarPos) /\ ~ (p_kind p = VarKw /\ p_kind q = VarKw).
Fixpoint ss ps : Prop := match ps with [] => True | p :: t => Forall (before p) t /\ ss t end.
Lemma ss_app l1 l2 : ss l1 -> ss l2 -> (forall p q, In p l1 -> In q l2 -> before p q) -> ss (l1 ++ l2).
Proof. induction l1 as [|p l IH]; cbn; auto. intros [A B] C D. split; [|apply IH; auto; intros; apply D; auto]. apply Forall_app. split; auto. apply Forall_forall. intros. apply D; auto. Qed.
Lemma ss_kind k ps : Forall (fun p => p_kind p = k) ps -> ((k = VarPos \/ k = VarKw) -> List.length ps <= 1) -> ss ps.
Proof.
  intros F. induction ps as [|p ps IH]; cbn; auto. intros L. inversion F as [|? ? E F']; subst. split; [|apply IH; auto; intros X; specialize (L X); lia]. apply Forall_forall. intros q Hq. rewrite Forall_forall in F'. specialize (F' q Hq). unfold before. rewrite F'. split; auto.
  assert (X : p_kind p = VarPos \/ p_kind p = VarKw -> False) by (intros Y; specialize (L Y); destruct ps; [destruct Hq|cbn in L; lia]). split; intros [Y _]; apply X; auto.
Qed.
Lemma proper_ss ps : proper ps -> ss ps.
Proof.
  intros [po [pk [vp [ko [vk [-> [F1 [F2 [F3 [F4 [F5 [L1 [L2 _]]]]]]]]]]]]]. rewrite Forall_forall in F1, F2, F3, F4, F5.
  assert (B : forall p q, rank (p_kind p) < rank (p_kind q) -> before p q) by (intros p q H; unfold before; split; [lia|]; split; intros [E1 E2]; rewrite E1, E2 in H; lia).
  repeat apply ss_app.
  all: try (eapply ss_kind; [apply Forall_forall; first [exact F1|exact F2|exact F3|exact F4|exact F5]|intros [E|E]; congruence || assumption]).
  all: intros p q Hp Hq; apply B; repeat (apply in_app_or in Hq as [Hq|Hq]).
  all: repeat match goal with F : forall x, In x ?l -> p_kind x = _, H : In _ ?l |- _ => apply F in H end; rewrite Hp, Hq; cbn; lia.
Qed.
Lemma ss_split l1 p l2 q : ss (l1 ++ p :: l2) -> In q l2 -> before p q.
Proof. induction l1 as [|x l IH]; cbn; [intros [A _] H; rewrite Forall_forall in A; auto|intros [_ A] H; auto]. Qed.
Lemma proper_facts ps : proper ps -> NoDup (map p_name ps) /\ Forall (fun p => p_default p = None) (filter starred ps) /\ (forall p q, In p ps -> In q ps -> p_kind p = VarKw -> p_kind q = VarKw -> p_name p = p_name q).
Proof.
  intros H. pose proof H as [po [pk [vp [ko [vk [E [F1 [F2 [F3 [F4 [F5 [L1 [L2 [DF ND]]]]]]]]]]]]]]. rewrite Forall_forall in F1, F2, F3, F4, F5, DF. split; auto.
  assert (WH : forall p, In p ps -> starred p = true -> In p (vp ++ vk)).
  { intros p Hp St. subst ps. unfold starred in St. repeat (apply in_app_or in Hp as [Hp|Hp]); apply in_or_app; auto; repeat match goal with F : forall x, In x ?l -> p_kind x = _, H : In _ ?l |- _ => apply F in H end; rewrite Hp in St; discriminate. }
  split; [apply Forall_forall; intros p Hp; apply filter_In in Hp as [Hp St]; auto|]. intros p q Hp Hq Kp Kq.
  assert (X : forall x, In x ps -> p_kind x = VarKw -> In x vk).
  { intros x Hx Kx. assert (St : starred x = true) by (unfold starred; now rewrite Kx). apply (WH x Hx) in St. apply in_app_or in St as [St|St]; auto. apply F3 in St. congruence. }
  apply X in Hp; auto. apply X in Hq; auto. destruct vk as [|a [|b vk]]; cbn in *; try lia. destruct Hp as [->|[]], Hq as [->|[]]; auto.
Qed.

Lemma positions_app (l1 l2 : list param) : positions (l1 ++ l2) = positions l1 ++ positions l2.
Proof. unfold positions. now rewrite filter_app, map_app. Qed.
Lemma positions_all (l : list param) : Forall (fun p => positional p = true) l -> positions l = map p_name l.
Proof. unfold positions. induction 1 as [|p l H F IH]; cbn; auto. rewrite H. cbn. congruence. Qed.
Lemma positions_none (l : list param) : (forall p, In p l -> positional p = false) -> positions l = [].
Proof. unfold positions. induction l as [|p l IH]; cbn; auto. intros H. rewrite (H p (or_introl eq_refl)). apply IH. intros; apply H; auto. Qed.
Lemma dget_combine (names : list string) (vs : list V) : NoDup names -> List.length names = List.length vs -> forall n, In n names -> dget (combine names (map One vs) : dict pv) n = option_map One (nth_error vs (place n names)).
Proof.
  revert vs. induction names as [|x l IH]; intros vs ND L n Hn; [destruct Hn|]. destruct vs as [|v vs]; [discriminate|]. cbn in *. inversion ND; subst. destruct (String.eqb_spec n x) as [->|]; auto. cbn. apply IH; auto. destruct Hn; congruence.
Qed.
Lemma keys_combine (names : list string) (vs : list V) : List.length names = List.length vs -> dkeys (combine names (map One vs) : dict pv) = names.
Proof. revert vs. induction names as [|x l IH]; intros [|v vs] L; cbn in *; try discriminate; auto. f_equal. apply IH. lia. Qed.
Lemma combine_snoc (names : list string) (vs : list V) n v : List.length names = List.length vs -> combine (names ++ [n]) (map One (vs ++ [v]) : list pv) = combine names (map One vs) ++ [(n, One v)].
Proof. revert vs. induction names as [|x l IH]; intros [|w vs] L; cbn in *; try discriminate; auto. f_equal. apply IH. lia. Qed.

Lemma first_stage ps0 args0 kw : proper ps0 -> proper_kw ps0 kw -> forall args ps done as1, ps0 = done ++ ps -> args0 = as1 ++ args -> List.length done = List.length as1 -> Forall (fun p => positional p = true) done ->
  (forall p, In p done -> p_kind p = PosKw -> ~ In (p_name p) (dkeys kw)) ->
  good_end ps0 args0 kw (final (finish_pos (bind_pos ps args kw (combine (map p_name done) (map One as1))) kw)).
Proof.
  intros PR PK. destruct (proper_facts ps0 PR) as [ND [DF UQ]]. pose proof (proper_ss ps0 PR) as SS.
  induction args as [|v args IH]; intros ps done as1 E EA L PD NK.
  - rewrite bind_pos_nil. rewrite app_nil_r in EA. subst as1.
    assert (NDD : NoDup (map p_name done)) by (subst ps0; rewrite map_app in ND; clear - ND; induction (map p_name done) as [|x l IH]; [constructor|]; cbn in ND; inversion ND; constructor; auto; intros Hx; apply H1; apply in_or_app; auto).
    assert (PE : positions ps0 = map p_name done ++ positions ps) by (subst ps0; rewrite positions_app, (positions_all done PD); reflexivity).
    eapply last_stage with (done := done); eauto.
    + rewrite keys_combine; auto. now rewrite map_length.
    + intros p Hp. rewrite Forall_forall in PD. specialize (PD p Hp). unfold positional in PD. destruct (p_kind p); congruence.
    + intros p Hp. rewrite dget_combine; auto; [|now rewrite map_length|now apply in_map]. assert (Hn : In (p_name p) (map p_name done)) by now apply in_map. pose proof (place_lt _ _ Hn) as PL. rewrite map_length in PL.
      unfold denotes. rewrite PE, (place_left _ _ _ Hn). rewrite Forall_forall in PD. specialize (PD p Hp). unfold positional in PD. destruct (nth_error args0 (place (p_name p) (map p_name done))) eqn:N; [|apply nth_error_None in N; lia]. destruct (p_kind p); try discriminate; reflexivity.
    + intros p Hp [K|K]; [auto|]. rewrite Forall_forall in PD. specialize (PD p Hp). unfold positional in PD. rewrite K in PD. discriminate.
    + intros p Hp Pp. rewrite PE, place_right; [rewrite map_length; lia|]. intros Hi. apply in_map_iff in Hi as [q [Eq Hq]]. subst ps0. rewrite map_app in ND. clear - ND Hp Hq Eq. induction done as [|x l IH]; cbn in *; [tauto|]. inversion ND; subst. destruct Hq as [->|Hq]; auto. apply H1. apply in_or_app. right. rewrite Eq. now apply in_map.
    + intros p Hp K. apply skipn_all2. rewrite PE, app_length, map_length. lia.
    + left. rewrite PE, app_length, map_length. lia.
  - destruct ps as [|p ps].
    + right. split; [|reflexivity]. intros [[X|X] _].
      * subst ps0 args0. rewrite app_nil_r, (positions_all done PD), map_length, app_length in X. cbn in X. lia.
      * apply existsb_exists in X as [q [Hq X]]. subst ps0. rewrite app_nil_r in Hq. rewrite Forall_forall in PD. specialize (PD q Hq). unfold positional in PD. unfold is_kind in X. destruct (p_kind q); discriminate.
    + cbn [bind_pos]. assert (PE : forall l, map p_name (done ++ l) = map p_name done ++ map p_name l) by (intros; apply map_app).
      assert (NOT : In p ps0) by (subst ps0; apply in_or_app; right; now left).
      assert (AFT : forall q, In q ps -> before p q) by (intros q Hq; subst ps0; eapply ss_split; eauto).
      assert (TOO : rank (p_kind p) > 2 -> ~ accepted_call ps0 args0 kw).
      { intros R [[X|X] _].
        - subst ps0 args0. rewrite positions_app, (positions_all done PD) in X. rewrite (positions_none (p :: ps)) in X; [rewrite app_nil_r, map_length, app_length in X; cbn in X; lia|].
          intros q [->|Hq]; [|specialize (AFT q Hq) as [B _]]; unfold positional; [destruct (p_kind q)|destruct (p_kind q)]; cbn in *; auto; lia.
        - apply existsb_exists in X as [q [Hq X]]. subst ps0. apply in_app_or in Hq as [Hq|[->|Hq]].
          + rewrite Forall_forall in PD. specialize (PD q Hq). unfold positional in PD. unfold is_kind in X. destruct (p_kind q); discriminate.
          + unfold is_kind in X. destruct (p_kind q); cbn in R; try lia; discriminate.
          + destruct (AFT q Hq) as [B _]. unfold is_kind in X. destruct (p_kind q); try discriminate. cbn in B. lia. }
      assert (NEXT : positional p = true -> (p_kind p = PosKw -> ~ In (p_name p) (dkeys kw)) ->
        good_end ps0 args0 kw (final (finish_pos (bind_pos ps args kw (dset (combine (map p_name done) (map One as1)) (p_name p) (One v))) kw))).
      { intros P1 P2. rewrite dset_notin.
        - specialize (IH ps (done ++ [p]) (as1 ++ [v])). rewrite map_app in IH. cbn [map] in IH. rewrite combine_snoc in IH by (now rewrite map_length). apply IH.
          + subst ps0. now rewrite <- app_assoc.
          + subst args0. now rewrite <- app_assoc.
          + rewrite !app_length. cbn. lia.
          + apply Forall_app. auto.
          + intros q Hq. apply in_app_or in Hq as [Hq|[->|[]]]; auto.
        - rewrite keys_combine by (now rewrite map_length). intros Hi. subst ps0. rewrite map_app in ND. cbn in ND. apply NoDup_remove_2 in ND. apply ND. apply in_or_app. auto. }
      destruct (p_kind p) eqn:K.
      * apply NEXT; [unfold positional; now rewrite K|discriminate].
      * destruct (dmem kw (p_name p)) eqn:M.
        -- right. split; [|reflexivity]. intros [_ [X _]]. apply (X p NOT K); [|now apply dmem_true].
           subst ps0 args0. rewrite positions_app, (positions_all done PD), place_right.
           ++ unfold positions. cbn [filter]. unfold positional at 1. rewrite K. cbn [map place]. rewrite String.eqb_refl, map_length, app_length. cbn. lia.
           ++ intros Hi. rewrite map_app in ND. cbn in ND. apply NoDup_remove_2 in ND. apply ND. apply in_or_app. auto.
        -- apply NEXT; [unfold positional; now rewrite K|]. intros _. now apply dmem_false.
      * unfold finish_pos. cbn [rbind].
        assert (NP : forall q, In q (p :: ps) -> positional q = false) by (intros q [->|Hq]; [unfold positional; now rewrite K|destruct (AFT q Hq) as [B _]; unfold positional; rewrite K in B; destruct (p_kind q); cbn in *; auto; lia]).
        assert (PE2 : positions ps0 = map p_name done) by (subst ps0; rewrite positions_app, (positions_all done PD), (positions_none (p :: ps) NP); apply app_nil_r).
        assert (NDD : NoDup (map p_name done)) by (rewrite E, map_app in ND; clear - ND; induction (map p_name done) as [|x l IHl]; [constructor|]; cbn in ND; inversion ND; constructor; auto; intros Hx; apply H1; apply in_or_app; auto).
        assert (NI : ~ In (p_name p) (map p_name done)) by (intros Hi; rewrite E, map_app in ND; cbn in ND; apply NoDup_remove_2 in ND; apply ND; apply in_or_app; auto).
        assert (KC : dkeys (combine (map p_name done) (map One as1) : dict pv) = map p_name done) by (apply keys_combine; now rewrite map_length).
        eapply last_stage with (done := done ++ [p]); eauto.
        -- subst ps0. now rewrite <- app_assoc.
        -- rewrite dset_keys_notin by (now rewrite KC). rewrite KC, map_app. reflexivity.
        -- intros q Hq. apply in_app_or in Hq as [Hq|[->|[]]]; [|congruence]. rewrite Forall_forall in PD. specialize (PD q Hq). unfold positional in PD. destruct (p_kind q); congruence.
        -- intros q Hq. apply in_app_or in Hq as [Hq|[->|[]]].
           ++ assert (Hn : In (p_name q) (map p_name done)) by now apply in_map. rewrite dget_set_other by (intros Eq; apply NI; now rewrite <- Eq). rewrite dget_combine; auto; [|now rewrite map_length]. pose proof (place_lt _ _ Hn) as PL. rewrite map_length in PL.
              unfold denotes. rewrite PE2, EA, nth_error_app1 by lia. rewrite Forall_forall in PD. specialize (PD q Hq). unfold positional in PD. destruct (nth_error as1 (place (p_name q) (map p_name done))) eqn:N; [|apply nth_error_None in N; lia]. destruct (p_kind q); try discriminate; reflexivity.
           ++ rewrite dget_set_same. unfold denotes. rewrite K, PE2, map_length, EA, skipn_app, L, skipn_all, Nat.sub_diag. reflexivity.
        -- intros q Hq [Kq|Kq]; apply in_app_or in Hq as [Hq|[->|[]]]; auto; try congruence. rewrite Forall_forall in PD. specialize (PD q Hq). unfold positional in PD. rewrite Kq in PD. discriminate.
        -- intros q Hq Pq. rewrite (NP q (or_intror Hq)) in Pq. discriminate.
        -- intros q Hq Kq. destruct (AFT q Hq) as [_ [B _]]. exfalso. apply B. auto.
        -- right. apply existsb_exists. exists p. split; auto. unfold is_kind. now rewrite K.
      * right. split; [apply TOO; cbn; lia|reflexivity].
      * right. split; [apply TOO; cbn; lia|reflexivity].
Qed.
Theorem bind_call ps args kw : proper ps -> proper_kw ps kw -> good_end ps args kw (bind ps args kw).
Proof. intros PR PK. rewrite bind_final. apply (first_stage ps args kw PR PK args ps [] []); auto. Qed.
End Bind.
