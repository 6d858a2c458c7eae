(** Lemmas about agents: dir(), attribute lookup, the dictionaries of drivers and monitors, paths. *)
From Coq Require Import List String Bool Arith Sorted Lia NArith.
From Verif Require Import Py Agent_Model Agent_Spec.
Import ListNotations.
Open Scope list_scope.

(** * Strings in order *)
Definition slt (a b : string) : Prop := String.compare a b = Lt.
Lemma cmp_refl a : String.compare a a = Eq.
Proof. induction a as [|c a IH]; auto. cbn [String.compare]. unfold Ascii.compare. rewrite N.compare_refl. exact IH. Qed.
Lemma slt_irr a : ~ slt a a. Proof. unfold slt. rewrite cmp_refl. discriminate. Qed.
Lemma slt_trans a : forall b c, slt a b -> slt b c -> slt a c.
Proof.
  unfold slt. induction a as [|x a IH]; intros [|y b] [|z c] H1 H2; simpl in *; try discriminate; auto. unfold Ascii.compare in *.
  destruct (N.compare_spec (Ascii.N_of_ascii x) (Ascii.N_of_ascii y)) as [E1|E1|E1], (N.compare_spec (Ascii.N_of_ascii y) (Ascii.N_of_ascii z)) as [E2|E2|E2]; try discriminate.
  - rewrite E1, E2, N.compare_refl. eapply IH; eauto.
  - rewrite E1. apply N.compare_lt_iff in E2. now rewrite E2.
  - rewrite <- E2. apply N.compare_lt_iff in E1. now rewrite E1.
  - assert (E : (Ascii.N_of_ascii x < Ascii.N_of_ascii z)%N) by (eapply N.lt_trans; eauto). apply N.compare_lt_iff in E. now rewrite E.
Qed.
Lemma in_insert x y l : In y (insert x l) <-> y = x \/ In y l.
Proof.
  induction l as [|z l IH]; simpl; [intuition|]. destruct (String.compare x z) eqn:E; simpl.
  - apply String.compare_eq_iff in E. subst. intuition.
  - intuition.
  - rewrite IH. intuition.
Qed.
Lemma insert_sorted x l : StronglySorted slt l -> StronglySorted slt (insert x l).
Proof.
  induction 1 as [|z l S IH F]; simpl; [repeat constructor|]. destruct (String.compare x z) eqn:E.
  - constructor; auto.
  - constructor; [constructor; auto|]. constructor; [exact E|]. rewrite Forall_forall in *. intros y Hy. eapply slt_trans; [exact E|]. now apply F.
  - constructor; auto. rewrite Forall_forall in *. intros y Hy. apply in_insert in Hy as [->|Hy]; auto. unfold slt. rewrite String.compare_antisym, E. reflexivity.
Qed.
Lemma names_sorted l : StronglySorted slt (sorted_names l).
Proof. induction l as [|x l IH]; simpl; [constructor|]. now apply insert_sorted. Qed.
Lemma in_names y l : In y (sorted_names l) <-> In y l.
Proof. induction l as [|x l IH]; simpl; [tauto|]. rewrite in_insert, IH. intuition. Qed.
Lemma sorted_map_flat {A} (f : string -> list (string * A)) l : (forall n p, In p (f n) -> fst p = n) -> (forall n, List.length (f n) <= 1) -> StronglySorted slt l -> StronglySorted (fun p q => slt (fst p) (fst q)) (flat_map f l).
Proof.
  intros H1 H2. induction 1 as [|z l S IH F]; simpl; [constructor|]. specialize (H2 z). destruct (f z) as [|p [|q r]] eqn:E; simpl in *; [exact IH| |lia]. constructor; auto.
  apply Forall_forall. intros q Hq. apply in_flat_map in Hq as [n [Hn Hq]]. rewrite (H1 n q Hq). rewrite (H1 z p) by (rewrite E; simpl; auto). rewrite Forall_forall in F. now apply F.
Qed.

(** * Attribute lookup *)
Lemma dget_in {V} (d : dict V) n v : NoDup (map fst d) -> (dget d n = Some v <-> In (n, v) d).
Proof.
  induction d as [|[k w] d IH]; simpl; intros ND; [split; [discriminate|tauto]|]. inversion ND as [|? ? N1 N2]; subst. destruct (String.eqb_spec n k) as [->|NE].
  - split; [intros [= ->]; auto|]. intros [[= ->]|H]; auto. exfalso. apply N1. apply in_map_iff. exists (k, v). auto.
  - rewrite IH by auto. split; [auto|]. intros [[= -> ->]|H]; [congruence|auto].
Qed.
Lemma dget_none {V} (d : dict V) n : dget d n = None <-> ~ In n (map fst d).
Proof. induction d as [|[k w] d IH]; simpl; [tauto|]. destruct (String.eqb_spec n k) as [->|NE]; [split; [discriminate|intros H; exfalso; auto]|]. rewrite IH. intuition congruence. Qed.
Lemma lookup_found l n v : (forall d, In d l -> NoDup (map fst d)) -> (lookup l n = Some v <-> found l n v).
Proof.
  induction l as [|d l IH]; simpl; intros P; [split; [discriminate|intros H; inversion H]|]. assert (Pd := P d (or_introl eq_refl)). destruct (dget d n) as [w|] eqn:E.
  - apply dget_in in E; auto. split; [intros [= ->]; now constructor|]. intros H. inversion H as [? ? ? ? H1|? ? ? ? H1]; subst.
    + apply dget_in in H1; auto. apply dget_in in E; auto. congruence.
    + exfalso. apply H1. apply in_map_iff. exists (n, w). auto.
  - rewrite IH by auto. apply dget_none in E. split; [now constructor|]. intros H. inversion H as [? ? ? ? H1|]; subst; auto. exfalso. apply E. apply in_map_iff. exists (n, v). auto.
Qed.
Lemma found_name l n v : found l n v -> In n (flat_map dkeys l).
Proof. induction 1 as [d t n v H|d t n v H F IH]; simpl; apply in_or_app; [left; apply in_map_iff; exists (n, v); auto|now right]. Qed.
Lemma found_in l n v : found l n v -> exists d, In d l /\ In (n, v) d.
Proof. induction 1 as [d t n v H|d t n v H F [d' [A B]]]; [exists d|exists d']; simpl; auto. Qed.

Section Vis.
Context (sel : value -> option func).
(** The visible attributes of one kind. *)
Definition vis (a : agent_) : list (string * func) := flat_map (fun n => match getattr a n with Some v => match sel v with Some f => [(n, f)] | None => [] end | None => [] end) (dir a).
Lemma vis_sorted a : StronglySorted (fun p q => slt (fst p) (fst q)) (vis a).
Proof.
  apply sorted_map_flat; [| |apply names_sorted]; intros n; destruct (getattr a n) as [v|]; simpl; try tauto; try lia; destruct (sel v); simpl; try tauto; try lia. intros p [<-|[]]. reflexivity.
Qed.
Lemma in_vis a n f : proper a -> In (n, f) (vis a) <-> exists v, found (spaces a) n v /\ sel v = Some f.
Proof.
  intros P. unfold vis. rewrite in_flat_map. split.
  - intros [n' [H1 H2]]. destruct (getattr a n') as [v|] eqn:E; [|destruct H2]. destruct (sel v) as [g|] eqn:E2; [|destruct H2]. destruct H2 as [[= -> ->]|[]]. exists v. split; auto. now apply lookup_found.
  - intros [v [H1 H2]]. exists n. split; [apply in_names; eapply found_name; eauto|]. apply (lookup_found _ _ _ P) in H1. unfold getattr. rewrite H1, H2. simpl. auto.
Qed.
End Vis.
Definition sel_drv (v : value) := match v with Drv f => Some f | _ => None end.
Definition sel_mon (v : value) := match v with Mon f => Some f | _ => None end.
Lemma drv_vis a : all_driver_method a = map snd (vis sel_drv a).
Proof. unfold all_driver_method, vis. induction (dir a) as [|n l IH]; auto. cbn [flat_map]. rewrite map_app, IH. f_equal. destruct (getattr a n) as [[]|]; reflexivity. Qed.
Lemma mon_vis a : all_monitor_method a = map snd (vis sel_mon a).
Proof. unfold all_monitor_method, vis. induction (dir a) as [|n l IH]; auto. cbn [flat_map]. rewrite map_app, IH. f_equal. destruct (getattr a n) as [[]|]; reflexivity. Qed.
Lemma in_drv a n f : proper a -> In (n, f) (vis sel_drv a) <-> drives a n f.
Proof. intros P. rewrite in_vis by auto. split; [intros [[] [H [= ->]]]; exact H|intros H; exists (Drv f); auto]. Qed.
Lemma in_mon a n f : proper a -> In (n, f) (vis sel_mon a) <-> watches a n f.
Proof. intros P. rewrite in_vis by auto. split; [intros [[] [H [= ->]]]; exact H|intros H; exists (Mon f); auto]. Qed.

(** * The dictionary by name: the last one counts *)
Lemma dget_dset {V} (d : dict V) k v n : dget (dset d k v) n = if String.eqb n k then Some v else dget d n.
Proof.
  induction d as [|[k' w] d IH]; simpl; [destruct (String.eqb_spec n k); auto|]. destruct (String.eqb_spec k k') as [->|NE]; simpl.
  - destruct (String.eqb_spec n k'); auto.
  - rewrite IH. destruct (String.eqb_spec n k') as [->|]; auto. destruct (String.eqb_spec k' k); congruence.
Qed.
Lemma by_name_last l k : (dget (by_name l) k = None /\ (forall w, In w l -> wname w <> k)) \/
  (exists l1 w l2, l = l1 ++ w :: l2 /\ wname w = k /\ (forall w', In w' l2 -> wname w' <> k) /\ dget (by_name l) k = Some w).
Proof.
  induction l as [|w l IH] using rev_ind; [left; split; [reflexivity|intros w []]|]. unfold by_name in *. rewrite fold_left_app. cbn [fold_left]. rewrite dget_dset. fold (wname w). destruct (String.eqb_spec k (wname w)) as [->|NE].
  - right. exists l, w, []. repeat split; auto; intros w' [].
  - destruct IH as [[E H]|[l1 [w1 [l2 [-> [H1 [H2 H3]]]]]]].
    + left. split; auto. intros w' Hw. apply in_app_iff in Hw as [Hw|[<-|[]]]; auto.
    + right. exists l1, w1, (l2 ++ [w]). rewrite <- app_assoc. repeat split; auto. intros w' Hw. apply in_app_iff in Hw as [Hw|[<-|[]]]; auto.
Qed.
Lemma workers_func l : map w_func (workers l) = l.
Proof.
  unfold workers. rewrite map_map. cbn [w_func]. enough (H : forall n, map (fun x : nat * func => snd x) (combine (seq n (List.length l)) l) = l) by apply H. induction l as [|f l IH]; intros n; simpl; auto. now rewrite IH.
Qed.
Lemma workers_no l : map w_no (workers l) = seq 0 (List.length l).
Proof.
  unfold workers. rewrite map_map. cbn [w_no]. enough (H : forall n, map (fun x : nat * func => fst x) (combine (seq n (List.length l)) l) = seq n (List.length l)) by apply H. induction l as [|f l IH]; intros n; simpl; auto. now rewrite IH.
Qed.
Lemma sorted_last {A} (R : A -> A -> Prop) l1 x l2 : StronglySorted R (l1 ++ x :: l2) -> forall y, In y l1 -> R y x.
Proof. induction l1 as [|z l1 IH]; simpl; intros S y; [tauto|]. inversion S as [|? ? S1 F]; subst. intros [->|H]; auto. rewrite Forall_forall in F. apply F, in_or_app. simpl. auto. Qed.
(** Asking the dictionary made from visible attributes for a name. *)
Lemma vis_last sel a k n f : In (n, f) (vis sel a) -> f_name f = k -> exists w n', dget (by_name (workers (map snd (vis sel a)))) k = Some w /\ In w (workers (map snd (vis sel a))) /\ f_name (w_func w) = k /\ In (n', w_func w) (vis sel a) /\
  forall m h, In (m, h) (vis sel a) -> f_name h = k -> m <> n' -> slt m n'.
Proof.
  intros Hn Hk. pose proof (vis_sorted sel a) as S. set (V := vis sel a) in *. pose proof (workers_func (map snd V)) as WF. destruct (by_name_last (workers (map snd V)) k) as [[_ H]|[l1 [w [l2 [E [H1 [H2 H3]]]]]]].
  - exfalso. assert (X : In f (map w_func (workers (map snd V)))) by (rewrite WF; apply in_map_iff; exists (n, f); auto). apply in_map_iff in X as [w [E X]]. apply (H w X). unfold wname. now rewrite E.
  - rewrite E, map_app in WF. cbn [map] in WF. symmetry in WF. apply map_eq_app in WF as [V1 [V2 [EV [E1 E2]]]]. destruct V2 as [|[n' g] V2]; [discriminate|]. cbn [map] in E2. injection E2 as Eg E2. cbn in Eg. exists w, n'. split; auto. split; [rewrite E; apply in_or_app; simpl; auto|]. split; auto.
    split; [rewrite EV, Eg; apply in_or_app; simpl; auto|]. intros m h Hm Hh NE. rewrite EV in Hm, S. apply in_app_iff in Hm as [Hm|[[= -> ->]|Hm]]; [|congruence|].
    + exact (sorted_last _ _ _ _ S (m, h) Hm).
    + exfalso. assert (X : In h (map w_func l2)) by (rewrite <- E2; apply in_map_iff; exists (m, h); auto). apply in_map_iff in X as [w2 [X1 X2]]. apply (H2 w2 X2). unfold wname. now rewrite X1.
Qed.

(** * Stores *)
Section Store.
Context {A : Type}.
Lemma put_all (x : string -> A) i b fs : forall (st : store A) i' b' k, fold_left (fun st f => put st i b (f_name f) (x (f_name f))) fs st i' b' k =
  if Nat.eqb i i' && Bool.eqb b b' && existsb (fun f => String.eqb (f_name f) k) fs then Some (x k) else st i' b' k.
Proof.
  induction fs as [|f fs IH]; intros st i' b' k; cbn [fold_left existsb]; [rewrite andb_false_r; reflexivity|]. rewrite IH. unfold put. destruct (Nat.eqb i i'), (Bool.eqb b b'); cbn [andb]; auto.
  destruct (String.eqb_spec (f_name f) k) as [->|NE]; cbn [orb]; auto. destruct (existsb _ fs); auto.
Qed.
Definition methods (e : env_) (i : nat) (b : bool) : list func := if b then all_monitor_method (v_agents e i) else all_driver_method (v_agents e i).
Lemma each_at (x : string -> string -> A) e : forall l st i b k, fold_left (fun st ni => let a := v_agents e (snd ni) in
      let st1 := fold_left (fun st f => put st (snd ni) false (f_name f) (x (fst ni) (f_name f))) (all_driver_method a) st in
      fold_left (fun st f => put st (snd ni) true (f_name f) (x (fst ni) (f_name f))) (all_monitor_method a) st1) l st i b k =
  match find (fun ni => Nat.eqb (snd ni) i && existsb (fun f => String.eqb (f_name f) k) (methods e i b)) (rev l) with Some ni => Some (x (fst ni) k) | None => st i b k end.
Proof.
  induction l as [|[n j] l IH] using rev_ind; intros st i b k; [reflexivity|]. rewrite fold_left_app, rev_unit. cbn [fold_left find fst snd]. cbv zeta. rewrite !put_all, IH. unfold methods.
  destruct (Nat.eqb_spec j i) as [->|NE]; cbn [andb]; auto. destruct b; cbn [Bool.eqb andb]; destruct (existsb _ _); auto.
Qed.
End Store.
Lemma find_last {A} (P : A -> bool) l x : find P (rev l) = Some x -> exists l1 l2, l = l1 ++ x :: l2 /\ P x = true /\ forall y, In y l2 -> P y = false.
Proof.
  induction l as [|y l IH] using rev_ind; [discriminate|]. rewrite rev_unit. cbn [find]. destruct (P y) eqn:E.
  - intros [= ->]. exists l, []. repeat split; auto; intros y [].
  - intros H. destruct (IH H) as [l1 [l2 [-> [H1 H2]]]]. exists l1, (l2 ++ [y]). rewrite <- app_assoc. repeat split; auto. intros z Hz. apply in_app_iff in Hz as [Hz|[<-|[]]]; auto.
Qed.
Lemma names_hold attrs ag n i : NoDup (map fst attrs) -> In (n, i) (agent_names (mk_env_ attrs ag)) <-> holds attrs n i.
Proof.
  intros ND. unfold agent_names, holds. cbn [v_attrs]. rewrite in_flat_map. split.
  - intros [n' [H1 H2]]. destruct (dget attrs n') as [[j|]|] eqn:E; try contradiction. destruct H2 as [[= -> ->]|[]]. now apply dget_in.
  - intros H. exists n. split; [apply in_names; apply in_map_iff; exists (n, Some i); auto|]. apply dget_in in H; auto. rewrite H. simpl. auto.
Qed.
Lemma names_order attrs ag : StronglySorted (fun p q => slt (fst p) (fst q)) (agent_names (mk_env_ attrs ag)).
Proof.
  unfold agent_names. cbn [v_attrs]. apply sorted_map_flat; [| |apply names_sorted]; intros n; destruct (dget attrs n) as [[j|]|]; simpl; try tauto; try lia. intros p [<-|[]]. reflexivity.
Qed.
Lemma each_last {A} (x : string -> string -> A) attrs ag st n i b k f : NoDup (map fst attrs) -> last_name (fun n => holds attrs n i) n -> In f (methods (mk_env_ attrs ag) i b) -> f_name f = k ->
  each_method x (mk_env_ attrs ag) st i b k = Some (x n k).
Proof.
  intros ND [H1 H2] Hf Hk. unfold each_method. rewrite each_at. assert (EX : existsb (fun f => String.eqb (f_name f) k) (methods (mk_env_ attrs ag) i b) = true) by (apply existsb_exists; exists f; split; auto; apply String.eqb_eq; auto). rewrite EX.
  destruct (find _ (rev (agent_names (mk_env_ attrs ag)))) as [[n' j]|] eqn:F.
  - apply find_last in F as [l1 [l2 [E [P1 P2]]]]. cbn [snd fst] in *. rewrite andb_true_r in P1. apply Nat.eqb_eq in P1. subst j. f_equal. f_equal. destruct (string_dec n' n) as [|NE]; auto. exfalso.
    assert (X1 : holds attrs n' i) by (apply (names_hold attrs ag); auto; rewrite E; apply in_or_app; simpl; auto). pose proof (H2 n' X1 NE) as L. apply (names_hold attrs ag) in H1; auto. rewrite E in H1. apply in_app_iff in H1 as [H1|[[= ->]|H1]]; [|congruence|].
    + pose proof (names_order attrs ag) as S. rewrite E in S. pose proof (sorted_last _ _ _ _ S _ H1) as L2. cbn in L2. apply (slt_irr n). eapply slt_trans; eauto.
    + specialize (P2 _ H1). cbn in P2. rewrite Nat.eqb_refl in P2. discriminate.
  - exfalso. apply (names_hold attrs ag) in H1; auto. apply in_rev in H1. eapply find_none in F; [|exact H1]. cbn in F. rewrite Nat.eqb_refl in F. discriminate.
Qed.
Lemma each_none {A} (x : string -> string -> A) attrs ag st i b k : NoDup (map fst attrs) -> (forall n, ~ holds attrs n i) -> each_method x (mk_env_ attrs ag) st i b k = st i b k.
Proof.
  intros ND H. unfold each_method. rewrite each_at. destruct (find _ _) as [[n j]|] eqn:F; auto. exfalso. apply find_last in F as [l1 [l2 [E [P1 P2]]]]. cbn in P1. apply andb_true_iff in P1 as [P1 _]. apply Nat.eqb_eq in P1. subst.
  apply (H n). apply (names_hold attrs ag); auto. rewrite E. apply in_or_app. simpl. auto.
Qed.
(** Creating an env: the attributes, and a configuration at the very end. *)
Definition attrs_of (l : list event) : dict (option nat) := fold_left (fun d ev => match ev with Assign n v => dset d n v | Config => d end) l [].
Lemma construct_attrs ag l : fst (construct ag l) = attrs_of l.
Proof.
  unfold construct, attrs_of. set (x := ([], fun _ _ _ => None) : dict (option nat) * store string). change [] with (fst x). generalize x. clear x. induction l as [|ev l IH]; intros x; cbn [fold_left]; auto. rewrite IH. destruct ev; reflexivity.
Qed.
Lemma dset_keys {V} (d : dict V) n v : NoDup (map fst d) -> NoDup (map fst (dset d n v)).
Proof.
  induction d as [|[k w] d IH]; simpl; intros ND; [repeat constructor; auto|]. inversion ND as [|? ? N1 N2]; subst. destruct (String.eqb_spec n k) as [->|NE]; simpl; [constructor; auto|]. constructor; auto. intros H. apply N1.
  assert (X : forall d : dict V, In k (map fst (dset d n v)) -> k = n \/ In k (map fst d)). { induction d0 as [|[k' w'] d0 IH0]; simpl; [intuition|]. destruct (String.eqb_spec n k'); simpl; intuition. }
  destruct (X d H) as [->|]; auto. congruence.
Qed.
Lemma attrs_nodup l : NoDup (map fst (attrs_of l)).
Proof.
  unfold attrs_of. enough (H : forall d, NoDup (map fst d) -> NoDup (map fst (fold_left (fun d ev => match ev with Assign n v => dset d n v | Config => d end) l d))) by (apply H; constructor).
  induction l as [|ev l IH]; intros d ND; cbn [fold_left]; auto. apply IH. destruct ev; auto. now apply dset_keys.
Qed.
