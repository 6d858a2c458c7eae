(** C81: which function a driver method runs.  C82: monitor tasks.  C83: paths of drivers and monitors. *)
From Coq Require Import List String Bool Arith Sorted Lia.
From Verif Require Import Py Agent_Model Agent_Spec Agent_Proofs.
Import ListNotations.
Open Scope string_scope.
Open Scope list_scope.

(** * C81 *)
(** Whatever the names: calling the driver method [f] runs the function, among the visible driver methods with the __name__ of [f], whose attribute comes last in dir(). *)
Theorem C81_which_runs a n f : proper a -> drives a n f -> exists n' g, call a n = Ok g /\ drives a n' g /\ f_name g = f_name f /\ last_name (fun m => exists h, drives a m h /\ f_name h = f_name f) n'.
Proof.
  intros P D. pose proof D as D0. apply (in_drv a n f P) in D. destruct (vis_last sel_drv a (f_name f) n f D eq_refl) as [w [n' [E1 [_ [E2 [E3 E4]]]]]]. exists n', (w_func w).
  split; [|split; [now apply in_drv|split; auto]].
  - unfold call, getattr. apply (lookup_found _ _ _ P) in D0. rewrite D0. cbn [run_value]. unfold drivers. rewrite drv_vis, E1. reflexivity.
  - split; [exists (w_func w); split; auto; now apply in_drv|]. intros m [h [H1 H2]] NE. apply (E4 m h); auto. now apply in_drv.
Qed.
(** Calling a driver method runs the function that Python's method resolution finds. *)
Theorem C81_runs_named a n f : proper a -> own_names a -> drives a n f -> call a n = Ok f.
Proof.
  intros P O D. destruct (C81_which_runs a n f P D) as [n' [g [C [G [E _]]]]]. rewrite C. f_equal. assert (N : forall m h, drives a m h -> f_name h = m) by (intros m h H; apply found_in in H as [d [X1 X2]]; eapply O; eauto).
  rewrite (N n' g G), (N n f D) in E. subst n'. unfold drives in *. apply (lookup_found _ _ _ P) in D. apply (lookup_found _ _ _ P) in G. congruence.
Qed.
(** Altogether: a call of [n] runs [g] exactly if Python's method resolution finds [g] under [n], as a driver method or as an ordinary function. *)
Theorem C81_calls_exactly a n g : proper a -> own_names a -> call a n = Ok g <-> found (spaces a) n (Drv g) \/ found (spaces a) n (Fun g).
Proof.
  intros P O. split.
  - intros C. unfold call, getattr in C. destruct (lookup (spaces a) n) as [v|] eqn:E; [|discriminate]. pose proof E as F. apply (lookup_found _ _ _ P) in F. destruct v as [f|f|f|]; cbn [run_value] in C; try discriminate.
    + left. pose proof (C81_runs_named a n f P O F) as C'. unfold call, getattr in C'. rewrite E in C'. cbn [run_value] in C'. rewrite C' in C. injection C as <-. exact F.
    + right. injection C as <-. exact F.
  - intros [D|D]; [now apply C81_runs_named|]. unfold call, getattr. apply (lookup_found _ _ _ P) in D. rewrite D. reflexivity.
Qed.
(** Every driver method has a driver of its own. *)
Theorem C81_own_driver a n1 f1 n2 f2 : proper a -> own_names a -> drives a n1 f1 -> drives a n2 f2 -> n1 <> n2 ->
  exists w1 w2, dget (drivers a) n1 = Some w1 /\ dget (drivers a) n2 = Some w2 /\ w_no w1 <> w_no w2 /\ w_func w1 = f1 /\ w_func w2 = f2.
Proof.
  intros P O D1 D2 NE. assert (N : forall m h, drives a m h -> f_name h = m) by (intros m h H; apply found_in in H as [d [X1 X2]]; eapply O; eauto).
  assert (X : forall n f, drives a n f -> exists w, dget (drivers a) n = Some w /\ In w (workers (all_driver_method a)) /\ w_func w = f).
  { intros n f D. pose proof D as D0. apply (in_drv a n f P) in D. destruct (vis_last sel_drv a n n f D (N n f D0)) as [w [n' [E1 [E5 [E2 [E3 _]]]]]]. exists w. unfold drivers. rewrite drv_vis. split; auto. split; auto.
    apply (in_drv a _ _ P) in E3. rewrite (N _ _ E3) in E2. subst n'. unfold drives in *. apply (lookup_found _ _ _ P) in D0. apply (lookup_found _ _ _ P) in E3. congruence. }
  destruct (X n1 f1 D1) as [w1 [A1 [B1 C1]]]. destruct (X n2 f2 D2) as [w2 [A2 [B2 C2]]]. exists w1, w2. repeat split; auto. intros E. apply NE. rewrite <- (N n1 f1 D1), <- (N n2 f2 D2), <- C1, <- C2. do 2 f_equal.
  pose proof (workers_no (all_driver_method a)) as W. assert (ND : NoDup (map w_no (workers (all_driver_method a)))) by (rewrite W; apply seq_NoDup). clear - E B1 B2 ND. induction (workers (all_driver_method a)) as [|w l IH]; [destruct B1|]. cbn [map] in ND. inversion ND as [|? ? N1 N2]; subst.
  destruct B1 as [->|B1], B2 as [->|B2]; auto; exfalso; apply N1; [rewrite E|rewrite <- E]; now apply in_map.
Qed.
(** super().n(...) in a method of the k-th class runs the function the agent itself uses for [n], not the one of the base class. *)
Theorem C81_super_partial a k n f g : proper a -> own_names a -> found (skipn (S k) (a_mro a)) n (Drv f) -> drives a n g -> super_call a k n = Ok g.
Proof.
  intros P O F D. assert (P' : forall d, In d (skipn (S k) (a_mro a)) -> NoDup (map fst d)). { intros d H. apply P. right. rewrite <- (firstn_skipn (S k)). apply in_or_app. now right. }
  assert (Ef : f_name f = n). { apply found_in in F as [d [X1 X2]]. apply (O d n f); auto. right. rewrite <- (firstn_skipn (S k)). apply in_or_app. now right. }
  unfold super_call. apply (lookup_found _ _ _ P') in F. rewrite F. pose proof (C81_runs_named a n g P O D) as C. unfold call, getattr in C. pose proof D as D0. unfold drives in D0. apply (lookup_found _ _ _ P) in D0. rewrite D0 in C. cbn [run_value] in *. rewrite Ef.
  apply found_in in D as [d [X1 X2]]. rewrite (O d n g X1 (or_introl X2)) in C. exact C.
Qed.
(** A driver method that overrides another one and calls it by super(): the function of the base class never runs, the overriding one calls itself for ever. *)
Definition base_send := mk_func "send" 1. Definition my_send := mk_func "send" 2.
Definition overriding : agent_ := mk_agent_ [("bundle", Obj)] [[("send", Drv my_send)]; [("send", Drv base_send)]].
Definition calls_super (f : func) : list stmt := if Nat.eqb (f_id f) 2 then [CallSuper 0 "send"] else [].
Theorem C81_super_refuted : proper overriding /\ own_names overriding /\ drives overriding "send" my_send /\ found (skipn 1 (a_mro overriding)) "send" (Drv base_send) /\
  forall n, trace calls_super overriding n my_send = repeat my_send n.
Proof.
  split; [intros d [<-|[<-|[<-|[]]]]; repeat constructor; simpl; tauto|]. split.
  { intros d n f [<-|[<-|[<-|[]]]] [H|H]; simpl in H; destruct H as [H|[]]; try discriminate; injection H as <- <-; reflexivity. }
  split; [apply fd_next; [simpl; intuition discriminate|]; apply fd_here; simpl; auto|]. split; [apply fd_here; simpl; auto|].
  induction n as [|n IH]; auto. cbn [trace repeat]. f_equal. transitivity (trace calls_super overriding n my_send ++ []); [reflexivity|]. now rewrite app_nil_r.
Qed.
(** An ordinary method that overrides a driver method and calls it by super(): KeyError. *)
Definition plain_over : agent_ := mk_agent_ [("bundle", Obj)] [[("send", Fun my_send)]; [("send", Drv base_send)]].
Theorem C81_super_plain_refuted : proper plain_over /\ own_names plain_over /\ call plain_over "send" = Ok my_send /\ found (skipn 1 (a_mro plain_over)) "send" (Drv base_send) /\ super_call plain_over 0 "send" = Exn KeyError.
Proof.
  split; [intros d [<-|[<-|[<-|[]]]]; repeat constructor; simpl; tauto|]. split.
  { intros d n f [<-|[<-|[<-|[]]]] [H|H]; simpl in H; destruct H as [H|[]]; try discriminate; injection H as <- <-; reflexivity. }
  split; [reflexivity|]. split; [apply fd_here; simpl; auto|]. reflexivity.
Qed.
(** Two driver methods made from functions of the same name (two lambdas, or the result of a function that makes methods). *)
Definition lam (k : nat) := mk_func "<lambda>" k.
Definition made : agent_ := mk_agent_ [] [[("read", Drv (lam 1)); ("write", Drv (lam 2))]].
Theorem C81_same_name_refuted : proper made /\ drives made "read" (lam 1) /\ call made "read" = Ok (lam 2).
Proof. split; [intros d [<-|[<-|[]]]; repeat constructor; simpl; intuition discriminate|]. split; [apply fd_next; [simpl; tauto|]; apply fd_here; simpl; auto|]. reflexivity. Qed.
(** Non-vacuous: a class with two driver methods, one of them inherited, and a monitor. *)
Definition ordinary : agent_ := mk_agent_ [("bundle", Obj)] [[("send", Drv my_send); ("watch", Mon (mk_func "watch" 3))]; [("send", Drv base_send); ("idle", Drv (mk_func "idle" 4)); ("helper", Fun (mk_func "helper" 5))]].
Lemma ordinary_ok : proper ordinary /\ own_names ordinary.
Proof.
  split; [intros d [<-|[<-|[<-|[]]]]; repeat constructor; simpl; intuition discriminate|].
  intros d n f [<-|[<-|[<-|[]]]] H; simpl in H; intuition; try discriminate; match goal with H : (_, _) = (_, _) |- _ => injection H as <- <-; reflexivity end.
Qed.
Example C81_nonvacuous : proper ordinary /\ own_names ordinary /\ drives ordinary "send" my_send /\ drives ordinary "idle" (mk_func "idle" 4) /\ call ordinary "send" = Ok my_send /\ call ordinary "idle" = Ok (mk_func "idle" 4) /\ call ordinary "helper" = Ok (mk_func "helper" 5).
Proof.
  split; [apply ordinary_ok|]. split; [apply ordinary_ok|]. split; [apply fd_next; [simpl; intuition discriminate|]; apply fd_here; simpl; auto|].
  split; [apply fd_next; [simpl; intuition discriminate|]; apply fd_next; [simpl; intuition discriminate|]; apply fd_here; simpl; auto|]. repeat split; reflexivity.
Qed.

(** * C82 *)
Lemma mon_names a : proper a -> own_names a -> map wname (monitor_tasks a) = map fst (vis sel_mon a).
Proof.
  intros P O. unfold wname, monitor_tasks. rewrite <- (map_map w_func f_name), workers_func, mon_vis, map_map. apply map_ext_in. intros [n f] H. apply (in_mon a n f P) in H. apply found_in in H as [d [X1 X2]]. cbn. apply (O d n f); auto.
Qed.
(** The agent starts exactly one monitor task for every monitor method it has, and knows it under its name. *)
Theorem C82_one_task a : proper a -> own_names a -> NoDup (map wname (monitor_tasks a)) /\ (forall n, In n (map wname (monitor_tasks a)) <-> exists f, watches a n f) /\
  forall n f, watches a n f -> exists w, dget (monitors a) n = Some w /\ In w (monitor_tasks a) /\ w_func w = f /\ forall w', In w' (monitor_tasks a) -> w_func w' = f -> w' = w.
Proof.
  intros P O. pose proof (mon_names a P O) as MN. assert (ND : NoDup (map wname (monitor_tasks a))).
  { rewrite MN. clear MN. pose proof (vis_sorted sel_mon a) as S. induction S as [|[n f] l S IH F]; cbn [map]; constructor; auto. intros H. apply in_map_iff in H as [[n' f'] [E H]]. rewrite Forall_forall in F. specialize (F _ H). cbn in *. subst. apply (slt_irr n F). }
  split; auto. split.
  - intros n. rewrite MN, in_map_iff. split; [intros [[n' f] [E H]]; cbn in E; subst; exists f; now apply (in_mon a)|intros [f H]; exists (n, f); split; auto; now apply (in_mon a)].
  - intros n f D. assert (N : forall m h, watches a m h -> f_name h = m) by (intros m h H; apply found_in in H as [d [X1 X2]]; eapply O; eauto). pose proof D as D0. apply (in_mon a n f P) in D.
    destruct (vis_last sel_mon a n n f D (N n f D0)) as [w [n' [E1 [E5 [E2 [E3 _]]]]]]. exists w. unfold monitors, monitor_tasks. rewrite mon_vis. split; auto. split; auto. assert (EF : w_func w = f).
    { apply (in_mon a _ _ P) in E3. rewrite (N _ _ E3) in E2. subst n'. unfold watches in *. apply (lookup_found _ _ _ P) in D0. apply (lookup_found _ _ _ P) in E3. congruence. }
    split; auto. intros w' Hw' Ew. unfold monitor_tasks in ND. rewrite mon_vis in ND. clear - ND E5 Hw' Ew EF. induction (workers (map snd (vis sel_mon a))) as [|x l IH]; [destruct E5|]. cbn [map] in ND. inversion ND as [|? ? N1 N2]; subst.
    destruct Hw' as [->|Hw'], E5 as [->|E5]; auto; exfalso; apply N1; apply in_map_iff; unfold wname; [exists w|exists w']; split; auto; congruence.
Qed.
(** A second name for a monitor method starts a second task for it, unknown to the env: the method is called twice per cycle. *)
Definition watcher := mk_func "watch" 1.
Definition aliased : agent_ := mk_agent_ [] [[("look", Mon watcher); ("watch", Mon watcher)]].
Theorem C82_alias_refuted : proper aliased /\ watches aliased "watch" watcher /\ exists w1 w2, monitor_tasks aliased = [w1; w2] /\ w_func w1 = watcher /\ w_func w2 = watcher /\ w_no w1 <> w_no w2 /\ monitors aliased = [("watch", w2)].
Proof.
  split; [intros d [<-|[<-|[]]]; repeat constructor; simpl; intuition discriminate|]. split; [apply fd_next; [simpl; tauto|]; apply fd_here; simpl; auto|].
  eexists _, _. split; [reflexivity|]. repeat split. discriminate.
Qed.
Example C82_nonvacuous : proper ordinary /\ own_names ordinary /\ watches ordinary "watch" (mk_func "watch" 3) /\ map wname (monitor_tasks ordinary) = ["watch"].
Proof. split; [apply ordinary_ok|]. split; [apply ordinary_ok|]. split; [apply fd_next; [simpl; intuition discriminate|]; apply fd_here; simpl; auto|reflexivity]. Qed.

(** * C83 *)
(** After the construction of an env of any class depth, every driver and monitor of every agent it holds has the path made of the (last) name of the agent and the name of the method. *)
Theorem C83_paths ag k l n i (b : bool) m f : init_seq (S k) l -> last_name (fun n => holds (fst (construct ag l)) n i) n -> proper (ag i) ->
  (if b then watches (ag i) m f else drives (ag i) m f) -> snd (construct ag l) i b (f_name f) = Some (path_of n (f_name f)).
Proof.
  intros IS LN P W. inversion IS as [|k' pre l0 post H1 H2 H3]; subst. unfold construct in *. rewrite !app_assoc, fold_left_app in *. cbn [fold_left do_event fst snd] in *. set (x := fold_left (do_event ag) ((pre ++ l0) ++ post) _) in *. unfold config_agent_name.
  apply (each_last path_of (fst x) ag (snd x) n i b (f_name f) f); auto.
  - assert (E : fst x = attrs_of ((pre ++ l0) ++ post)) by (apply (construct_attrs ag)). rewrite E. apply attrs_nodup.
  - unfold methods. cbn [v_agents]. destruct b; [rewrite mon_vis|rewrite drv_vis]; apply in_map_iff; exists (m, f); (split; [reflexivity|]); [now apply in_mon|now apply in_drv].
Qed.
(** An agent that is held by one attribute only. *)
Theorem C83_paths_unshared ag k l n i (b : bool) m f : init_seq (S k) l -> holds (fst (construct ag l)) n i -> (forall n', holds (fst (construct ag l)) n' i -> n' = n) -> proper (ag i) ->
  (if b then watches (ag i) m f else drives (ag i) m f) -> snd (construct ag l) i b (f_name f) = Some (path_of n (f_name f)).
Proof. intros IS H U P W. apply (C83_paths ag k l n i b m f); auto. split; auto. intros n' H' NE. elim NE. auto. Qed.
(** The entries made for a model: what counts for an agent held by several attributes is the last name. *)
Theorem C83_entries {A} (entry : string -> string -> A) ag attrs st n i (b : bool) m f : NoDup (map fst attrs) -> last_name (fun n => holds attrs n i) n -> proper (ag i) ->
  (if b then watches (ag i) m f else drives (ag i) m f) -> each_method entry (mk_env_ attrs ag) st i b (f_name f) = Some (entry n (f_name f)).
Proof.
  intros ND LN P W. apply (each_last entry attrs ag st n i b (f_name f) f); auto. unfold methods. cbn [v_agents]. destruct b; [rewrite mon_vis|rewrite drv_vis]; apply in_map_iff; exists (m, f); (split; [reflexivity|]); [now apply in_mon|now apply in_drv].
Qed.
(** An agent under two names: a hook for its first name is entered nowhere, and calls are reported under the second name. *)
Definition shared : list event := [Assign "a" (Some 0); Assign "b" (Some 0); Config].
Definition one_agent (i : nat) : agent_ := ordinary.
Theorem C83_shared_agent_refuted : init_seq 1 shared /\ holds (fst (construct one_agent shared)) "a" 0 /\ snd (construct one_agent shared) 0 false "send" = Some "b.send" /\
  forall (A : Type) (entry : string -> string -> A) st, each_method entry (mk_env_ (fst (construct one_agent shared)) one_agent) st 0 false "send" = Some (entry "b" "send").
Proof.
  split; [apply (is_class 0 [Assign "a" (Some 0); Assign "b" (Some 0)] [] []); [intros ev [<-|[<-|[]]]; discriminate|intros ev []|constructor]|]. split; [vm_compute; auto|]. split; [vm_compute; reflexivity|]. intros A entry st. reflexivity.
Qed.
(** An agent given to the env after its construction has no path. *)
Theorem C83_late_agent_refuted : exists l, init_seq 1 l /\ let x := do_event one_agent (construct one_agent l) (Assign "a" (Some 0)) in holds (fst x) "a" 0 /\ snd x 0 false "send" = None.
Proof. exists [Config]. split; [apply (is_class 0 [] [] []); [intros ev []|intros ev []|constructor]|]. split; [vm_compute; auto|vm_compute; reflexivity]. Qed.
Example C83_nonvacuous : exists l, init_seq 2 l /\ holds (fst (construct one_agent l)) "drv" 1 /\ (forall n', holds (fst (construct one_agent l)) n' 1 -> n' = "drv") /\ proper (one_agent 1) /\ drives (one_agent 1) "send" my_send /\ snd (construct one_agent l) 1 false "send" = Some "drv.send".
Proof.
  exists [Assign "x" (Some 1); Assign "mon" (Some 0); Config; Assign "x" None; Assign "drv" (Some 1); Config]. split.
  { apply (is_class 1 [Assign "x" (Some 1)] [Assign "mon" (Some 0); Config] [Assign "x" None; Assign "drv" (Some 1)]); [intros ev [<-|[]]; discriminate|intros ev [<-|[<-|[]]]; discriminate|].
    apply (is_class 0 [Assign "mon" (Some 0)] [] []); [intros ev [<-|[]]; discriminate|intros ev []|constructor]. }
  split; [vm_compute; auto|]. split; [intros n' H; unfold holds in H; simpl in H; intuition congruence|]. split; [apply ordinary_ok|].
  split; [apply fd_next; [simpl; intuition discriminate|]; apply fd_here; simpl; auto|vm_compute; reflexivity].
Qed.

Print Assumptions C81_which_runs.
Print Assumptions C81_runs_named.
Print Assumptions C81_calls_exactly.
Print Assumptions C81_own_driver.
Print Assumptions C81_super_partial.
Print Assumptions C81_super_refuted.
Print Assumptions C81_super_plain_refuted.
Print Assumptions C81_same_name_refuted.
Print Assumptions C82_one_task.
Print Assumptions C82_alias_refuted.
Print Assumptions C83_paths.
Print Assumptions C83_paths_unshared.
Print Assumptions C83_entries.
Print Assumptions C83_shared_agent_refuted.
Print Assumptions C83_late_agent_refuted.
