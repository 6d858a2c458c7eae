(** C113: drivers and monitors by name; the message queues of one agent. *)
From Coq Require Import List String Bool Arith ZArith Lia.
From Verif Require Import Py Agent_Model Agent_Spec Agent_Proofs Port_Model Port_Spec Port_Proofs P_Port P_Agent AgentQ_Model AgentQ_Spec.
Import ListNotations.
Open Scope nat_scope.
Open Scope string_scope.
Open Scope list_scope.

(** get_driver_method and get_monitor_method find the method Python finds under the name, if it is a driver (monitor) method, and nothing else; what they find under any name is what all_driver_method (all_monitor_method) yields. *)
Theorem C113_get a : proper a -> (forall n f, get_driver_method a n = Some f <-> drives a n f) /\ (forall n f, get_monitor_method a n = Some f <-> watches a n f) /\
  (forall f, In f (all_driver_method a) <-> exists n, get_driver_method a n = Some f) /\ (forall f, In f (all_monitor_method a) <-> exists n, get_monitor_method a n = Some f).
Proof.
  intros P. assert (A : forall n f, get_driver_method a n = Some f <-> drives a n f).
  { intros n f. unfold get_driver_method, drives, getattr. split.
    - destruct (lookup (spaces a) n) as [v|] eqn:E; [|discriminate]. apply (lookup_found _ _ _ P) in E. destruct v; try discriminate. intros [= <-]. exact E.
    - intros H. apply (lookup_found _ _ _ P) in H. now rewrite H. }
  assert (B : forall n f, get_monitor_method a n = Some f <-> watches a n f).
  { intros n f. unfold get_monitor_method, watches, getattr. split.
    - destruct (lookup (spaces a) n) as [v|] eqn:E; [|discriminate]. apply (lookup_found _ _ _ P) in E. destruct v; try discriminate. intros [= <-]. exact E.
    - intros H. apply (lookup_found _ _ _ P) in H. now rewrite H. }
  split; [exact A|]. split; [exact B|]. split; intros f.
  - rewrite drv_vis, in_map_iff. split; [intros [[n g] [E H]]; cbn in E; subst; exists n; apply A; now apply (in_drv a)|intros [n H]; exists (n, f); split; auto; apply A in H; now apply (in_drv a)].
  - rewrite mon_vis, in_map_iff. split; [intros [[n g] [E H]]; cbn in E; subst; exists n; apply B; now apply (in_mon a)|intros [n H]; exists (n, f); split; auto; apply B in H; now apply (in_mon a)].
Qed.
Print Assumptions C113_get.

Section Thms.
Context {V : Type} (a : agent_) (P : proper a) (O : own_names a).
Lemma watch_name n f : watches a n f -> f_name f = n.
Proof. intros H. apply found_in in H as [d [X1 X2]]. eapply O; eauto. Qed.
Lemma watch_fun n f g : watches a n f -> watches a n g -> f = g.
Proof. intros H1 H2. apply (lookup_found _ _ _ P) in H1. apply (lookup_found _ _ _ P) in H2. congruence. Qed.
Lemma task_nth w : In w (monitor_tasks a) -> nth_error (monitor_tasks a) (w_no w) = Some w.
Proof.
  intros H. destruct (In_nth_error _ _ H) as [i E]. pose proof (workers_no (all_monitor_method a)) as N. fold (monitor_tasks a) in N.
  assert (X : nth_error (map w_no (monitor_tasks a)) i = Some (w_no w)) by (rewrite nth_error_map, E; reflexivity). rewrite N in X.
  assert (L : i < List.length (all_monitor_method a)). { rewrite <- (seq_length (List.length (all_monitor_method a)) 0). apply nth_error_Some. congruence. }
  rewrite nth_error_nth' with (d := 0) in X by (rewrite seq_length; exact L). rewrite seq_nth in X by exact L. injection X as X. cbn in X. now rewrite <- X.
Qed.
Lemma task_watch w : In w (monitor_tasks a) -> watches a (wname w) (w_func w).
Proof.
  intros H. apply (in_map wname) in H as H'. destruct (C82_one_task a P O) as [_ [B _]]. apply B in H' as [f W].
  assert (Y : In (w_func w) (all_monitor_method a)). { unfold monitor_tasks in H. rewrite <- (workers_func (all_monitor_method a)). now apply in_map. }
  apply (proj2 (proj2 (proj2 (C113_get a P)))) in Y as [n Y]. apply (proj1 (proj2 (C113_get a P))) in Y. pose proof (watch_name _ _ Y) as E. unfold wname. now rewrite E.
Qed.
Lemma known n : (exists f, watches a n f) <-> dget (monitors a) n <> None.
Proof.
  destruct (C82_one_task a P O) as [_ [B C]]. split.
  - intros [f W]. destruct (C n f W) as [w [E _]]. congruence.
  - intros H. destruct (by_name_last (monitor_tasks a) n) as [[E _]|E]; [contradiction|]. destruct (dget (monitors a) n) as [w|] eqn:D; [|contradiction]. apply B. clear H.
    destruct (in_dec string_dec n (map wname (monitor_tasks a))) as [I|I]; auto. exfalso. destruct (by_name_last (monitor_tasks a) n) as [[Z _]|Z]; [unfold monitors in D; congruence|].
    destruct Z as [l1 [w' [l2 [Z1 [Z2 _]]]]]. apply I. rewrite Z1, map_app. apply in_or_app. right. left. auto.
Qed.
(** start_monitor and monitor_size accept exactly the names of the agent's monitor methods; for another name they raise KeyError and nothing changes. *)
Theorem C113_known (st : objs V) n z : (forall f, watches a n f -> snd (agent_op a st (AStart n z)) = AOut MStarted /\ exists k, snd (agent_op a st (ASize n)) = ANum k) /\
  ((forall f, ~ watches a n f) -> agent_op a st (AStart n z) = (st, ARaise KeyError) /\ agent_op a st (ASize n) = (st, ARaise KeyError)).
Proof.
  split.
  - intros f W. pose proof (proj1 (known n) (ex_intro _ f W)) as K. cbn [agent_op]. unfold on_monitor. destruct (dget (monitors a) n) as [w|]; [|contradiction]. cbn. split; [reflexivity|eauto].
  - intros N. cbn [agent_op]. unfold on_monitor. destruct (dget (monitors a) n) as [w|] eqn:E; auto. exfalso. assert (X : exists f, watches a n f) by (apply known; congruence). destruct X as [f X]. exact (N f X).
Qed.
Lemma one_step n f w (st : objs V) o st' x : watches a n f -> dget (monitors a) n = Some w -> In w (monitor_tasks a) -> w_func w = f -> agent_op a st o = (st', x) ->
  (exists p y, concerns a n o p /\ x = AOut y /\ mon_op (st (w_no w)) p = (st' (w_no w), y)) \/ ((forall p, ~ concerns a n o p) /\ st' (w_no w) = st (w_no w)).
Proof.
  intros W D Iw Fw E. assert (Oth : forall n' w', n' <> n -> dget (monitors a) n' = Some w' -> forall m, upd st (w_no w') m (w_no w) = st (w_no w)).
  { intros n' w' NE D' m. unfold upd. destruct (Nat.eqb_spec (w_no w) (w_no w')) as [Q|]; auto. exfalso. destruct (proj2 (known n')) as [f' W']; [congruence|].
    destruct (C82_one_task a P O) as [_ [_ C]]. destruct (C n' f' W') as [w2 [E2 [I2 [F2 _]]]]. rewrite D' in E2. injection E2 as <-. apply NE. pose proof (task_nth _ Iw) as T1. pose proof (task_nth _ I2) as T2. rewrite Q in T1.
    assert (w = w') by congruence. subst w'. rewrite <- (watch_name _ _ W'), <- (watch_name _ _ W). congruence. }
  destruct o as [n' z|n'|i r|n']; cbn [agent_op] in E.
  - destruct (string_dec n' n) as [->|NE].
    + left. unfold on_monitor in E. rewrite D in E. destruct (mon_op (st (w_no w)) (Start z)) as [m y] eqn:M. injection E as <- <-. exists (Start z), y. split; [constructor|]. split; auto. unfold upd. now rewrite Nat.eqb_refl.
    + right. split; [intros p H; inversion H; congruence|]. unfold on_monitor in E. destruct (dget (monitors a) n') as [w'|] eqn:D'; [|now injection E as <- <-]. destruct (mon_op (st (w_no w')) (Start z)) as [m y]. injection E as <- <-. eapply Oth; eauto.
  - right. split; [intros p H; inversion H|]. now injection E as <- <-.
  - destruct (Nat.ltb_spec i (List.length (monitor_tasks a))) as [L|L].
    + destruct (mon_op (st i) (Result r)) as [m y] eqn:M. injection E as <- <-. destruct (nth_error (monitor_tasks a) i) as [wi|] eqn:Ei; [|apply nth_error_None in Ei; lia].
      pose proof (nth_error_In _ _ Ei) as Ii. pose proof (task_nth _ Ii) as Ti. pose proof (task_watch _ Ii) as Wi. unfold upd. destruct (Nat.eqb_spec (w_no w) i) as [Q|NQ].
      * left. exists (Result r), y. split; [|split; auto; now rewrite Q]. constructor. exists wi. split; auto. pose proof (task_nth _ Iw) as T. rewrite Q, Ei in T. injection T as ->. now rewrite Fw.
      * right. split; auto. intros p H. inversion H as [|? ? [w2 [E2 W2]]|]; subst. rewrite Ei in E2. injection E2 as <-. apply NQ.
        destruct (C82_one_task a P O) as [_ [_ C]]. destruct (C n _ W) as [w3 [_ [_ [_ U]]]]. pose proof (watch_fun _ _ _ W W2) as Q. assert (wi = w3) by (apply U; auto). assert (w = w3) by (apply U; auto). subst w3.
        assert (ND : NoDup (map w_no (monitor_tasks a))) by (unfold monitor_tasks; rewrite workers_no; apply seq_NoDup). assert (X1 : nth_error (map w_no (monitor_tasks a)) i = Some (w_no w)) by (rewrite nth_error_map, Ei; cbn; congruence).
        assert (X2 : nth_error (map w_no (monitor_tasks a)) (w_no w) = Some (w_no w)) by (rewrite nth_error_map, (task_nth _ Iw); reflexivity).
        rewrite NoDup_nth_error in ND. apply ND; [apply nth_error_Some; congruence|congruence].
    + right. injection E as <- <-. split; auto. intros p H. inversion H as [|? ? [w2 [E2 W2]]|]; subst. assert (i < List.length (monitor_tasks a)) by (apply nth_error_Some; congruence). lia.
  - destruct (string_dec n' n) as [->|NE].
    + left. unfold getattr in E. unfold watches in W. pose proof W as W'. apply (lookup_found _ _ _ P) in W'. rewrite W' in E. rewrite (watch_name _ _ W) in E. unfold on_monitor in E. rewrite D in E.
      destruct (mon_op (st (w_no w)) Read) as [m y] eqn:M. injection E as <- <-. exists Read, y. split; [constructor|]. split; auto. unfold upd. now rewrite Nat.eqb_refl.
    + right. split; [intros p H; inversion H; congruence|]. destruct (getattr a n') as [[f'|f'|f'|]|] eqn:G; try now injection E as <- <-. unfold getattr in G. apply (lookup_found _ _ _ P) in G. rewrite (watch_name _ _ G) in E.
      unfold on_monitor in E. destruct (dget (monitors a) n') as [w'|] eqn:D'; [|now injection E as <- <-]. destruct (mon_op (st (w_no w')) Read) as [m y]. injection E as <- <-. eapply Oth; eauto.
Qed.
Lemma run_share n f w (ops : list (aop V)) : watches a n f -> dget (monitors a) n = Some w -> In w (monitor_tasks a) -> w_func w = f ->
  forall st0 st outs, agent_run a st0 ops = (st, outs) -> exists l r, share a n ops outs l r /\ mon_run (st0 (w_no w)) l = (st (w_no w), r).
Proof.
  intros W D Iw Fw. induction ops as [|o ops IH]; intros st0 st outs E; cbn [agent_run] in E.
  - injection E as <- <-. exists [], []. split; [constructor|reflexivity].
  - destruct (agent_op a st0 o) as [st1 x] eqn:E1. destruct (agent_run a st1 ops) as [st2 xs] eqn:E2. injection E as <- <-. destruct (IH _ _ _ E2) as [l [r [S R]]].
    destruct (one_step n f w st0 o st1 x W D Iw Fw E1) as [[p [y [Cc [-> M]]]]|[Nc M]].
    + exists (p :: l), (y :: r). split; [now constructor|]. cbn [mon_run]. now rewrite M, R.
    + exists l, r. split; [now constructor|]. now rewrite <- M.
Qed.
(** Whatever else happens to the agent, each monitor method has a queue of its own: the operations on it and its results are a history of a single monitor, as in C20, and monitor_size is the size of its queue. *)
Theorem C113_own_queue n f in_env (ops : list (aop V)) st outs : watches a n f -> agent_run a (agent_new in_env) ops = (st, outs) ->
  exists l r m, share a n ops outs l r /\ mon_run (new_monitor in_env) l = (m, r) /\ agent_op a st (ASize n) = (st, ANum (monitor_size m)).
Proof.
  intros W E. destruct (C82_one_task a P O) as [_ [_ C]]. destruct (C n f W) as [w [D [Iw [Fw _]]]].
  destruct (run_share n f w ops W D Iw Fw _ _ _ E) as [l [r [S R]]]. exists l, r, (st (w_no w)). split; auto. split; auto. cbn [agent_op]. now rewrite D.
Qed.
Lemma share_no_start n ops outs l r : (forall z, ~ In (AStart n z) ops) -> share (V := V) a n ops outs l r -> no_start l.
Proof.
  intros N S. induction S as [|o p x ops outs l r C S IH|o x ops outs l r C S IH]; [constructor| |].
  - constructor; [|apply IH; intros z H; apply (N z); now right]. destruct C; auto. apply (N z). now left.
  - apply IH. intros z H. apply (N z). now right.
Qed.
(** In an env: after start_monitor(n, maxsize), the messages read by calls of n, followed by those still queued, are the results of n that were kept, in order, whatever is done with the other monitors of the agent; monitor_size(n) is the number of those queued. *)
Theorem C113_messages n f before z ops st outs st' outs' : watches a n f -> (forall z, ~ In (AStart n z) ops) -> agent_run a (agent_new true) (before ++ [AStart n z]) = (st, outs) -> agent_run a st ops = (st', outs') ->
  exists l r q, share (V := V) a n ops outs' l r /\ messages r ++ q = kept l r /\ agent_op a st' (ASize n) = (st', ANum (List.length q)).
Proof.
  intros W N E1 E2. destruct (C82_one_task a P O) as [_ [_ C]]. destruct (C n f W) as [w [D [Iw [Fw _]]]].
  assert (X : forall (st0 : objs V) b (st : objs V) outs, agent_run a st0 (b ++ [AStart n z]) = (st, outs) -> exists lb r, mon_run (st0 (w_no w)) (lb ++ [Start z]) = (st (w_no w), r)).
  { clear E1 E2 st outs before. intros st0 b. revert st0. induction b as [|o b IH]; intros st0 st outs E; cbn [app agent_run] in E.
    - destruct (agent_op a st0 (AStart n z)) as [st1 x] eqn:E1. injection E as <- <-. destruct (one_step n f w _ _ _ _ W D Iw Fw E1) as [[p [y [Cc [-> M]]]]|[Nc _]]; [|destruct (Nc (Start z)); constructor].
      inversion Cc; subst. exists [], [y]. cbn [app mon_run]. now rewrite M.
    - destruct (agent_op a st0 o) as [st1 x] eqn:E1. destruct (agent_run a st1 (b ++ [AStart n z])) as [st2 xs] eqn:E2. injection E as <- <-. destruct (IH _ _ _ E2) as [lb [r R]].
      destruct (one_step n f w _ _ _ _ W D Iw Fw E1) as [[p [y [Cc [-> M]]]]|[Nc M]].
      + exists (p :: lb), (y :: r). cbn [app mon_run]. now rewrite M, R.
      + exists lb, r. now rewrite <- M. }
  destruct (X _ _ _ _ E1) as [lb [r0 R0]]. destruct (run_share n f w ops W D Iw Fw _ _ _ E2) as [l [r [S R]]].
  destruct (C20_fifo V lb z l _ _ _ _ (share_no_start _ _ _ _ _ N S) R0 R) as [[q [Q1 Q2]] _]. exists l, r, q. split; auto. split; auto. cbn [agent_op]. rewrite D. now rewrite Q2.
Qed.
End Thms.
Print Assumptions C113_known.
Print Assumptions C113_own_queue.
Print Assumptions C113_messages.

(** * Concrete agents *)
(** An agent with two monitors and a driver; both queues are used at the same time. *)
Definition two_mon : agent_ := mk_agent_ [("bundle", Obj)] [[("rd", Mon (mk_func "rd" 1)); ("send", Drv (mk_func "send" 3)); ("wr", Mon (mk_func "wr" 2))]].
Definition hist : list (aop nat) := [AResult 0 (Some 5); AResult 1 (Some 6); ARead "rd"; AStart "wr" 1%Z; AResult 0 (Some 7); AResult 1 (Some 8); AResult 1 (Some 9); ASize "rd"; ASize "wr"; ARead "rd"; ARead "wr"; ASize "send"; AStart "send" 3%Z].
Example C113_nonvacuous : proper two_mon /\ own_names two_mon /\ watches two_mon "rd" (mk_func "rd" 1) /\ watches two_mon "wr" (mk_func "wr" 2) /\ get_driver_method two_mon "send" = Some (mk_func "send" 3) /\ get_driver_method two_mon "rd" = None /\
  snd (agent_run two_mon (agent_new true) (AStart "rd" 4%Z :: hist)) =
  [AOut MStarted; AOut MKept; AOut MNone; AOut (MGot 5); AOut MStarted; AOut MKept; AOut MKept; AOut MDropped; ANum 1; ANum 1; AOut (MGot 7); AOut (MGot 8); ARaise KeyError; ARaise KeyError].
Proof.
  split; [intros d [<-|[<-|[]]]; repeat constructor; simpl; intuition discriminate|].
  split. { intros d n f [<-|[<-|[]]] H; simpl in H; intuition; try discriminate; match goal with H : (_, _) = (_, _) |- _ => injection H as <- <-; reflexivity end. }
  split; [apply fd_next; [simpl; intuition discriminate|]; apply fd_here; simpl; auto|]. split; [apply fd_next; [simpl; intuition discriminate|]; apply fd_here; simpl; auto|]. repeat split; reflexivity.
Qed.
(** A second name for a monitor method: get_monitor_method knows it, start_monitor and monitor_size do not. *)
Theorem C113_alias_refuted : proper aliased /\ get_monitor_method aliased "look" = Some watcher /\ forall st : objs nat, agent_op aliased st (AStart "look" 4%Z) = (st, ARaise KeyError) /\ agent_op aliased st (ASize "look") = (st, ARaise KeyError).
Proof. split; [intros d [<-|[<-|[]]]; repeat constructor; simpl; intuition discriminate|]. repeat split; reflexivity. Qed.
Print Assumptions C113_alias_refuted.
(** Monitor methods made from functions of the same name share one queue: a call of the first returns a result of the second. *)
Definition made_mon : agent_ := mk_agent_ [] [[("rd", Mon (lam 1)); ("wr", Mon (lam 2))]].
Theorem C113_same_name_refuted : proper made_mon /\ watches made_mon "rd" (lam 1) /\ watches made_mon "wr" (lam 2) /\ map w_func (monitor_tasks made_mon) = [lam 1; lam 2] /\
  snd (agent_run made_mon (agent_new true) [AStart "<lambda>" 4%Z; AResult 0 (Some 1); AResult 1 (Some 2); ARead "rd"; ARead "rd"]) = [AOut MStarted; AOut MNone; AOut MKept; AOut (MGot 2); AOut MWaits].
Proof.
  split; [intros d [<-|[<-|[]]]; repeat constructor; simpl; intuition discriminate|]. split; [apply fd_next; [simpl; tauto|]; apply fd_here; simpl; auto|]. split; [apply fd_next; [simpl; tauto|]; apply fd_here; simpl; auto|]. split; reflexivity.
Qed.
Print Assumptions C113_same_name_refuted.
