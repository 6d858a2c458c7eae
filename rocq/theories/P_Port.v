(** Property theorems for ports and monitor queues: C19, C20. *)
From Coq Require Import List ZArith Bool Lia.
From Verif Require Import Py Port_Model Port_Spec Port_Proofs.
Import ListNotations.
Open Scope Z_scope.

(** C19: creation *)
Theorem C19_creation : forall (V : Type) maxsize,
  (0 < maxsize \/ maxsize = -1 -> @new_port V maxsize = Ok (mk_port maxsize [])) /\
  (~ (0 < maxsize \/ maxsize = -1) -> @new_port V maxsize = Exn AssertionError).
Proof.
  intros V z. unfold new_port. destruct (Z.ltb_spec 0 z), (Z.eqb_spec z (-1)); cbn; split; intros; auto; tauto || lia.
Qed.
Print Assumptions C19_creation.

(** C19: in every history of a new port, the values read followed by those still inside are exactly the
    accepted deliveries, in order. *)
Theorem C19_fifo : forall (V : Type) maxsize (p0 : port V) ops p outs,
  new_port maxsize = Ok p0 -> port_run p0 ops = (p, outs) -> reads outs ++ p_items p = accepted ops outs.
Proof.
  intros V z p0 ops p outs H0 Hr. unfold new_port in H0. destruct (_ || _); [|discriminate]. injection H0 as <-.
  pose proof (port_fifo ops (mk_port z [])) as H. rewrite Hr in H. apply H.
Qed.
Print Assumptions C19_fifo.

(** C19: after any history, the next delivery is rejected exactly when accepted-minus-read has reached a
    capacity other than -1; the next read gives the oldest unread accepted value, or waits if there is none. *)
Theorem C19_next : forall (V : Type) maxsize (p0 : port V) ops p outs o,
  new_port maxsize = Ok p0 -> port_run p0 ops = (p, outs) ->
  port_run p0 (ops ++ [o]) = (fst (port_op p o), outs ++ [
    match o with
    | Put v => if (maxsize <=? Z.of_nat (length (accepted ops outs)) - Z.of_nat (length (reads outs))) && negb (maxsize =? -1)
               then Dropped else Accepted
    | Get => match skipn (length (reads outs)) (accepted ops outs) with [] => Waits | x :: _ => Got x end
    end]).
Proof.
  intros V z p0 ops p outs o H0 Hr. rewrite port_run_app, Hr. cbn [port_run].
  unfold new_port in H0. destruct (_ || _); [|discriminate]. injection H0 as <-.
  pose proof (port_next (mk_port z []) ops o p outs Hr eq_refl) as Hn. cbn [p_maxsize] in Hn.
  destruct (port_op p o) as [p1 r]. cbn [fst snd] in *. rewrite Hn. reflexivity.
Qed.
Print Assumptions C19_next.

(** C19: a bounded port never holds more than its capacity. *)
Theorem C19_bounded : forall (V : Type) maxsize (p0 : port V) ops,
  new_port maxsize = Ok p0 -> 0 < maxsize -> Z.of_nat (length (p_items (fst (port_run p0 ops)))) <= maxsize.
Proof.
  intros V z p0 ops H0 Hz. unfold new_port in H0. destruct (_ || _); [|discriminate]. injection H0 as <-.
  apply (port_bound ops (mk_port z [])); cbn; lia.
Qed.
Print Assumptions C19_bounded.

Example C19_example : exists p0 : port nat, new_port 2 = Ok p0 /\
  snd (port_run p0 [Put 1; Put 2; Put 3; Get; Put 4; Get; Get; Get]%nat) =
  [Accepted; Accepted; Dropped; Got 1; Accepted; Got 2; Got 4; Waits]%nat.
Proof. eexists. split; reflexivity. Qed.

(** C20: in an Env, after start_monitor and any further history without a second start_monitor: the
    messages read followed by those queued are exactly the kept results, in order, none from before the
    start; the size is their difference; the monitor still runs. *)
Theorem C20_fifo : forall (V : Type) before maxsize (ops : list (mop V)) m outs m' outs',
  no_start ops -> mon_run (new_monitor true) (before ++ [Start maxsize]) = (m, outs) -> mon_run m ops = (m', outs') ->
  (exists q, messages outs' ++ q = kept ops outs' /\ monitor_size m' = length q) /\ m_alive m' = true.
Proof.
  intros V b z ops m outs m' outs' Hs Hb Hr.
  destruct (mon_after_start b z ops Hs m outs Hb m' outs' Hr) as [q [Hq [Ha [_ Hk]]]].
  split; [|exact Ha]. exists q. split; [exact Hk|]. unfold monitor_size. rewrite Hq. reflexivity.
Qed.
Print Assumptions C20_fifo.

(** C20: a further result is dropped exactly when kept-minus-read has reached maxsize, None is never
    queued, and a read gives the oldest unread message. *)
Theorem C20_next : forall (V : Type) before maxsize (ops : list (mop V)) m outs m' outs',
  no_start ops -> mon_run (new_monitor true) (before ++ [Start maxsize]) = (m, outs) -> mon_run m ops = (m', outs') ->
  let unread := Z.of_nat (length (kept ops outs')) - Z.of_nat (length (messages outs')) in
  (forall v, snd (mon_op m' (Result (Some v))) = if maxsize <=? unread then MDropped else MKept) /\
  mon_op m' (Result None) = (m', MNone) /\
  snd (mon_op m' Read) = match skipn (length (messages outs')) (kept ops outs') with [] => MWaits | x :: _ => MGot x end.
Proof.
  intros V b z ops m outs m' outs' Hs Hb Hr. cbv zeta.
  destruct (mon_after_start b z ops Hs m outs Hb m' outs' Hr) as [q [Hq [Ha [Hp Hk]]]].
  assert (Z.of_nat (length (kept ops outs')) - Z.of_nat (length (messages outs')) = Z.of_nat (length q)) as -> by (rewrite <- Hk, app_length; lia).
  split; [|split].
  - intros v. cbn [mon_op]. rewrite Ha, Hq, Hp. destruct (z <=? _); reflexivity.
  - cbn [mon_op]. rewrite Ha. reflexivity.
  - cbn [mon_op]. rewrite Hq, <- Hk, skipn_app, skipn_all, Nat.sub_diag. cbn [app skipn]. destruct q; reflexivity.
Qed.
Print Assumptions C20_next.

(** C20: never more than maxsize messages. *)
Theorem C20_bounded : forall (V : Type) before maxsize (ops : list (mop V)), 0 <= maxsize -> no_start ops ->
  Z.of_nat (monitor_size (fst (mon_run (fst (mon_run (new_monitor true) (before ++ [Start maxsize]))) ops))) <= maxsize.
Proof.
  intros V b z ops Hz Hs. rewrite mon_run_app. destruct (mon_run (new_monitor true) b) as [m1 o1]. cbn.
  apply mon_bound; [exact Hz|exact Hs|cbn; lia].
Qed.
Print Assumptions C20_bounded.

(** C20: before start_monitor, whether in an Env or not: the size is 0, no result is kept, reading raises, the monitor runs. *)
Theorem C20_not_started : forall (V : Type) in_env (ops : list (mop V)) m outs, no_start ops -> mon_run (new_monitor in_env) ops = (m, outs) ->
  monitor_size m = 0%nat /\ m_alive m = true /\ snd (mon_op m Read) = MRaise AttributeError /\ kept ops outs = [] /\ messages outs = [].
Proof.
  intros V e ops m outs Hs Hr. assert (m = new_monitor e /\ kept ops outs = [] /\ messages outs = []) as [-> [A B]]; [|auto].
  revert m outs Hs Hr. induction ops as [|o ops IH]; intros m outs Hs Hr; [injection Hr as <- <-; auto|]. inversion Hs as [|? ? Ho Hs']; subst. cbn [mon_run] in Hr.
  assert (X : exists r, mon_op (new_monitor e) o = (new_monitor e, r) /\ match r with MNone | MRaise _ => True | _ => False end) by (destruct o as [z|[v|]|]; [contradiction| | |]; eexists; (split; [reflexivity|exact I])).
  destruct X as [r [E1 E2]]. rewrite E1 in Hr. destruct (mon_run (new_monitor e) ops) as [m2 rs] eqn:E3. injection Hr as <- <-. destruct (IH m2 rs Hs' eq_refl) as [A [B C]]. split; auto.
  destruct r; try contradiction; destruct o as [z|[v|]|]; simpl; auto.
Qed.
Print Assumptions C20_not_started.

(** C20, "when the queue is full the monitor keeps running", is false for an agent that is not part of an
    Env: the error message needs an attribute that only Env sets, and the monitor task dies. *)
Theorem C20_full_outside_env_refuted : exists ops : list (mop nat),
  let (m, outs) := mon_run (new_monitor false) (Start 1 :: ops) in
  m_alive m = false /\ In MDied outs /\
  forall r, snd (mon_op m (Result r)) = MNone.
Proof.
  exists [Result (Some 1%nat); Result (Some 2%nat); Read]. vm_compute. repeat split; auto 10.
Qed.
Print Assumptions C20_full_outside_env_refuted.

(** C20 outside an Env, up to the first full queue.  Missing: what happens after it (the monitor is dead). *)
Theorem C20_outside_env_partial : forall (V : Type) maxsize (ops : list (mop V)) m outs,
  no_start ops -> mon_run (mk_mon (Some ([], maxsize)) false true) ops = (m, outs) -> ~ In MDied outs ->
  m_alive m = true /\ exists q, messages outs ++ q = kept ops outs /\ monitor_size m = length q.
Proof.
  intros V z ops m outs Hs Hr Hd. pose proof (mon_dead_reported ops (mk_mon (Some ([], z)) false true) eq_refl) as Hl.
  rewrite Hr in Hl. cbn [fst snd] in Hl. split; [destruct Hl; [assumption|contradiction]|]. clear Hd Hl. pose proof (mon_fifo z ops [] false true Hs) as H. rewrite Hr in H.
  destruct H as [q [al [-> [H _]]]]. exists q. split; [exact H|reflexivity].
Qed.
Print Assumptions C20_outside_env_partial.

Example C20_example :
  snd (mon_run (new_monitor true)
    [Result (Some 9); Start 2; Result (Some 1); Result None; Result (Some 2); Result (Some 3); Read; Result (Some 4); Read; Read; Read]%nat) =
  [MNone; MStarted; MKept; MNone; MKept; MDropped; MGot 1; MKept; MGot 2; MGot 4; MWaits]%nat.
Proof. reflexivity. Qed.
