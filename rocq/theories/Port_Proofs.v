(** Lemmas about ports and monitor queues. *)
From Coq Require Import List ZArith Bool Lia.
From Verif Require Import Py Port_Model Port_Spec.
Import ListNotations.
Open Scope Z_scope.

Section Proofs.
Context {V : Type}.
Implicit Types (p : port V) (ops : list (pop V)).

Lemma port_run_app : forall ops1 ops2 p,
  port_run p (ops1 ++ ops2) =
  let (p1, o1) := port_run p ops1 in let (p2, o2) := port_run p1 ops2 in (p2, o1 ++ o2).
Proof.
  induction ops1 as [|o ops1 IH]; intros ops2 p; cbn [app port_run].
  - destruct (port_run p ops2); reflexivity.
  - destruct (port_op p o) as [p1 r]. rewrite IH. destruct (port_run p1 ops1) as [p2 o1].
    destruct (port_run p2 ops2); reflexivity.
Qed.

Lemma port_fifo : forall ops p, let (p', outs) := port_run p ops in
  reads outs ++ p_items p' = p_items p ++ accepted ops outs /\ p_maxsize p' = p_maxsize p.
Proof.
  induction ops as [|o ops IH]; intros p; cbn [port_run]; [cbn; rewrite app_nil_r; auto|].
  destruct o as [v|]; cbn [port_op]; unfold port_put, port_get.
  - destruct ((p_maxsize p <=? Z.of_nat (length (p_items p))) && negb (p_maxsize p =? -1)).
    + specialize (IH p). destruct (port_run p ops) as [p' outs]. exact IH.
    + specialize (IH (mk_port (p_maxsize p) (p_items p ++ [v]))).
      destruct (port_run _ ops) as [p' outs]. cbn [reads accepted p_items p_maxsize] in *.
      destruct IH as [H1 H2]. rewrite H1, <- app_assoc. auto.
  - destruct (p_items p) as [|x t] eqn:E.
    + specialize (IH p). destruct (port_run p ops) as [p' outs]. rewrite E in IH. exact IH.
    + specialize (IH (mk_port (p_maxsize p) t)). destruct (port_run _ ops) as [p' outs].
      cbn [reads accepted p_items p_maxsize] in *. destruct IH as [H1 H2]. cbn. rewrite H1. auto.
Qed.

Lemma port_bound : forall ops p, 0 < p_maxsize p -> Z.of_nat (length (p_items p)) <= p_maxsize p ->
  Z.of_nat (length (p_items (fst (port_run p ops)))) <= p_maxsize p.
Proof.
  induction ops as [|o ops IH]; intros p Hm Hl; cbn [port_run]; [exact Hl|].
  destruct o as [v|]; cbn [port_op]; unfold port_put, port_get.
  - destruct (Z.leb_spec (p_maxsize p) (Z.of_nat (length (p_items p)))) as [Hge|Hlt]; cbn [andb].
    + destruct (Z.eqb_spec (p_maxsize p) (-1)); [lia|]. cbn [negb].
      specialize (IH p Hm Hl). destruct (port_run p ops). exact IH.
    + specialize (IH (mk_port (p_maxsize p) (p_items p ++ [v])) Hm).
      cbn [p_items p_maxsize] in IH. rewrite app_length in IH. cbn [length] in IH.
      specialize (IH ltac:(lia)). destruct (port_run _ ops). exact IH.
  - destruct (p_items p) as [|x t] eqn:E.
    + specialize (IH p Hm). rewrite E in IH. specialize (IH Hl). destruct (port_run p ops). exact IH.
    + specialize (IH (mk_port (p_maxsize p) t) Hm). cbn [p_items p_maxsize] in IH. cbn [length] in Hl.
      specialize (IH ltac:(lia)). destruct (port_run _ ops). exact IH.
Qed.

(** outcome of a further operation, in terms of what was observed before *)
Lemma port_next p0 ops o p outs : port_run p0 ops = (p, outs) -> p_items p0 = [] ->
  snd (port_op p o) =
  match o with
  | Put v => if (p_maxsize p0 <=? Z.of_nat (length (accepted ops outs)) - Z.of_nat (length (reads outs))) && negb (p_maxsize p0 =? -1)
             then Dropped else Accepted
  | Get => match skipn (length (reads outs)) (accepted ops outs) with [] => Waits | x :: _ => Got x end
  end.
Proof.
  intros Hr H0. pose proof (port_fifo ops p0) as Hf. rewrite Hr, H0 in Hf. destruct Hf as [Hf Hm]. cbn [app] in Hf.
  assert (Z.of_nat (length (p_items p)) = Z.of_nat (length (accepted ops outs)) - Z.of_nat (length (reads outs))) as Hl
    by (rewrite <- Hf, app_length; lia).
  destruct o as [v|]; cbn [port_op].
  - unfold port_put. rewrite Hm, Hl. destruct (_ && _); reflexivity.
  - rewrite <- Hf, skipn_app, skipn_all, Nat.sub_diag. cbn [app skipn]. unfold port_get. destruct (p_items p); reflexivity.
Qed.

(** Monitors *)
Implicit Types (m : monitor V).

Lemma mon_fifo mx : forall (ops : list (mop V)) q ip al, no_start ops ->
  let (m', outs) := mon_run (mk_mon (Some (q, mx)) ip al) ops in
  exists q' al', m' = mk_mon (Some (q', mx)) ip al' /\ messages outs ++ q' = q ++ kept ops outs /\ (ip = true -> al' = al).
Proof.
  induction ops as [|o ops IH]; intros q ip al Hs; cbn [mon_run].
  - exists q, al. cbn. rewrite app_nil_r. auto.
  - inversion Hs as [|? ? Ho Hs']; subst. destruct o as [z|[v|]|]; [contradiction| | |]; cbn [mon_op m_alive m_queue m_path].
    + destruct al.
      * destruct (mx <=? Z.of_nat (length q)).
        -- destruct ip.
           ++ specialize (IH q true true Hs'). destruct (mon_run _ ops) as [m' outs]. exact IH.
           ++ specialize (IH q false false Hs'). destruct (mon_run _ ops) as [m' outs].
              destruct IH as [q' [al' [H1 [H2 H3]]]]. exists q', al'. split; [exact H1|]. split; [exact H2|]. discriminate.
        -- specialize (IH (q ++ [v]) ip true Hs'). destruct (mon_run _ ops) as [m' outs].
           destruct IH as [q' [al' [H1 [H2 H3]]]]. exists q', al'. split; [exact H1|]. split; [|exact H3].
           cbn [messages kept]. rewrite H2, <- app_assoc. reflexivity.
      * specialize (IH q ip false Hs'). destruct (mon_run _ ops) as [m' outs]. exact IH.
    + destruct al.
      * specialize (IH q ip true Hs'). destruct (mon_run _ ops) as [m' outs]. exact IH.
      * specialize (IH q ip false Hs'). destruct (mon_run _ ops) as [m' outs]. exact IH.
    + destruct q as [|x t].
      * specialize (IH [] ip al Hs'). destruct (mon_run _ ops) as [m' outs]. exact IH.
      * specialize (IH t ip al Hs'). destruct (mon_run _ ops) as [m' outs].
        destruct IH as [q' [al' [H1 [H2 H3]]]]. exists q', al'. split; [exact H1|]. split; [|exact H3].
        cbn [messages kept app]. rewrite H2. reflexivity.
Qed.

Lemma mon_dead_reported : forall (ops : list (mop V)) m, m_alive m = true ->
  m_alive (fst (mon_run m ops)) = true \/ In MDied (snd (mon_run m ops)).
Proof.
  induction ops as [|o ops IH]; intros m Ha; cbn [mon_run]; [auto|].
  assert (m_alive (fst (mon_op m o)) = true \/ snd (mon_op m o) = MDied) as H1.
  { destruct o as [z|r|]; cbn [mon_op]; [auto| |].
    - rewrite Ha. destruct r as [v|]; [|auto]. destruct (m_queue m) as [[q mx]|]; [|auto].
      destruct (mx <=? Z.of_nat (length q)); [destruct (m_path m)|]; cbn; auto.
    - destruct (m_queue m) as [[[|x t] mx]|]; cbn; auto. }
  destruct (mon_op m o) as [m1 r]. cbn [fst snd] in H1. destruct H1 as [H1|H1].
  - specialize (IH m1 H1). destruct (mon_run m1 ops). cbn [fst snd] in *. destruct IH; [left|right; right]; assumption.
  - destruct (mon_run m1 ops). right. left. exact H1.
Qed.

Lemma mon_inv_alive : forall (ops : list (mop V)) m, m_path m = true -> m_alive m = true ->
  m_path (fst (mon_run m ops)) = true /\ m_alive (fst (mon_run m ops)) = true.
Proof.
  induction ops as [|o ops IH]; intros m Hp Ha; cbn [mon_run]; [auto|].
  assert (m_path (fst (mon_op m o)) = true /\ m_alive (fst (mon_op m o)) = true) as [H1 H2].
  { destruct o as [z|r|]; cbn [mon_op]; [auto| |].
    - rewrite Ha. destruct r as [v|]; [|auto]. destruct (m_queue m) as [[q mx]|]; [|auto].
      destruct (mx <=? Z.of_nat (length q)); [rewrite Hp|]; cbn; auto.
    - destruct (m_queue m) as [[[|x t] mx]|]; cbn; auto. }
  destruct (mon_op m o) as [m1 r]. specialize (IH m1 H1 H2). destruct (mon_run m1 ops). exact IH.
Qed.

Lemma mon_run_app : forall (ops1 ops2 : list (mop V)) m,
  mon_run m (ops1 ++ ops2) =
  let (p1, o1) := mon_run m ops1 in let (p2, o2) := mon_run p1 ops2 in (p2, o1 ++ o2).
Proof.
  induction ops1 as [|o ops1 IH]; intros ops2 p; cbn [app mon_run].
  - destruct (mon_run p ops2); reflexivity.
  - destruct (mon_op p o) as [p1 r]. rewrite IH. destruct (mon_run p1 ops1) as [p2 o1].
    destruct (mon_run p2 ops2); reflexivity.
Qed.

(** state after start_monitor and further operations, in an Env *)
Lemma mon_after_start (before : list (mop V)) mx (ops : list (mop V)) : no_start ops -> forall m outs,
  mon_run (new_monitor true) (before ++ [Start mx]) = (m, outs) ->
  forall m' outs', mon_run m ops = (m', outs') ->
  exists q, m_queue m' = Some (q, mx) /\ m_alive m' = true /\ m_path m' = true /\ messages outs' ++ q = kept ops outs'.
Proof.
  intros Hs m outs Hb m' outs' Hr. rewrite mon_run_app in Hb.
  pose proof (mon_inv_alive before (new_monitor true) eq_refl eq_refl) as [Hp Ha].
  destruct (mon_run (new_monitor true) before) as [m1 o1]. cbn [fst] in Hp, Ha. cbn in Hb. injection Hb as <- <-.
  rewrite Hp, Ha in Hr. pose proof (mon_fifo mx ops [] true true Hs) as Hf. rewrite Hr in Hf.
  destruct Hf as [q [al [-> [Hq Hal]]]]. exists q. specialize (Hal eq_refl). subst al. cbn. auto.
Qed.

Lemma mon_bound mx : 0 <= mx -> forall (ops : list (mop V)) q ip al, no_start ops -> Z.of_nat (length q) <= mx ->
  Z.of_nat (monitor_size (fst (mon_run (mk_mon (Some (q, mx)) ip al) ops))) <= mx.
Proof.
  intros Hmx. induction ops as [|o ops IH]; intros q ip al Hs Hq; cbn [mon_run]; [exact Hq|].
  inversion Hs as [|? ? Ho Hs']; subst. destruct o as [z|[v|]|]; [contradiction| | |]; cbn [mon_op m_alive m_queue m_path].
  - destruct al.
    + destruct (Z.leb_spec mx (Z.of_nat (length q))) as [H|H].
      * destruct ip.
        -- specialize (IH q true true Hs' Hq). destruct (mon_run _ ops). exact IH.
        -- specialize (IH q false false Hs' Hq). destruct (mon_run _ ops). exact IH.
      * specialize (IH (q ++ [v]) ip true Hs'). rewrite app_length in IH. cbn [length] in IH. specialize (IH ltac:(lia)).
        destruct (mon_run _ ops). exact IH.
    + specialize (IH q ip false Hs' Hq). destruct (mon_run _ ops). exact IH.
  - destruct al.
    + specialize (IH q ip true Hs' Hq). destruct (mon_run _ ops). exact IH.
    + specialize (IH q ip false Hs' Hq). destruct (mon_run _ ops). exact IH.
  - destruct q as [|x t].
    + specialize (IH [] ip al Hs' Hq). destruct (mon_run _ ops). exact IH.
    + cbn [length] in Hq. specialize (IH t ip al Hs' ltac:(lia)). destruct (mon_run _ ops). exact IH.
Qed.

End Proofs.
