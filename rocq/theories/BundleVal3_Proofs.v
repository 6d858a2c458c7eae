(** set_all, randomize_all, '*', and flat dictionaries. *)
From Coq Require Import List String Ascii Bool Arith ZArith Lia.
From Verif Require Import Py Dict_Proofs Bundle_Model Bundle_Spec Bundle_Proofs Bundle4_Proofs BundleVal_Model BundleVal_Spec BundleVal_Proofs BundleVal2_Proofs.
Import ListNotations.
Open Scope string_scope.
Open Scope list_scope.

Section Writes.
Context (wr : pin -> val -> res Z) (usr : nat -> bundle -> store -> res unit * store).

Lemma write_pin x st i : snd (write_slot wr (SPin i) x st) i = st i \/ exists z, snd (write_slot wr (SPin i) x st) i = set_val (st i) z.
Proof. cbn [write_slot]. destruct (wr (st i) x) as [z|e]; [right; exists z; cbn [snd]; unfold upd; now rewrite Nat.eqb_refl|now left]. Qed.
Lemma write_out s x st i : p_out (snd (write_slot wr s x st) i) = p_out (st i) /\ p_width (snd (write_slot wr s x st) i) = p_width (st i).
Proof.
  destruct s as [| | |j]; try (split; reflexivity). destruct (Nat.eq_dec j i) as [->|Hn].
  - destruct (write_pin x st i) as [->|[z ->]]; split; reflexivity.
  - rewrite write_frame by congruence. auto.
Qed.

(** * set_all *)
Lemma write_all_frame l v : forall st i, (forall n, ~ In (n, SPin i) l) \/ p_out (st i) = true -> snd (write_all wr l v st) i = st i.
Proof.
  induction l as [|[n s] t IH]; intros st i H; [reflexivity|]. cbn [write_all].
  assert (Ht : forall st', st' i = st i -> snd (write_all wr t v st') i = st i).
  { intros st' E. rewrite IH; [exact E|]. rewrite E. destruct H as [H|H]; [left; intros m Hm; apply (H m); now right|now right]. }
  destruct s as [| | |j]; try (apply Ht; reflexivity). destruct (p_out (st j)) eqn:Ho; [apply Ht; reflexivity|].
  assert (Hj : SPin j <> SPin i).
  { intros [= ->]. destruct H as [H|H]; [apply (H n); now left|congruence]. }
  pose proof (write_frame wr (SPin j) v st i Hj) as Hf. destruct (write_slot wr (SPin j) v st) as [[u|e] st1]; cbn [snd] in *; [apply Ht; exact Hf|exact Hf].
Qed.
Lemma write_all_effect l1 n l2 v st i : (forall m, ~ In (m, SPin i) l1) -> (forall m, ~ In (m, SPin i) l2) -> p_out (st i) = false ->
  fst (write_all wr (l1 ++ (n, SPin i) :: l2) v st) = Ok tt -> wrote wr st (snd (write_all wr (l1 ++ (n, SPin i) :: l2) v st)) i v.
Proof.
  intros H1 H2. revert st. induction l1 as [|[m s] t IH]; intros st Ho; cbn [List.app write_all].
  - rewrite Ho. pose proof (write_effect wr v st i) as He. destruct (write_slot wr (SPin i) v st) as [[u|e] st1]; cbn [fst snd] in *; [|discriminate]. intros _. destruct u.
    destruct (He eq_refl) as (z & Hz & E). exists z. split; [exact Hz|]. rewrite write_all_frame; [exact E|now left].
  - assert (Ht : forall st', st' i = st i -> fst (write_all wr (t ++ (n, SPin i) :: l2) v st') = Ok tt -> wrote wr st (snd (write_all wr (t ++ (n, SPin i) :: l2) v st')) i v).
    { intros st' E Hok. destruct (IH (fun m' Hm => H1 m' (or_intror Hm)) st') as (z & Hz & E'); [now rewrite E|exact Hok|]. exists z. rewrite E in *. auto. }
    destruct s as [| | |j]; try (apply Ht; reflexivity). destruct (p_out (st j)) eqn:Hoj; [apply Ht; reflexivity|].
    assert (Hj : SPin j <> SPin i) by (intros [= ->]; apply (H1 m); now left).
    pose proof (write_frame wr (SPin j) v st i Hj) as Hf. destruct (write_slot wr (SPin j) v st) as [[u|e] st1]; cbn [fst snd] in *; [apply Ht; exact Hf|discriminate].
Qed.

(** The pin occurs once among the signals of the tree. *)
Lemma signals_split b i p l : wf b -> idents b -> single b i -> holds b (p, l) i -> exists l1 l2,
  all_signals b "" = l1 ++ (dotted p l, SPin i) :: l2 /\ (forall m, ~ In (m, SPin i) l1) /\ (forall m, ~ In (m, SPin i) l2).
Proof.
  intros Hw Hid Hs Hh. rewrite (all_signals_places b Hw Hid). assert (Hp : In (p, l) (places b)) by (apply place_slot; [exact Hw|]; unfold holds in Hh; congruence).
  destruct (in_split _ _ Hp) as (a & c & E). assert (Hn := wf_places b Hw). rewrite E in *. rewrite map_app. cbn [map fst snd]. unfold holds in Hh. rewrite Hh.
  apply NoDup_remove_2 in Hn. assert (G : forall q, In q (a ++ c) -> slot_at b q <> Some (SPin i)).
  { intros q Hq Hc. apply Hn. rewrite <- (Hs _ _ Hc Hh). exact Hq. }
  eexists _, _. split; [reflexivity|]. split; intros m Hm; apply in_map_iff in Hm; destruct Hm as (q & Eq & Hq); injection Eq as _ Eq; (destruct (slot_at b q) as [s|] eqn:Es; [subst; apply (G q); [apply in_app_iff; auto|exact Es]|discriminate]).
Qed.
Lemma signals_none b i : wf b -> idents b -> ~ held b i -> forall m, ~ In (m, SPin i) (all_signals b "").
Proof.
  intros Hw Hid Hn m Hm. apply Hn. destruct (in_all_signals b Hw "" (SPin i)) as [H _]. destruct H as [pl Hp]; [|now exists pl]. change (SPin i) with (snd (m, SPin i)). now apply in_map.
Qed.
Lemma set_all_frame b v st i : wf b -> idents b -> (held b i -> p_out (st i) = true) -> snd (set_all wr b v st) i = st i.
Proof.
  intros Hw Hid H. unfold set_all. apply write_all_frame. destruct (p_out (st i)) eqn:E; [now right|left]. apply signals_none; auto. intros Hh. specialize (H Hh). discriminate.
Qed.
Lemma set_all_effect b v st i : wf b -> idents b -> single b i -> held b i -> p_out (st i) = false -> fst (set_all wr b v st) = Ok tt ->
  wrote wr st (snd (set_all wr b v st)) i v.
Proof.
  intros Hw Hid Hs [[p l] Hh] Ho. unfold set_all. destruct (signals_split b i p l Hw Hid Hs Hh) as (l1 & l2 & -> & H1 & H2). now apply write_all_effect.
Qed.

(** * randomize_all *)
Lemma random_frame rnd range excl l : forall k st i, (forall n, In (n, SPin i) l -> In n excl) \/ p_out (st i) = true -> snd (random_all wr rnd k range excl l st) i = st i.
Proof.
  induction l as [|[n s] t IH]; intros k st i H; [reflexivity|]. cbn [random_all].
  assert (Ht : forall k' st', st' i = st i -> snd (random_all wr rnd k' range excl t st') i = st i).
  { intros k' st' E. rewrite IH; [exact E|]. rewrite E. destruct H as [H|H]; [left; intros m Hm; apply (H m); now right|now right]. }
  destruct s as [| | |j]; try (apply Ht; reflexivity). destruct (smem n excl || p_out (st j)) eqn:Ho; [apply Ht; reflexivity|].
  apply orb_false_iff in Ho. destruct Ho as [Hx Ho]. destruct (bounds range (st j)) as [lo hi].
  assert (Hj : SPin j <> SPin i).
  { intros [= ->]. destruct H as [H|H]; [|congruence]. assert (Hi : In n excl) by (apply H; now left). apply smem_In in Hi. congruence. }
  pose proof (write_frame wr (SPin j) (VInt (rnd k lo hi)) st i Hj) as Hf. destruct (write_slot wr (SPin j) _ st) as [[u|e] st1]; cbn [snd] in *; [apply Ht; exact Hf|exact Hf].
Qed.
Lemma random_effect rnd range excl n l2 i : (forall m, ~ In (m, SPin i) l2) -> ~ In n excl -> forall l1 k st, (forall m, ~ In (m, SPin i) l1) -> p_out (st i) = false ->
  fst (random_all wr rnd k range excl (l1 ++ (n, SPin i) :: l2) st) = Ok tt ->
  exists k', wrote wr st (snd (random_all wr rnd k range excl (l1 ++ (n, SPin i) :: l2) st)) i (VInt (rnd k' (fst (bounds range (st i))) (snd (bounds range (st i))))).
Proof.
  intros H2 Hx. induction l1 as [|[m s] t IH]; intros k st H1 Ho; cbn [List.app random_all].
  - assert (Hsm : smem n excl = false) by (destruct (smem n excl) eqn:E; [apply smem_In in E; contradiction|reflexivity]). rewrite Hsm, Ho. cbn [orb]. destruct (bounds range (st i)) as [lo hi] eqn:Eb.
    pose proof (write_effect wr (VInt (rnd k lo hi)) st i) as He. destruct (write_slot wr (SPin i) _ st) as [[u|e] st1]; cbn [fst snd] in *; [|discriminate]. intros _. destruct u.
    exists k. destruct (He eq_refl) as (z & Hz & E). exists z. split; [exact Hz|]. rewrite random_frame; [exact E|]. left. intros m Hm. destruct (H2 m Hm).
  - assert (Ht : forall k' st', st' i = st i -> fst (random_all wr rnd k' range excl (t ++ (n, SPin i) :: l2) st') = Ok tt ->
      exists k'', wrote wr st (snd (random_all wr rnd k' range excl (t ++ (n, SPin i) :: l2) st')) i (VInt (rnd k'' (fst (bounds range (st i))) (snd (bounds range (st i)))))).
    { intros k' st' E Hok. destruct (IH k' st' (fun m' Hm => H1 m' (or_intror Hm))) as (k'' & z & Hz & E'); [now rewrite E|exact Hok|]. exists k'', z. rewrite E in *. auto. }
    destruct s as [| | |j]; try (apply Ht; reflexivity). destruct (smem m excl || p_out (st j)) eqn:Hoj; [apply Ht; reflexivity|]. destruct (bounds range (st j)) as [lo hi].
    assert (Hj : SPin j <> SPin i) by (intros [= ->]; apply (H1 m); now left).
    pose proof (write_frame wr (SPin j) (VInt (rnd k lo hi)) st i Hj) as Hf. destruct (write_slot wr (SPin j) _ st) as [[u|e] st1]; cbn [fst snd] in *; [apply Ht; exact Hf|discriminate].
Qed.
(** The pins that get a random number, in this order. *)
Fixpoint drawn (excl : list string) (st : store) (l : list (string * slot)) : list nat :=
  match l with
  | [] => []
  | (n, SPin i) :: t => if smem n excl || p_out (st i) then drawn excl st t else i :: drawn excl st t
  | _ :: t => drawn excl st t
  end.
Definition once (l : list (string * slot)) : Prop := forall l1 n i l2, l = l1 ++ (n, SPin i) :: l2 -> forall m, ~ In (m, SPin i) l2.
Lemma once_tail x l : once (x :: l) -> once l.
Proof. intros H l1 n i l2 E. apply (H (x :: l1) n i l2). now rewrite E. Qed.
Lemma drawn_out excl st st' l : (forall i, p_out (st' i) = p_out (st i)) -> drawn excl st' l = drawn excl st l.
Proof. intros H. induction l as [|[n [| | |i]] t IH]; cbn [drawn]; auto. now rewrite H, IH. Qed.
Lemma drawn_in excl st l i : In i (drawn excl st l) <-> p_out (st i) = false /\ exists n, In (n, SPin i) l /\ ~ In n excl.
Proof.
  induction l as [|[n [| | |j]] t IH]; cbn [drawn].
  1: { split; [intros []|intros [_ [n [[] _]]]]. }
  1-3: (rewrite IH; split; (intros [A [m [B C]]]; split; [exact A|exists m; split; [|exact C]]); [now right|destruct B as [B|B]; [discriminate|exact B]]).
  destruct (smem n excl || p_out (st j)) eqn:E.
  - rewrite IH. split; (intros [A [m [B C]]]; split; [exact A|exists m; split; [|exact C]]); [now right|]. destruct B as [[= <- <-]|B]; [|exact B]. exfalso. rewrite A, orb_false_r in E. apply smem_In in E. now apply C.
  - apply orb_false_iff in E. destruct E as [E1 E2]. cbn [In]. rewrite IH. split.
    + intros [<-|[A [m [B C]]]]; [split; [exact E2|]; exists n; split; [now left|]; intros X; apply smem_In in X; congruence|]. split; [exact A|]. exists m. split; [now right|exact C].
    + intros [A [m [[[= <- <-]|B] C]]]; [now left|right]. split; [exact A|]. now exists m.
Qed.
Lemma drawn_nodup excl st l : once l -> NoDup (drawn excl st l).
Proof.
  induction l as [|[n [| | |j]] t IH]; intros H; cbn [drawn]; try (apply IH; eapply once_tail; exact H); [constructor|]. destruct (smem n excl || p_out (st j)); [apply IH; eapply once_tail; exact H|]. constructor; [|apply IH; eapply once_tail; exact H].
  intros X. apply drawn_in in X. destruct X as [_ [m [X _]]]. exact (H [] n j t eq_refl m X).
Qed.
Lemma random_draws rnd range excl l : forall k st, once l -> fst (random_all wr rnd k range excl l st) = Ok tt ->
  forall n i, nth_error (drawn excl st l) n = Some i -> wrote wr st (snd (random_all wr rnd k range excl l st)) i (VInt (rnd (k + n) (fst (bounds range (st i))) (snd (bounds range (st i))))).
Proof.
  induction l as [|[m s] t IH]; intros k st H Hok n i Hn; [destruct n; discriminate|]. assert (Ht := once_tail _ _ H). cbn [random_all drawn] in *. destruct s as [| | |j]; try (now apply IH).
  destruct (smem m excl || p_out (st j)) eqn:E; [now apply IH|]. destruct (bounds range (st j)) as [lo hi] eqn:Eb.
  pose proof (write_effect wr (VInt (rnd k lo hi)) st j) as He. pose proof (fun i => write_frame wr (SPin j) (VInt (rnd k lo hi)) st i) as Hf. pose proof (write_out (SPin j) (VInt (rnd k lo hi)) st) as Hw.
  destruct (write_slot wr (SPin j) _ st) as [[u|e] st1]; cbn [fst snd] in *; [|discriminate]. destruct u. destruct n as [|n]; cbn [nth_error] in Hn.
  - injection Hn as <-. rewrite Nat.add_0_r, Eb. cbn [fst snd]. destruct (He eq_refl) as (z & Hz & E'). exists z. split; [exact Hz|]. rewrite random_frame; [exact E'|]. left. intros x Hx. destruct (H [] m j t eq_refl x Hx).
  - assert (Hij : j <> i). { intros ->. apply nth_error_In in Hn. apply drawn_in in Hn. destruct Hn as [_ [x [Hx _]]]. exact (H [] m i t eq_refl x Hx). }
    rewrite <- (drawn_out excl st st1) in Hn by (intros x; apply Hw). destruct (IH (S k) st1 Ht Hok n i Hn) as (z & Hz & E'). exists z. rewrite (Hf i) in * by congruence. replace (k + S n) with (S k + n) by lia. auto.
Qed.
Lemma signal_names b i p l n : wf b -> idents b -> single b i -> holds b (p, l) i -> In (n, SPin i) (all_signals b "") -> n = dotted p l.
Proof.
  intros Hw Hid Hs Hh Hn. destruct (signals_split b i p l Hw Hid Hs Hh) as (l1 & l2 & E & H1 & H2). rewrite E in Hn. apply in_app_iff in Hn. destruct Hn as [Hn|[[= <-]|Hn]]; [destruct (H1 n Hn)|reflexivity|destruct (H2 n Hn)].
Qed.

Lemma signals_once b : wf b -> idents b -> (forall i, single b i) -> once (all_signals b "").
Proof.
  intros Hw Hid Hs l1 n i l2 E m Hm. assert (In0 : In (n, SPin i) (all_signals b "")) by (rewrite E; apply in_app_iff; right; now left). destruct (in_all_signals b Hw "" (SPin i)) as [G _]. destruct G as [[p l] Hp]; [change (SPin i) with (snd (n, SPin i)); now apply in_map|].
  destruct (signals_split b i p l Hw Hid (Hs i) Hp) as (a & c & E' & H1 & H2). rewrite E in E'. clear - E' H1 H2 Hm. revert a E' H1. induction l1 as [|x l1 IH]; intros [|y a] E' H1; cbn [List.app] in E'.
  - injection E' as _ ->. exact (H2 m Hm).
  - injection E' as <- E'. apply (H1 n). now left.
  - injection E' as -> E'. apply (H2 n). rewrite <- E'. apply in_app_iff. right. now left.
  - injection E' as -> E'. apply (IH a E'). intros k Hk. apply (H1 k). now right.
Qed.

(** * '*' on the top level *)
Lemma assign_star b d x lv st : dget d "*" = Some x -> ~ In "*" (map fst (ddel d "*")) ->
  o_res (assign wr usr true b (VDict d) lv st) = Ok tt -> fst (set_all wr b x st) = Ok tt /\
  assign wr usr true b (VDict d) lv st = assign wr usr true b (VDict (ddel d "*")) lv (snd (set_all wr b x st)).
Proof.
  intros Hx Hn. destruct b as [nm m ls sls ks bls ck]. rewrite !assign_B, Hx. destruct (set_all wr _ x st) as [[u|e] st1]; cbn [fst snd]; [|discriminate]. destruct u.
  destruct (no_star _ Hn) as [-> E]. rewrite E. intros _. split; reflexivity.
Qed.
Lemma set_all_fail b d x lv st e : dget d "*" = Some x -> fst (set_all wr b x st) = Exn e ->
  o_res (assign wr usr true b (VDict d) lv st) = Exn e /\ o_st (assign wr usr true b (VDict d) lv st) = snd (set_all wr b x st).
Proof.
  intros Hx. destruct b as [nm m ls sls ks bls ck]. rewrite !assign_B, Hx. destruct (set_all wr _ x st) as [[u|e'] st1]; cbn [fst snd]; [discriminate|]. intros [= ->]. auto.
Qed.
End Writes.
