(** Lemmas about the Delayer model. *)
From Coq Require Import List ZArith Bool Lia.
From Verif Require Import Py Prio_Model Prio_Proofs Delay_Model.
Import ListNotations.
Open Scope Z_scope.

Section D.
  Context {V : Type}.

  (** the last [k] elements of a list *)
  Definition last_n (k : nat) (l : list V) : list V := skipn (length l - k) l.

  Lemma delayer_inv n vs : forall d : delayer V,
    d_delay d = Z.of_nat n ->
    forall hist, d_list d = last_n (S n) hist ->
    d_list (delayer_run d vs) = last_n (S n) (hist ++ vs) /\ d_delay (delayer_run d vs) = Z.of_nat n.
  Proof.
    unfold delayer_run. induction vs as [|v vs IH]; intros d Hd hist Hl; cbn [fold_left].
    - rewrite app_nil_r. auto.
    - replace (hist ++ v :: vs) with ((hist ++ [v]) ++ vs) by (rewrite <- app_assoc; reflexivity).
      apply IH; [exact Hd|]. cbn [delayer_sample d_list].
      rewrite Hl. unfold last_n in *. rewrite Hd, skipn_length, app_length. cbn [length].
      destruct (Z.geb_spec (Z.of_nat (length hist - (length hist - S n))) (Z.of_nat n + 1)) as [H|H].
      + replace (length hist + 1 - S n)%nat with (S (length hist - S n)) by lia.
        rewrite skipn_app. replace (S (length hist - S n) - length hist)%nat with 0%nat by lia. cbn [skipn].
        f_equal. generalize (length hist - S n)%nat. intros k. clear. revert k.
        induction hist as [|x h IH]; intros k; [destruct k; reflexivity|].
        destruct k as [|k]; [reflexivity|]. exact (IH k).
      + replace (length hist - S n)%nat with 0%nat by lia.
        replace (length hist + 1 - S n)%nat with 0%nat by lia. reflexivity.
  Qed.

  Lemma nth_error_skipn {A} (l : list A) : forall k i, nth_error (skipn k l) i = nth_error l (k + i).
  Proof. induction l as [|x l IH]; intros [|k] i; cbn; auto. destruct i; reflexivity. Qed.

  Lemma delayer_exact (n : nat) (vs : list V) (d : delayer V) : delayer_init (Z.of_nat n) = Ok d ->
    let d' := delayer_run d vs in
    ((length vs <= n)%nat -> delayer_value d' = None) /\
    ((n < length vs)%nat -> delayer_value d' = nth_error vs (length vs - 1 - n) /\ delayer_value d' <> None) /\
    (length (d_list d') <= n + 1)%nat.
  Proof.
    intros E. unfold delayer_init in E. destruct (Z.of_nat n >=? 0); [|discriminate]. injection E as <-.
    destruct (delayer_inv n vs (mk_delayer (Z.of_nat n) []) eq_refl [] eq_refl) as [Hl Hd].
    cbn [app] in Hl. cbv zeta. unfold delayer_value. rewrite Hl, Hd.
    unfold last_n. rewrite skipn_length.
    split; [|split].
    - intros H. destruct (Z.eqb_spec (Z.of_nat (length vs - (length vs - S n))) (Z.of_nat n + 1)); [lia|reflexivity].
    - intros H. destruct (Z.eqb_spec (Z.of_nat (length vs - (length vs - S n))) (Z.of_nat n + 1)); [|lia].
      cbn [negb].
      assert (nth_error (skipn (length vs - S n) vs) 0 = nth_error vs (length vs - 1 - n)) as Hn.
      { rewrite nth_error_skipn. f_equal. lia. }
      destruct (skipn (length vs - S n) vs) as [|x l] eqn:E.
      + apply (f_equal (@length V)) in E. rewrite skipn_length in E. cbn in E. lia.
      + split; [exact Hn|discriminate].
    - lia.
  Qed.

  Lemma delayer_init_reject (z : Z) : delayer_init (V := V) z = Exn AssertionError <-> z < 0.
  Proof. unfold delayer_init. destruct (Z.geb_spec z 0); split; intros; try discriminate; try lia; reflexivity. Qed.

  (** ** Cycles *)
  Fixpoint all_samples (n : nat) (regs : nat -> list (list (ptask unit))) (pin : nat -> nat -> V) : list V :=
    match n with
    | O => []
    | S c => all_samples c regs pin ++ cycle_samples (regs c) (pin c) 0
    end.

  Lemma run_cycles_samples n regs pin (d : delayer V) :
    run_cycles n regs pin d = delayer_run d (all_samples n regs pin).
  Proof.
    induction n as [|n IH]; cbn; [reflexivity|]. rewrite IH. unfold delayer_run.
    rewrite fold_left_app. reflexivity.
  Qed.

  Definition quiet (l : list (list (ptask unit))) : Prop :=
    match l with [] => True | r :: _ => forall t, In t r -> pt_done t = None end.

  Lemma quiet_one_sample l pin p : quiet l -> cycle_samples (V := V) l pin p = [pin p].
  Proof.
    destruct l as [|r l]; [reflexivity|]. cbn [quiet cycle_samples]. intros H. f_equal.
    destruct (x_ret _) as [[|]|] eqn:E; try reflexivity.
    apply pass_correct in E as (_ & _ & _ & Hb & _). destruct Hb as [Hb _].
    destruct (Hb eq_refl) as (t & Ht & Hd). specialize (H t Ht). congruence.
  Qed.

  Lemma quiet_samples n regs pin : (forall c, (c < n)%nat -> quiet (regs c)) ->
    all_samples n regs pin = map (fun c => pin c 0%nat) (seq 0 n).
  Proof.
    induction n as [|n IH]; intros H; [reflexivity|]. cbn [all_samples].
    rewrite IH by (intros c Hc; apply H; lia). rewrite quiet_one_sample by (apply H; lia).
    rewrite seq_S, map_app. reflexivity.
  Qed.

  Lemma cycle_delay_quiet n dl regs pin (d : delayer V) :
    delayer_init (Z.of_nat dl) = Ok d -> (forall c, (c < n)%nat -> quiet (regs c)) ->
    (dl < n)%nat -> delayer_value (run_cycles n regs pin d) = Some (pin (n - 1 - dl)%nat 0%nat).
  Proof.
    intros Hi Hq Hn. rewrite run_cycles_samples, quiet_samples by exact Hq.
    destruct (delayer_exact dl (map (fun c => pin c 0%nat) (seq 0 n)) d Hi) as (_ & H & _).
    rewrite map_length, seq_length in H. destruct (H Hn) as [-> _].
    rewrite nth_error_map. rewrite (nth_error_nth' _ 0%nat) by (rewrite seq_length; lia).
    rewrite seq_nth by lia. reflexivity.
  Qed.

  (** in general: the value is a sample of one of the last dl+1 cycles *)
  Lemma all_samples_length n regs pin : (n <= length (all_samples n regs pin))%nat.
  Proof.
    induction n as [|n IH]; cbn [all_samples]; [lia|]. rewrite app_length.
    assert (1 <= length (cycle_samples (regs n) (pin n) 0))%nat; [|lia].
    destruct (regs n); cbn; lia.
  Qed.

  Lemma cycle_samples_in l pin : forall p x, In x (cycle_samples (V := V) l pin p) -> exists q, x = pin q.
  Proof.
    induction l as [|r l IH]; intros p x H; cbn [cycle_samples] in H.
    - destruct H as [<-|[]]; eauto.
    - destruct H as [<-|H]; [eauto|]. destruct (x_ret _) as [[|]|]; [eauto|destruct H|destruct H].
  Qed.

  Lemma sample_at n regs pin : forall i, (i < length (all_samples n regs pin))%nat ->
    exists c p, nth_error (all_samples n regs pin) i = Some (pin c p) /\ (c < n)%nat /\
      (n - c <= length (all_samples n regs pin) - i)%nat.
  Proof.
    induction n as [|n IH]; intros i Hi; cbn [all_samples] in *; [cbn in Hi; lia|].
    rewrite app_length in *.
    destruct (Nat.lt_ge_cases i (length (all_samples n regs pin))) as [H|H].
    - destruct (IH i H) as (c & p & E & Hc & Hl). exists c, p.
      rewrite nth_error_app1 by exact H. split; [exact E|].
      assert (1 <= length (cycle_samples (regs n) (pin n) 0))%nat by (destruct (regs n); cbn; lia).
      lia.
    - rewrite nth_error_app2 by exact H.
      destruct (nth_error (cycle_samples (regs n) (pin n) 0) (i - length (all_samples n regs pin))) as [x|] eqn:E.
      + destruct (cycle_samples_in _ _ _ _ (nth_error_In _ _ E)) as (q & ->).
        exists n, q. repeat split; lia.
      + apply nth_error_None in E. lia.
  Qed.

  Lemma cycle_delay_at_most n dl regs pin (d : delayer V) :
    delayer_init (Z.of_nat dl) = Ok d -> (dl < n)%nat ->
    exists c p, delayer_value (run_cycles n regs pin d) = Some (pin c p) /\ (n - 1 - dl <= c < n)%nat.
  Proof.
    intros Hi Hn. rewrite run_cycles_samples.
    pose proof (all_samples_length n regs pin) as HL.
    destruct (delayer_exact dl (all_samples n regs pin) d Hi) as (_ & H & _).
    destruct (H ltac:(lia)) as [Hv Hne].
    destruct (sample_at n regs pin (length (all_samples n regs pin) - 1 - dl)) as (c & p & E & Hc & Hl); [lia|].
    exists c, p. split; [congruence|]. lia.
  Qed.
End D.

Lemma cycle_delay_refuted :
  exists (dl n : nat) (regs : nat -> list (list (ptask unit))) (pin : nat -> nat -> Z) (d : delayer Z),
    delayer_init (Z.of_nat dl) = Ok d /\ (dl < n)%nat /\
    delayer_value (run_cycles n regs pin d) <> Some (pin (n - 1 - dl)%nat 0%nat) /\
    (forall c p q, pin c p = pin c q).
Proof.
  exists 1%nat, 2%nat, (fun c => match c with 1%nat => [[mk_pt tt 99 (Some 0%nat)]] | _ => [] end),
    (fun c _ => Z.of_nat c), (mk_delayer 1 []).
  split; [reflexivity|]. split; [lia|]. split; [|reflexivity]. vm_compute. discriminate.
Qed.
