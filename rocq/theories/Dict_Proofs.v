(** Lemmas about the dictionary vocabulary of Py.v. *)
From Coq Require Import List String Bool ZArith Lia.
From Verif Require Import Py.
Import ListNotations.

Section D.
  Context {V : Type}.
  Implicit Types (d : dict V) (k : string) (v : V).

  Lemma dget_set_same d k v : dget (dset d k v) k = Some v.
  Proof.
    induction d as [|[k' v'] d IH]; cbn [dset dget].
    - rewrite String.eqb_refl. reflexivity.
    - destruct (String.eqb k k') eqn:E; cbn [dget]; rewrite E; auto.
  Qed.

  Lemma dget_set_other d k k' v : k' <> k -> dget (dset d k v) k' = dget d k'.
  Proof.
    intros Hne. induction d as [|[k1 v1] d IH]; cbn [dset dget].
    - destruct (String.eqb_spec k' k); [contradiction|reflexivity].
    - destruct (String.eqb_spec k k1) as [->|Hk]; cbn [dget].
      + destruct (String.eqb_spec k' k1); [contradiction|reflexivity].
      + destruct (String.eqb k' k1); auto.
  Qed.

  Lemma dget_In d k v : dget d k = Some v -> In (k, v) d.
  Proof.
    induction d as [|[k1 v1] d IH]; cbn [dget]; [discriminate|].
    destruct (String.eqb_spec k k1) as [->|]; [intros [= ->]; left; reflexivity|right; auto].
  Qed.

  Lemma In_dget d k v : NoDup (dkeys d) -> In (k, v) d -> dget d k = Some v.
  Proof.
    induction d as [|[k1 v1] d IH]; intros Hn Hin; [destruct Hin|].
    cbn in Hn. inversion Hn as [|? ? Hni Hn']; subst. cbn [dget].
    destruct Hin as [[= -> ->]|Hin]; [rewrite String.eqb_refl; reflexivity|].
    destruct (String.eqb_spec k k1) as [->|]; [|auto].
    exfalso. apply Hni. apply in_map_iff. exists (k1, v). auto.
  Qed.

  Lemma dget_None d k : dget d k = None <-> ~ In k (dkeys d).
  Proof.
    induction d as [|[k1 v1] d IH]; cbn; [tauto|].
    destruct (String.eqb_spec k k1) as [->|Hne]; split; intros H.
    - discriminate.
    - exfalso; apply H; auto.
    - rewrite IH in H. intros [E|Hi]; [congruence|auto].
    - apply IH. tauto.
  Qed.

  Lemma dget_Some_key d k : (exists v, dget d k = Some v) <-> In k (dkeys d).
  Proof.
    split.
    - intros [v H]. apply dget_In in H. apply in_map_iff. exists (k, v). auto.
    - intros H. destruct (dget d k) eqn:E; [eauto|]. apply dget_None in E. contradiction.
  Qed.

  Lemma dmem_true d k : dmem d k = true <-> In k (dkeys d).
  Proof.
    unfold dmem. rewrite <- dget_Some_key. destruct (dget d k); split; intros; try eauto; try discriminate.
    destruct H; discriminate.
  Qed.

  Lemma dmem_false d k : dmem d k = false <-> ~ In k (dkeys d).
  Proof. rewrite <- dmem_true. destruct (dmem d k); split; intros; congruence. Qed.

  Lemma dset_keys_in d k v : In k (dkeys d) -> dkeys (dset d k v) = dkeys d.
  Proof.
    induction d as [|[k1 v1] d IH]; cbn; [tauto|]. intros H.
    destruct (String.eqb_spec k k1) as [->|Hne]; cbn; [reflexivity|].
    f_equal. apply IH. destruct H; [congruence|assumption].
  Qed.

  Lemma dset_notin d k v : ~ In k (dkeys d) -> dset d k v = d ++ [(k, v)].
  Proof.
    induction d as [|[k1 v1] d IH]; cbn; [reflexivity|]. intros H.
    destruct (String.eqb_spec k k1) as [->|Hne]; [exfalso; auto|]. f_equal. apply IH. tauto.
  Qed.

  Lemma dset_keys_notin d k v : ~ In k (dkeys d) -> dkeys (dset d k v) = dkeys d ++ [k].
  Proof. intros H. rewrite dset_notin by exact H. unfold dkeys. rewrite map_app. reflexivity. Qed.

  Lemma dset_nodup d k v : NoDup (dkeys d) -> NoDup (dkeys (dset d k v)).
  Proof.
    intros H. destruct (in_dec string_dec k (dkeys d)) as [Hi|Hi].
    - rewrite dset_keys_in; assumption.
    - rewrite dset_keys_notin by exact Hi.
      apply NoDup_Add with (a := k) (l := dkeys d).
      + replace (dkeys d) with (dkeys d ++ [])%list at 1 by apply app_nil_r. apply Add_app.
      + split; assumption.
  Qed.

  Lemma ddel_keys_incl d k x : In x (dkeys (ddel d k)) -> In x (dkeys d).
  Proof.
    induction d as [|[k1 v1] d IH]; cbn; [tauto|]. destruct (String.eqb k k1); cbn; tauto.
  Qed.

  Lemma ddel_nodup d k : NoDup (dkeys d) -> NoDup (dkeys (ddel d k)).
  Proof.
    induction d as [|[k1 v1] d IH]; cbn; [auto|]. intros H. inversion H; subst.
    destruct (String.eqb k k1); cbn; [assumption|]. constructor; auto.
    intros Hi. apply ddel_keys_incl in Hi. auto.
  Qed.

  Lemma dget_del_same d k : NoDup (dkeys d) -> dget (ddel d k) k = None.
  Proof.
    induction d as [|[k1 v1] d IH]; cbn; [reflexivity|]. intros H. inversion H; subst.
    destruct (String.eqb_spec k k1) as [->|Hne].
    - apply dget_None. assumption.
    - cbn. destruct (String.eqb_spec k k1); [contradiction|auto].
  Qed.

  Lemma dget_del_other d k k' : k' <> k -> dget (ddel d k) k' = dget d k'.
  Proof.
    intros Hne. induction d as [|[k1 v1] d IH]; cbn; [reflexivity|].
    destruct (String.eqb_spec k k1) as [->|Hk].
    - destruct (String.eqb_spec k' k1); [contradiction|reflexivity].
    - cbn. destruct (String.eqb k' k1); auto.
  Qed.

  Lemma ddel_keys d k : NoDup (dkeys d) -> dkeys (ddel d k) = filter (fun x => negb (String.eqb k x)) (dkeys d).
  Proof.
    induction d as [|[k1 v1] d IH]; cbn; [reflexivity|]. intros H. inversion H as [|? ? Hni Hnd]; subst.
    destruct (String.eqb_spec k k1) as [->|Hne]; cbn.
    - symmetry. change (map fst d) with (dkeys d) in *. clear - Hni. induction (dkeys d) as [|x l IHl]; cbn; [reflexivity|].
      destruct (String.eqb_spec k1 x) as [->|]; [exfalso; apply Hni; left; reflexivity|].
      cbn. f_equal. apply IHl. intros Hx; apply Hni; right; exact Hx.
    - f_equal. apply IH. exact Hnd.
  Qed.

  Lemma dset_In d k v x y : NoDup (dkeys d) -> In (x, y) (dset d k v) -> (x = k /\ y = v) \/ (x <> k /\ In (x, y) d).
  Proof.
    intros Hn Hin. apply In_dget in Hin; [|apply dset_nodup; exact Hn].
    destruct (string_dec x k) as [->|Hne].
    - rewrite dget_set_same in Hin. injection Hin as <-. auto.
    - rewrite dget_set_other in Hin by exact Hne. right. split; [exact Hne|]. apply dget_In. exact Hin.
  Qed.

  Lemma ddel_In d k x y : In (x, y) (ddel d k) -> In (x, y) d.
  Proof. induction d as [|[k1 v1] d IH]; cbn; [tauto|]. destruct (String.eqb k k1); cbn; tauto. Qed.
End D.

Lemma smem_In x l : smem x l = true <-> In x l.
Proof.
  induction l as [|y l IH]; cbn; [split; [discriminate|tauto]|].
  rewrite orb_true_iff, IH, String.eqb_eq. split; intros [H|H]; auto.
Qed.
