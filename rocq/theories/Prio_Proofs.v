(** Lemmas about the priority task list. *)
From Coq Require Import List ZArith Bool Lia Permutation Sorted.
From Verif Require Import Py Prio_Model.
Import ListNotations.
Open Scope Z_scope.

Section P.
  Context {A : Type}.
  Implicit Types (l : list (ptask A)) (x y : ptask A).

  Definition ple x y : Prop := pt_prio x <= pt_prio y.

  Lemma pt_insert_perm x l : Permutation (pt_insert x l) (x :: l).
  Proof.
    induction l as [|y l IH]; cbn [pt_insert]; [reflexivity|].
    destruct (pt_prio x <=? pt_prio y); [reflexivity|]. rewrite IH. apply perm_swap.
  Qed.

  Lemma pt_sorted_perm l : Permutation (pt_sorted l) l.
  Proof. induction l as [|x l IH]; cbn [pt_sorted]; [reflexivity|]. rewrite pt_insert_perm, IH. reflexivity. Qed.

  Lemma pt_insert_sorted x l : StronglySorted ple l -> StronglySorted ple (pt_insert x l).
  Proof.
    induction l as [|y l IH]; intros H; cbn [pt_insert].
    - constructor; constructor.
    - apply StronglySorted_inv in H as [H1 H2].
      destruct (Z.leb_spec (pt_prio x) (pt_prio y)).
      + constructor; [constructor; assumption|]. constructor; [exact H|].
        eapply Forall_impl; [|exact H2]. intros z Hz. unfold ple in *. lia.
      + constructor; [apply IH; exact H1|].
        rewrite Forall_forall in *. intros z Hz.
        apply (Permutation_in _ (pt_insert_perm x l)) in Hz as [<-|Hz].
        * unfold ple. lia.
        * apply H2. exact Hz.
  Qed.

  Lemma pt_sorted_sorted l : StronglySorted ple (pt_sorted l).
  Proof. induction l as [|x l IH]; cbn; [constructor|]. apply pt_insert_sorted. exact IH. Qed.

  Definition atp (p : Z) l := filter (fun t => pt_prio t =? p) l.

  Lemma pt_insert_stable p x l : StronglySorted ple l -> atp p (pt_insert x l) = atp p (x :: l).
  Proof.
    unfold atp. induction l as [|y l IH]; intros H; cbn [pt_insert]; [reflexivity|].
    apply StronglySorted_inv in H as [H1 H2].
    destruct (Z.leb_spec (pt_prio x) (pt_prio y)); [reflexivity|].
    cbn [filter]. rewrite IH by exact H1. cbn [filter].
    destruct (Z.eqb_spec (pt_prio x) p), (Z.eqb_spec (pt_prio y) p); try reflexivity. lia.
  Qed.

  Lemma pt_sorted_stable p l : atp p (pt_sorted l) = atp p l.
  Proof.
    induction l as [|x l IH]; cbn [pt_sorted]; [reflexivity|].
    rewrite pt_insert_stable by apply pt_sorted_sorted. unfold atp in *. cbn [filter]. rewrite IH. reflexivity.
  Qed.

  Context {W : Type} (run : A -> W -> W * option exn).

  Definition evs_of l : list nat := flat_map (fun t => match pt_done t with Some e => [e] | None => [] end) l.
  Definition has_done l : bool := existsb (fun t => match pt_done t with Some _ => true | None => false end) l.

  Lemma exec_loop_ok ts : forall w se w' ran evs b, exec_loop run ts w se = (w', ran, evs, Ok b) ->
    ran = ts /\ evs = evs_of ts /\ b = (se || has_done ts)%bool.
  Proof.
    induction ts as [|t ts IH]; intros w se w' ran evs b H; cbn [exec_loop] in H.
    - injection H as <- <- <- <-. cbn. rewrite orb_false_r. auto.
    - destruct (run (pt_coro t) w) as [w1 [e|]]; [discriminate|].
      destruct (exec_loop run ts w1 _) as [[[w2 ran2] evs2] ret] eqn:E.
      injection H as <- <- <- ->. destruct (IH _ _ _ _ _ _ E) as (-> & -> & ->).
      repeat split.
      + unfold evs_of. cbn [flat_map]. destruct (pt_done t); reflexivity.
      + cbn [has_done existsb]. destruct (pt_done t); destruct se; reflexivity.
  Qed.

  Lemma exec_loop_exn ts : forall w se w' ran evs e, exec_loop run ts w se = (w', ran, evs, Exn e) ->
    exists pre t post, ts = pre ++ t :: post /\ ran = pre ++ [t] /\ evs = evs_of pre.
  Proof.
    induction ts as [|t ts IH]; intros w se w' ran evs e H; cbn [exec_loop] in H; [discriminate|].
    destruct (run (pt_coro t) w) as [w1 [e'|]].
    - injection H as <- <- <- <-. exists [], t, ts. auto.
    - destruct (exec_loop run ts w1 _) as [[[w2 ran2] evs2] ret] eqn:E.
      injection H as <- <- <- ->. destruct (IH _ _ _ _ _ _ E) as (pre & t' & post & -> & -> & ->).
      exists (t :: pre), t', post. repeat split. unfold evs_of. cbn. destruct (pt_done t); reflexivity.
  Qed.

  (** world threading: hooks are run one after the other on the world left by the previous one *)
  Fixpoint run_seq l (w : W) : W :=
    match l with [] => w | t :: ts => run_seq ts (fst (run (pt_coro t) w)) end.

  Lemma exec_loop_world ts : forall w se w' ran evs ret, exec_loop run ts w se = (w', ran, evs, ret) ->
    w' = run_seq ran w.
  Proof.
    induction ts as [|t ts IH]; intros w se w' ran evs ret H; cbn [exec_loop] in H.
    - injection H as <- <- <- <-. reflexivity.
    - destruct (run (pt_coro t) w) as [w1 [e'|]] eqn:R.
      + injection H as <- <- <- <-. cbn. rewrite R. reflexivity.
      + destruct (exec_loop run ts w1 _) as [[[w2 ran2] evs2] ret2] eqn:E.
        injection H as <- <- <- <-. cbn. rewrite R. cbn. eapply IH. exact E.
  Qed.

  (** the pass succeeds when no hook raises *)
  Lemma exec_loop_total ts : (forall t w, In t ts -> snd (run (pt_coro t) w) = None) ->
    forall w se, exists w' , exec_loop run ts w se = (w', ts, evs_of ts, Ok (se || has_done ts)%bool).
  Proof.
    induction ts as [|t ts IH]; intros H w se; cbn [exec_loop].
    - exists w. cbn. rewrite orb_false_r. reflexivity.
    - pose proof (H t w (or_introl eq_refl)) as Ht.
      destruct (run (pt_coro t) w) as [w1 r]. cbn in Ht. subst r.
      destruct (IH (fun t' w' Ht' => H t' w' (or_intror Ht')) w1 (match pt_done t with Some _ => true | None => se end)) as (w' & ->).
      exists w'. unfold evs_of. cbn [flat_map has_done existsb]. destruct (pt_done t), se; reflexivity.
  Qed.

  Lemma has_done_perm l l' : Permutation l l' -> has_done l = has_done l'.
  Proof.
    intros P. unfold has_done. apply eq_true_iff_eq. rewrite !existsb_exists.
    split; intros (x & Hx & Hd); exists x; split; auto;
      [eapply Permutation_in; eauto | eapply Permutation_in; [symmetry|]; eauto].
  Qed.

  Lemma pass_correct l w :
    let o := execute_priority_tasks run l w in
    forall b, x_ret o = Ok b ->
      Permutation (x_ran o) l /\ StronglySorted ple (x_ran o) /\
      (forall p, atp p (x_ran o) = atp p l) /\
      (b = true <-> exists t, In t l /\ pt_done t <> None) /\
      x_left o = [] /\ x_set o = evs_of (x_ran o) /\ x_world o = run_seq (x_ran o) w.
  Proof.
    cbv zeta. unfold execute_priority_tasks. intros b.
    destruct (exec_loop run (pt_sorted l) w false) as [[[w' ran] evs] ret] eqn:E. cbn.
    intros ->. pose proof (exec_loop_world _ _ _ _ _ _ _ E) as Hw.
    apply exec_loop_ok in E as (-> & -> & ->).
    split; [apply pt_sorted_perm|]. split; [apply pt_sorted_sorted|]. split; [intros p; apply pt_sorted_stable|].
    split; [|auto].
    rewrite orb_false_l, (has_done_perm _ l) by apply pt_sorted_perm.
    unfold has_done. rewrite existsb_exists. split; intros (t & Ht & Hd); exists t; split; auto.
    - destruct (pt_done t); [discriminate|discriminate Hd].
    - destruct (pt_done t); [reflexivity|congruence].
  Qed.

  Lemma pass_total l w : (forall t w', In t l -> snd (run (pt_coro t) w') = None) ->
    exists b, x_ret (execute_priority_tasks run l w) = Ok b.
  Proof.
    intros H. unfold execute_priority_tasks.
    destruct (exec_loop_total (pt_sorted l)) with (w := w) (se := false) as (w' & ->).
    - intros t w' Ht. apply H. eapply Permutation_in; [apply pt_sorted_perm|exact Ht].
    - cbn. eauto.
  Qed.

  Lemma pass_raise_leaks l w e : x_ret (execute_priority_tasks run l w) = Exn e ->
    x_left (execute_priority_tasks run l w) = l /\ l <> [].
  Proof.
    unfold execute_priority_tasks.
    destruct (exec_loop run (pt_sorted l) w false) as [[[w' ran] evs] ret] eqn:E. cbn. intros ->.
    split; [reflexivity|]. intros ->. cbn in E. discriminate.
  Qed.
End P.
