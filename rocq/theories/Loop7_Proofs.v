(** Events and queues after one step; what happens to a task that is not running. *)
From Coq Require Import List Bool Arith ZArith Lia.
From Verif Require Import Py Prio_Model Loop_Model Loop_Spec Loop_Proofs Loop2_Proofs Loop3_Proofs Loop4_Proofs.
Import ListNotations.
Open Scope nat_scope.

Section Track.
Context {mem : Type}.
Notation prog := (@prog mem). Notation state := (@state mem). Notation body := (@body mem). Notation task := (@task mem).
Notation fut := (@fut mem). Notation kind := (@kind mem).
Implicit Types (s : state) (F : list fut).
Context (shuffle : list id -> list id) (dut delayers : mem -> mem).
Notation step := (step shuffle dut delayers). Notation steps := (steps shuffle dut delayers).

(** * Events after one step *)
Definition evset (E : list event) (e : id) : list event :=
  match nth_error E e with Some ev => if e_val ev then E else put_nth e (mk_event true (e_waiters ev) (e_priv ev)) E | None => E end.
Definition evclear (E : list event) (e : id) : list event :=
  match nth_error E e with Some ev => put_nth e (mk_event false (e_waiters ev) (e_priv ev)) E | None => E end.
Definition evop s (o : @op mem prog) : list event :=
  match o with
  | OEvNew => evs s ++ [mk_event false [] false]
  | OPrio _ _ true => evs s ++ [mk_event false [] true]
  | OEvSet e => match nth_error (evs s) e with Some ev => if e_priv ev then evs s else evset (evs s) e | None => evs s end
  | OEvClear e => match nth_error (evs s) e with Some ev => if e_priv ev then evs s else evclear (evs s) e | None => evs s end
  | OEvWait e => match nth_error (evs s) e with
                 | Some ev => if e_val ev then evs s else put_nth e (mk_event false (e_waiters ev ++ [List.length (futs s)]) (e_priv ev)) (evs s)
                 | None => evs s end
  | _ => evs s
  end.
Definition evafter s : list event :=
  match cur s with
  | Some (_, BProg (Op o _)) | Some (_, BHook (Op o _) _ _ _) | Some (_, BTest (Op o _)) => evop s o
  | Some (_, BHook (Ret _) (Some e) _ _) => evset (evs s) e
  | Some (_, BTest (Ret _)) => match clock s with Some _ => evop s (OEvWait 0) | None => evs s end
  | Some (_, BEv e f _ _) => match nth_error (evs s) e with Some ev => put_nth e (mk_event (e_val ev) (remove1 f (e_waiters ev)) (e_priv ev)) (evs s) | None => evs s end
  | Some (_, BClk (CStep _)) => evclear (evset (evs s) 0) 0
  | _ => evs s
  end.
Lemma ev_set_evset s e : evs (ev_set s e) = evset (evs s) e.
Proof.
  unfold ev_set, evset. destruct (nth_error (evs s) e) as [ev|]; auto. destruct (e_val ev); auto.
  rewrite (rest_evs _ _ (rest_fold (fun s f => settle s f _) (e_waiters ev) _ (fun s f => rest_settle s f _))). reflexivity.
Qed.
Lemma ev_clear_evclear s e : evs (ev_clear s e) = evclear (evs s) e.
Proof. unfold ev_clear, evclear. destruct (nth_error (evs s) e) as [ev|]; auto. Qed.
Lemma evs_finish s t r : evs (finish s t r) = evs s.
Proof. unfold finish, conclude. destruct (fget _ _) as [fu|]; auto. destruct (pending fu); auto. Qed.
Lemma evs_q_get s t q k : evs (q_get s t q k) = evs s.
Proof.
  unfold q_get. destruct (nth_error (qs s) q) as [qu|]; auto. destruct (q_items qu) as [|v l]; auto. rewrite (frame_evs _ _ (frame_suspend _ _ _ _)). reflexivity.
Qed.
Lemma exec_op_evs s t o k : evs (exec_op s t o k) = evop s o.
Proof.
  unfold exec_op, evop. destruct o as [f|m|fl| |p|f|f| |e|e|e| |q v|q|q| |h z [|]|l| |]; auto.
  - destruct (f (mm s)); auto.
  - apply (frame_evs _ _ (frame_suspend0 _ _ _)).
  - destruct (fget s f) as [fu|]; auto. destruct (negb _); auto. destruct (pending fu); auto. apply (frame_evs _ _ (frame_suspend _ _ _ _)).
  - destruct (fget s f) as [fu|]; auto. destruct (negb _); auto. exact (rest_evs _ _ (rest_cancel _ s f)).
  - destruct (nth_error (evs s) e) as [ev|]; auto. destruct (e_priv ev); auto. apply ev_set_evset.
  - destruct (nth_error (evs s) e) as [ev|]; auto. destruct (e_priv ev); auto. apply ev_clear_evclear.
  - destruct (nth_error (evs s) e) as [ev|]; auto. destruct (e_val ev); auto. rewrite (frame_evs _ _ (frame_suspend _ _ _ _)). reflexivity.
  - destruct (nth_error (qs s) q) as [qu|]; auto. exact (q_wake_evs _ q).
  - apply evs_q_get.
  - destruct (nth_error (qs s) q) as [qu|]; auto.
  - destruct (nodup _ _) as [|x l']; auto.
    match goal with |- evs (go ?y _ _) = _ => change (evs y = evs (falloc s (mk_fut Pending [] (KGather (List.length (x :: l')))))) end.
    apply rest_evs, (rest_fold (fun s f => on_done s f _)). intros. apply rest_on_done.
  - destruct (clock s); auto.
Qed.
Lemma step_evs fire s : evs (step fire s) = evafter s.
Proof.
  unfold Loop_Model.step, evafter. destruct (cur s) as [[t b]|] eqn:Hc.
  - destruct b as [[v|e|o kk]|[v|e|o kk] ev todo sb|c|e f r kk|q f [v|e] kk|test|[v|e|o kk]]; cbn [exec_body]; try apply exec_op_evs; try apply evs_finish; auto.
    + destruct ev as [e|]; auto. exact (ev_set_evset (set_ran s (ran s ++ [e])) e).
    + destruct c as [| | |[|[h ev] todo] sb| | | |last]; cbn [exec_clk]; auto.
      * destruct (tdone s); auto. apply (frame_evs _ _ (frame_suspend0 _ _ _)).
      * exact (frame_evs _ _ (frame_suspend0 _ _ _)).
      * destruct (_ || _); auto.
      * set (l := shuffle _). assert (E : evs (fold_left cancel_top l s) = evs s) by (apply rest_evs, rest_fold; intros; apply rest_cancel). destruct l as [|x l].
        -- rewrite (frame_evs _ _ (frame_suspend0 _ _ _)). exact E.
        -- rewrite (frame_evs _ _ (frame_suspend _ _ _ _)). rewrite <- E. 
           match goal with |- evs (fold_left _ _ ?y) = _ => transitivity (evs y) end; [|reflexivity]. apply rest_evs, (rest_fold (fun s f => on_done s f _)). intros. apply rest_on_done.
      * apply (frame_evs _ _ (frame_suspend0 _ _ _)).
      * match goal with |- evs (go (ev_clear ?y _) _ _) = _ => change (evs (ev_clear y 0) = evclear (evset (evs s) 0) 0) end. rewrite ev_clear_evclear, ev_set_evset. reflexivity.
    + destruct (nth_error (evs s) e); auto.
    + apply evs_q_get.
    + set (s1 := settle s f Canc). assert (R1 : evs s1 = evs s) by (apply rest_evs, rest_settle).
      set (s2 := match nth_error (qs s1) q with Some qu => _ | None => s1 end). assert (R2 : evs s2 = evs s1) by (unfold s2; destruct (nth_error (qs s1) q); reflexivity).
      match goal with |- evs (go ?y _ _) = _ => change (evs y = evs s) end. rewrite <- R1, <- R2. destruct (nth_error (qs s2) q) as [qu|]; auto. destruct (fget s2 f) as [fu|]; auto.
      destruct (q_items qu); auto. destruct (f_st fu); auto. apply q_wake_evs.
    + destruct (clock s); [exact (exec_op_evs (set_tdone s (Some true)) t (OEvWait 0) _)|exact (evs_finish (set_tdone s (Some true)) t (Ok v))].
  - destruct (batch s) as [|n].
    + destruct (stopping s); auto. exact (rest_evs _ _ (rest_fold fire1 fire s fire1_rest)).
    + destruct (ready s) as [|h r]; auto. set (s0 := set_batch (set_ready s r) n).
      assert (X : forall t r, evs (resume s0 t r) = evs s).
      { intros t r0. unfold resume. destruct (tget s0 t) as [tk|]; auto. exact (rest_evs _ _ (rest_tput s0 t _)). }
      destruct h as [x|x e|x f|g| |f]; cbn [run_handle]; auto.
      * destruct (fget s0 g) as [[st cbs []]|]; auto. destruct need as [|[|n']]; auto. exact (rest_evs _ _ (rest_settle _ _ _)).
      * exact (rest_evs _ _ (rest_settle _ _ _)).
Qed.

(** * Queues after one step *)
Definition getters s (q : id) : list id := match nth_error (qs s) q with Some qu => q_getters qu | None => [] end.
(** Queue.get taking an item, or registering a waiter. *)
Definition qget s (q : id) : list queue :=
  match nth_error (qs s) q with
  | Some qu => match q_items qu with v :: l => put_nth q (mk_queue l (q_getters qu)) (qs s) | [] => put_nth q (mk_queue [] (q_getters qu ++ [List.length (futs s)])) (qs s) end
  | None => qs s
  end.
Definition qop s (o : @op mem prog) : list queue :=
  match o with
  | OQNew => qs s ++ [mk_queue [] []]
  | OQPut q v => match nth_error (qs s) q with Some qu => put_nth q (mk_queue (q_items qu ++ [v]) (snd (wake_next s (q_getters qu)))) (qs s) | None => qs s end
  | OQGet q => qget s q
  | _ => qs s
  end.
Lemma qs_q_get s t q k : qs (q_get s t q k) = qget s q.
Proof.
  unfold q_get, qget. destruct (nth_error (qs s) q) as [qu|]; auto. destruct (q_items qu) as [|v l]; auto. rewrite (frame_qs _ _ (frame_suspend _ _ _ _)). reflexivity.
Qed.
Lemma put_nth_twice {A} n (a b : A) l : put_nth n a (put_nth n b l) = put_nth n a l.
Proof. revert n. induction l as [|x l IH]; intros [|n]; simpl; auto. now rewrite IH. Qed.
Lemma wake_next_ext l : forall s s', futs s = futs s' -> snd (wake_next s l) = snd (wake_next s' l).
Proof.
  induction l as [|f l IH]; intros s s' H; simpl; auto. unfold fpending, fget. rewrite H. destruct (nth_error (futs s') f) as [fu|]; [destruct (pending fu)|]; simpl; auto.
Qed.
Lemma exec_op_qs s t o k : qs (exec_op s t o k) = qop s o.
Proof.
  unfold exec_op, qop. destruct o as [f|m|fl| |p|f|f| |e|e|e| |q v|q|q| |h z [|]|l| |]; auto.
  - destruct (f (mm s)); auto.
  - apply (frame_qs _ _ (frame_suspend0 _ _ _)).
  - destruct (fget s f) as [fu|]; auto. destruct (negb _); auto. destruct (pending fu); auto. apply (frame_qs _ _ (frame_suspend _ _ _ _)).
  - destruct (fget s f) as [fu|]; auto. destruct (negb _); auto. exact (rest_qs _ _ (rest_cancel _ s f)).
  - destruct (nth_error (evs s) e) as [ev|]; auto. destruct (e_priv ev); auto. apply ev_set_qs.
  - destruct (nth_error (evs s) e) as [ev|] eqn:E; auto. destruct (e_priv ev); auto. unfold ev_clear. rewrite E. reflexivity.
  - destruct (nth_error (evs s) e) as [ev|]; auto. destruct (e_val ev); auto. rewrite (frame_qs _ _ (frame_suspend _ _ _ _)). reflexivity.
  - destruct (nth_error (qs s) q) as [qu|] eqn:E; auto. match goal with |- qs (go ?y _ _) = _ => change (qs y = put_nth q (mk_queue (q_items qu ++ [v]) (snd (wake_next s (q_getters qu)))) (qs s)) end.
    unfold q_wake. simpl. rewrite (put_nth_get _ _ _ _ q E), Nat.eqb_refl. simpl.
    rewrite <- (wake_next_ext (q_getters qu) (qput s q (mk_queue (q_items qu ++ [v]) (q_getters qu))) s eq_refl).
    pose proof (rest_wake (q_getters qu) (qput s q (mk_queue (q_items qu ++ [v]) (q_getters qu)))) as R. destruct (wake_next _ _) as [s1 l]. simpl in *.
    rewrite (rest_qs _ _ R). simpl. apply put_nth_twice.
  - apply qs_q_get.
  - destruct (nth_error (qs s) q) as [qu|]; auto.
  - destruct (nodup _ _) as [|x l']; auto.
    match goal with |- qs (go ?y _ _) = _ => change (qs y = qs (falloc s (mk_fut Pending [] (KGather (List.length (x :: l')))))) end.
    apply rest_qs, (rest_fold (fun s f => on_done s f _)). intros. apply rest_on_done.
  - destruct (clock s); auto.
Qed.
(** Queue.get interrupted by an exception. *)
Definition qexn s (q f : id) : list queue :=
  let s1 := settle s f Canc in
  match nth_error (qs s) q with
  | Some qu =>
      let l := remove1 f (q_getters qu) in
      match q_items qu, fget s1 f with
      | _ :: _, Some (mk_fut (Finished _) _ _) => put_nth q (mk_queue (q_items qu) (snd (wake_next s1 l))) (qs s)
      | _, _ => put_nth q (mk_queue (q_items qu) l) (qs s)
      end
  | None => qs s
  end.
Definition qafter s : list queue :=
  match cur s with
  | Some (_, BProg (Op o _)) | Some (_, BHook (Op o _) _ _ _) | Some (_, BTest (Op o _)) => qop s o
  | Some (_, BGet q _ (Ok _) _) => qget s q
  | Some (_, BGet q f (Exn _) _) => qexn s q f
  | _ => qs s
  end.
Lemma qs_finish s t r : qs (finish s t r) = qs s.
Proof. unfold finish, conclude. destruct (fget _ _) as [fu|]; auto. destruct (pending fu); auto. Qed.
Lemma step_qs fire s : qs (step fire s) = qafter s.
Proof.
  unfold Loop_Model.step, qafter. destruct (cur s) as [[t b]|] eqn:Hc.
  - destruct b as [[v|e|o kk]|[v|e|o kk] ev todo sb|c|e f r kk|q f [v|e] kk|test|[v|e|o kk]]; cbn [exec_body]; try apply exec_op_qs; try apply qs_finish; auto.
    + destruct ev as [e|]; auto. exact (ev_set_qs (set_ran s (ran s ++ [e])) e).
    + destruct c as [| | |[|[h ev] todo] sb| | | |last]; cbn [exec_clk]; auto.
      * destruct (tdone s); auto. apply (frame_qs _ _ (frame_suspend0 _ _ _)).
      * exact (frame_qs _ _ (frame_suspend0 _ _ _)).
      * destruct (_ || _); auto.
      * set (l := shuffle _). assert (E : qs (fold_left cancel_top l s) = qs s) by (apply rest_qs, rest_fold; intros; apply rest_cancel). destruct l as [|x l].
        -- rewrite (frame_qs _ _ (frame_suspend0 _ _ _)). exact E.
        -- rewrite (frame_qs _ _ (frame_suspend _ _ _ _)). rewrite <- E. 
           match goal with |- qs (fold_left _ _ ?y) = _ => transitivity (qs y) end; [|reflexivity]. apply rest_qs, (rest_fold (fun s f => on_done s f _)). intros. apply rest_on_done.
      * apply (frame_qs _ _ (frame_suspend0 _ _ _)).
      * match goal with |- qs (go (ev_clear ?y ?n) _ _) = _ => change (qs (ev_clear y n) = qs s); assert (Z : forall x : state, qs (ev_clear x n) = qs x) by (intros x; unfold ev_clear; destruct (nth_error (evs x) n); reflexivity) end.
        rewrite Z, ev_set_qs. reflexivity.
    + destruct (nth_error (evs s) e); auto.
    + apply qs_q_get.
    + unfold qexn. set (s1 := settle s f Canc). assert (R1 : qs s1 = qs s) by (apply rest_qs, rest_settle). rewrite R1.
      match goal with |- qs (go ?y _ _) = _ => change (qs y) with (qs y) end. destruct (nth_error (qs s) q) as [qu|] eqn:Eq.
      * cbn [qs qput set_qs]. rewrite R1, (put_nth_get _ _ _ _ q Eq), Nat.eqb_refl. change (fget (qput s1 q (mk_queue (q_items qu) (remove1 f (q_getters qu)))) f) with (fget s1 f).
        destruct (fget s1 f) as [[st cbs kd]|]; [|destruct (q_items qu); simpl; rewrite R1; reflexivity]. cbn [q_items f_st]. destruct (q_items qu) as [|x l] eqn:Ei; [simpl; rewrite R1; reflexivity|].
        destruct st; try (simpl; rewrite R1; reflexivity). unfold q_wake. cbn [qs qput set_qs go set_cur]. rewrite R1, (put_nth_get _ _ _ _ q Eq), Nat.eqb_refl. cbn [q_getters q_items].
        rewrite <- (wake_next_ext (remove1 f (q_getters qu)) (qput s1 q (mk_queue (x :: l) (remove1 f (q_getters qu)))) s1 eq_refl).
        pose proof (rest_wake (remove1 f (q_getters qu)) (qput s1 q (mk_queue (x :: l) (remove1 f (q_getters qu))))) as R. destruct (wake_next _ _) as [s2 l2]. cbn [fst snd] in *.
        cbn [qs qput set_qs]. rewrite (rest_qs _ _ R). cbn [qs qput set_qs]. rewrite R1. apply put_nth_twice.
      * cbn [go qs set_cur]. rewrite R1, Eq. cbn [qs]. exact R1.
    + destruct (clock s); [exact (exec_op_qs (set_tdone s (Some true)) t (OEvWait 0) _)|exact (qs_finish (set_tdone s (Some true)) t (Ok v))].
  - destruct (batch s) as [|n].
    + destruct (stopping s); auto. exact (rest_qs _ _ (rest_fold fire1 fire s fire1_rest)).
    + destruct (ready s) as [|h r]; auto. set (s0 := set_batch (set_ready s r) n).
      assert (X : forall t r, qs (resume s0 t r) = qs s).
      { intros t r0. unfold resume. destruct (tget s0 t) as [tk|]; auto. exact (rest_qs _ _ (rest_tput s0 t _)). }
      destruct h as [x|x e|x f|g| |f]; cbn [run_handle]; auto.
      * destruct (fget s0 g) as [[st cbs []]|]; auto. destruct need as [|[|n']]; auto. exact (rest_qs _ _ (rest_settle _ _ _)).
      * exact (rest_qs _ _ (rest_settle _ _ _)).
Qed.
End Track.
