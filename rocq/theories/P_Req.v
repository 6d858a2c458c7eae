(** C53, C54, C55: process_requests. *)
From Coq Require Import List Bool Arith Lia.
From Verif Require Import Py Req_Model Req_Spec.
Import ListNotations.

Section Thms.
Context {mem data val : Type} (dut : mem -> mem) (assign : data -> mem -> mem).
Notation state := (@state mem data val). Notation dict := (@dict mem data val). Notation request := (@request mem data val).
Notation dstep := (dstep dut assign). Notation after := (after dut assign). Notation loop := (loop dut assign). Notation process_requests := (process_requests dut assign).
Implicit Types (s : state) (d : dict).

(** * The loop *)
Lemma after_S n s : after n (dstep s) = after (S n) s.
Proof. induction n as [|n IH]; auto. change (dstep (after n (dstep s)) = dstep (after (S n) s)). now rewrite IH. Qed.
Lemma loop_after s s' : loop s s' <-> exists n, s' = after n s /\ queue s' = [] /\ forall k, k < n -> queue (after k s) <> [].
Proof.
  split.
  - induction 1 as [s Hq|s s' Hq L [n [-> [E Hn]]]].
    + exists 0. split; auto. split; auto. intros k Hk. lia.
    + exists (S n). rewrite <- after_S. split; auto. split; auto. intros [|k] Hk; auto. rewrite <- after_S. apply Hn. lia.
  - intros [n [-> [E Hn]]]. revert s E Hn. induction n as [|n IH]; intros s E Hn; [now apply loop_end|]. apply loop_step; [apply (Hn 0); lia|]. rewrite <- after_S in *. apply IH; auto. intros k Hk. rewrite after_S. apply Hn. lia.
Qed.
Lemma put_nth_get {A} n (a x : A) l k : nth_error l n = Some x -> nth_error (put_nth n a l) k = if Nat.eqb k n then Some a else nth_error l k.
Proof.
  revert n k. induction l as [|y l IH]; intros [|n] [|k] H; simpl in *; try discriminate; auto.
Qed.
Lemma cyc_apply s i c : cyc (apply_dict assign s i c) = cyc s /\ calls (apply_dict assign s i c) = calls s /\ queue (apply_dict assign s i c) = queue s /\ blocked (apply_dict assign s i c) = blocked s.
Proof. unfold apply_dict. destruct (nth_error (heap s) i) as [d|]; auto. destruct (run_funcs _ _ _). auto. Qed.
Lemma cyc_try s i c : cyc (try_dict assign s i c) = cyc s /\ calls (try_dict assign s i c) = calls s /\ queue (try_dict assign s i c) = queue s.
Proof. unfold try_dict. destruct (nth_error (heap s) i) as [d|]; auto. destruct (match d_cond d with Some _ => _ | None => _ end); auto. destruct (cyc_apply s i c) as [A [B [C _]]]. auto. Qed.
Lemma cyc_rise s c : cyc (on_rise assign s c) = cyc s /\ calls (on_rise assign s c) = calls s.
Proof.
  unfold on_rise, next_request. destruct (blocked s) as [i|].
  - destruct (nth_error (heap s) i) as [d|]; auto. destruct (match d_cond d with Some _ => _ | None => _ end); auto. destruct (cyc_apply (unblock s) i c) as [A [B _]]. auto.
  - destruct (queue s) as [|[|i|f] q]; auto.
    + match goal with |- context [try_dict _ ?x ?y _] => destruct (cyc_try x y c) as [A [B _]] end. auto.
    + destruct (f c (mm s)) as [m1 [d|]]; auto. match goal with |- context [try_dict _ ?x ?y _] => destruct (cyc_try x y c) as [A [B _]] end. auto.
Qed.
Lemma dstep_one s : calls s = 1 -> dstep s = on_rise assign (mk_state (heap s) (queue s) (blocked s) (dut (mm s)) (S (cyc s)) 1 (assigned s)) (S (cyc s)).
Proof. intros H. unfold Req_Model.dstep. rewrite H. reflexivity. Qed.
Lemma cyc_after s n : calls s = 1 -> cyc (after n s) = cyc s + n /\ calls (after n s) = 1.
Proof.
  intros H. induction n as [|n [IH1 IH2]]; simpl; [split; auto; lia|]. rewrite dstep_one by auto. destruct (cyc_rise (mk_state (heap (after n s)) (queue (after n s)) (blocked (after n s)) (dut (mm (after n s))) (S (cyc (after n s))) 1 (assigned (after n s))) (S (cyc (after n s)))) as [A B].
  rewrite A, B. simpl. split; auto. lia.
Qed.

(** * C53 *)
(** A request without a condition. *)
Definition plain s (r : request) : Prop :=
  match r with
  | RNone => True
  | RDict i => exists d, nth_error (heap s) i = Some d /\ d_cond d = None
  | RCall f => forall c m d, snd (f c m) = Some d -> d_cond d = None
  end.
(** What is assigned to the bundle for request [r] if the callback sees memory [m] in cycle [c]. *)
Definition gives s (r : request) (c : nat) (m : mem) : list (nat * data) :=
  match r with
  | RNone => []
  | RDict i => match nth_error (heap s) i with Some d => [(c, d_data d)] | None => [] end
  | RCall f => match snd (f c m) with Some d => [(c, d_data d)] | None => [] end
  end.
(** The dictionaries of [s] are still there, with the same data, and without condition if they had none. *)
Definition kept s s' : Prop := forall i d, nth_error (heap s) i = Some d -> exists d', nth_error (heap s') i = Some d' /\ d_data d' = d_data d /\ (d_cond d = None -> d_cond d' = None).
Lemma kept_refl s : kept s s. Proof. intros i d H. eauto. Qed.
Lemma kept_trans s1 s2 s3 : kept s1 s2 -> kept s2 s3 -> kept s1 s3.
Proof. intros A B i d H. destruct (A i d H) as [d1 [H1 [E1 C1]]]. destruct (B i d1 H1) as [d2 [H2 [E2 C2]]]. exists d2. split; auto. split; [congruence|auto]. Qed.
Lemma kept_apply s i c : kept s (apply_dict assign s i c).
Proof.
  intros j d H. unfold apply_dict. destruct (nth_error (heap s) i) as [x|] eqn:E; eauto. destruct (run_funcs _ _ _). cbn [heap]. rewrite (put_nth_get _ _ _ _ j E).
  destruct (Nat.eqb_spec j i) as [->|]; eauto. rewrite E in H. injection H as ->. eexists. split; [reflexivity|]. simpl. auto.
Qed.
Lemma try_plain s i c d : nth_error (heap s) i = Some d -> d_cond d = None -> try_dict assign s i c = apply_dict assign s i c.
Proof. intros H H1. unfold try_dict. now rewrite H, H1. Qed.
Lemma assigned_apply s i c d : nth_error (heap s) i = Some d -> assigned (apply_dict assign s i c) = assigned s ++ [(c, d_data d)].
Proof. intros H. unfold apply_dict. rewrite H. now destruct (run_funcs _ _ _). Qed.
(** One cycle with an unconditional request at the head of the queue. *)
Lemma plain_step s r q : calls s = 1 -> blocked s = None -> queue s = r :: q -> plain s r ->
  queue (dstep s) = q /\ blocked (dstep s) = None /\ assigned (dstep s) = assigned s ++ gives s r (S (cyc s)) (dut (mm s)) /\ kept s (dstep s).
Proof.
  intros C B Q P. rewrite (dstep_one s C). unfold on_rise. cbn [blocked]. rewrite B. unfold next_request. cbn [queue heap blocked mm cyc calls assigned]. rewrite Q. destruct r as [|i|f]; simpl in P.
  - cbn. rewrite app_nil_r. repeat split; auto. intros i d H. eauto.
  - destruct P as [d [E Ec]]. set (s1 := mk_state _ _ _ _ _ _ _). rewrite (try_plain s1 i _ d E Ec). destruct (cyc_apply s1 i (S (cyc s))) as [_ [_ [A1 A2]]]. rewrite A1, A2. rewrite (assigned_apply s1 i _ d E). simpl. rewrite E. repeat split; auto. exact (kept_apply s1 i (S (cyc s))).
  - specialize (P (S (cyc s)) (dut (mm s))). simpl. destruct (f (S (cyc s)) (dut (mm s))) as [m1 [d|]]; cbn [snd] in *; [|cbn; rewrite app_nil_r; repeat split; auto; intros i d H; eauto].
    set (s1 := mk_state _ _ _ _ _ _ _). assert (E : nth_error (heap s1) (List.length (heap s)) = Some d) by (unfold s1; cbn [heap]; rewrite nth_error_app2, Nat.sub_diag by auto; reflexivity). rewrite (try_plain s1 _ _ d E (P d eq_refl)).
    destruct (cyc_apply s1 (List.length (heap s)) (S (cyc s))) as [_ [_ [A1 A2]]]. rewrite A1, A2. rewrite (assigned_apply s1 _ _ d E). repeat split; auto. apply (kept_trans s s1); [|exact (kept_apply s1 _ (S (cyc s)))].
    intros i d' H. exists d'. unfold s1. cbn [heap]. rewrite nth_error_app1; auto. apply nth_error_Some. congruence.
Qed.
Lemma plain_kept s s' r : kept s s' -> plain s r -> plain s' r.
Proof. intros K. destruct r as [|i|f]; simpl; auto. intros [d [H1 H2]]. destruct (K i d H1) as [d' [E [_ C]]]. exists d'. auto. Qed.
Lemma gives_kept s s' r c m : kept s s' -> plain s r -> gives s' r c m = gives s r c m.
Proof. intros K. destruct r as [|i|f]; simpl; auto. intros [d [H1 H2]]. destruct (K i d H1) as [d' [E [Ed _]]]. now rewrite E, H1, Ed. Qed.
Lemma plain_after s rs n : idle s -> Forall (plain s) rs -> n <= List.length rs ->
  let s0 := put_all s rs in queue (after n s0) = skipn n rs /\ blocked (after n s0) = None /\ kept s (after n s0) /\
    assigned (after n s0) = assigned s ++ flat_map (fun i => match nth_error rs i with Some r => gives s r (cyc s + S i) (dut (mm (after i s0))) | None => [] end) (seq 0 n).
Proof.
  intros [Q [B C]] P. intros Hn s0. assert (C0 : calls s0 = 1) by exact C. induction n as [|n IH].
  - simpl. rewrite Q, app_nil_r. repeat split; auto. intros i d H. eauto.
  - destruct IH as [I1 [I2 [I3 I4]]]; [lia|]. destruct (nth_error rs n) as [r|] eqn:En; [|apply nth_error_None in En; lia]. destruct (cyc_after s0 n C0) as [D1 D2].
    assert (Sk : skipn n rs = r :: skipn (S n) rs). { clear - En. revert n En. induction rs as [|x rs IH]; intros [|n] En; simpl in *; try discriminate; [congruence|]. now apply IH. }
    assert (Pr : plain s r) by (rewrite Forall_forall in P; apply P; eapply nth_error_In; eauto).
    destruct (plain_step (after n s0) r (skipn (S n) rs) D2 I2 (eq_trans I1 Sk) (plain_kept _ _ _ I3 Pr)) as [E1 [E2 [E3 E4]]].
    change (after (S n) s0) with (dstep (after n s0)). split; auto. split; auto. split; [eapply kept_trans; eauto|]. rewrite E3, I4, D1, (gives_kept _ _ _ _ _ I3 Pr). rewrite seq_S, flat_map_app. simpl. rewrite En, app_nil_r, <- app_assoc.
    rewrite Nat.add_succ_r. reflexivity.
Qed.
(** A list of requests without conditions given to an idle bundle (None, dictionaries, also the same one several times, callables):
    process_requests returns after exactly as many cycles as there are requests, and the bundle has been assigned to
    exactly as follows: request [i] (0, 1, ...) in cycle [i + 1], once, unless it is None or a callable that returned None. *)
Theorem C53_unconditional s rs : idle s -> Forall (plain s) rs ->
  exists s' r, process_requests s rs (s', Ok r) /\ cyc s' = cyc s + List.length rs /\ idle s' /\
    assigned s' = assigned s ++ flat_map (fun i => match nth_error rs i with Some r => gives s r (cyc s + S i) (dut (mm (after i (put_all s rs)))) | None => [] end) (seq 0 (List.length rs)) /\
    forall s'' r', process_requests s rs (s'', r') -> s'' = s' /\ r' = Ok r.
Proof.
  intros Id P. pose proof Id as [Q [B C]]. set (s0 := put_all s rs). assert (C0 : calls s0 = 1) by exact C. set (n := List.length rs).
  assert (L : loop s0 (after n s0)).
  { apply loop_after. exists n. split; auto. split; [destruct (plain_after s rs n Id P (le_n _)) as [E _]; fold s0 in E; rewrite E; apply skipn_all|].
    intros k Hk. assert (Hk' : k <= List.length rs) by (unfold n in Hk; lia). destruct (plain_after s rs k Id P Hk') as [E _]. fold s0 in E. rewrite E. intros X. apply (f_equal (@List.length _)) in X. rewrite skipn_length in X. simpl in X. unfold n in Hk. lia. }
  destruct (plain_after s rs n Id P (le_n _)) as [E1 [E2 [E3 E4]]]. destruct (cyc_after s0 n C0) as [D1 D2].
  exists (after n s0), (collect (after n s0) rs). split; [apply pr_done; auto; left; congruence|]. split; [exact D1|]. split; [split; [fold s0 in E1; rewrite E1; apply skipn_all|auto]|]. split; [exact E4|].
  intros s'' r' H. inversion H as [? ? H1 |? ? H1 H2 H3|? ? s1 H1 H2 H3]; subst; try congruence.
  assert (X : s'' = after n s0). { apply loop_after in H3 as [k [-> [K1 K2]]]. apply loop_after in L as [k' [L0 [L1 L2]]]. fold s0 in K1, K2. rewrite L0. f_equal. destruct (lt_eq_lt_dec k k') as [[X|X]|X]; auto; [now apply L2 in X|]. apply K2 in X. congruence. }
  now subst.
Qed.

(** * C54 *)
Notation may := (may dut assign). Notation content := (content dut assign). Notation seen := (seen dut assign). Notation assignments := (assignments dut assign). Notation answers := (answers dut assign).
Notation called := (@called mem val). Notation finds := (finds dut assign).
Lemma called_run fs c m : called c fs m (fst (run_funcs fs c m)) (snd (run_funcs fs c m)).
Proof.
  revert m. induction fs as [|[f|] fs IH]; intros m; simpl; [constructor| |].
  - destruct (f c m) as [m1 v] eqn:E. specialize (IH m1). destruct (run_funcs fs c m1) as [m2 l]. simpl in *. eapply cl_call; eauto.
  - specialize (IH m). destruct (run_funcs fs c m) as [m2 l]. simpl in *. now constructor.
Qed.
Lemma try_spec s b c d : nth_error (heap s) b = Some d -> blocked s = None ->
  let s' := try_dict assign s b c in queue s' = queue s /\
  if match d_cond d with Some f => f c (mm s) | None => true end
  then blocked s' = None /\ assigned s' = assigned s ++ [(c, d_data d)] /\
       exists d' fr, heap s' = put_nth b d' (heap s) /\ called c (d_funcs d) (assign (d_data d) (mm s)) (mm s') fr /\ d_cond d' = None /\ d_bundles d' = None /\
         match d_bundles d with Some bs => d_ret d' = Some (map (fun f => f (mm s')) bs, fr, c) | None => d_ret d' = d_ret d end
  else blocked s' = Some b /\ assigned s' = assigned s /\ heap s' = heap s /\ mm s' = mm s.
Proof.
  intros H B. cbv zeta. split; [apply cyc_try|]. unfold try_dict. rewrite H. destruct (match d_cond d with Some _ => _ | None => _ end); [|simpl; auto].
  unfold apply_dict. rewrite H. pose proof (called_run (d_funcs d) c (assign (d_data d) (mm s))) as CR. destruct (run_funcs _ _ _) as [m2 fr]. cbn [blocked assigned heap mm fst snd] in *. split; auto. split; auto. eexists. exists fr. split; [reflexivity|]. split; [exact CR|]. cbn [d_ret d_cond d_bundles]. split; auto. split; auto. destruct (d_bundles d); auto.
Qed.
Lemma blocked_try s b c d : nth_error (heap s) b = Some d -> blocked s = Some b -> on_rise assign s c = try_dict assign (unblock s) b c.
Proof. intros H B. unfold on_rise, try_dict. rewrite B, H. cbn [heap unblock]. rewrite H. cbn [mm unblock]. destruct (match d_cond d with Some _ => _ | None => _ end); auto. destruct s; simpl in *. now subst. Qed.
Lemma skipn_nth {A} (l : list A) n x : nth_error l n = Some x -> skipn n l = x :: skipn (S n) l.
Proof. revert n. induction l as [|y l IH]; intros [|n] E; simpl in *; try discriminate; [congruence|]. now apply IH. Qed.

Section Queue.
Context (s : state) (rs : list request) (Id : idle s) (Di : distinct s rs).
Let s0 := put_all s rs.
Let a (n : nat) := schedule (may s0 rs) n.
Lemma len_a n : List.length (a n) <= List.length rs.
Proof.
  induction n as [|n IH]; [simpl; lia|]. unfold a in *. cbn [schedule]. destruct (may s0 rs _ _ (S n)) eqn:M; auto. rewrite app_length. simpl. revert M. generalize (turn (schedule (may s0 rs) n) (List.length (schedule (may s0 rs) n))). generalize (List.length (schedule (may s0 rs) n)). intros k t M. unfold Req_Spec.may in M.
  destruct (nth_error rs k) eqn:E; [|discriminate]. assert (H : k < List.length rs) by (apply nth_error_Some; congruence). lia.
Qed.
Lemma turn_app l j k : k <= List.length l -> turn (l ++ [j]) k = turn l k.
Proof. intros H. destruct k; auto. simpl. now rewrite app_nth1. Qed.
Lemma assign_app l j : assignments s0 rs (l ++ [j]) = assignments s0 rs l ++
  match nth_error rs (List.length l) with Some r => match content s0 r (turn l (List.length l)) with Some d => [(cyc s0 + j, d_data d)] | None => [] end | None => [] end.
Proof.
  unfold Req_Spec.assignments. rewrite app_length. cbn [List.length]. rewrite Nat.add_1_r, seq_S, flat_map_app. f_equal.
  - rewrite !flat_map_concat_map. f_equal. apply map_ext_in. intros k Hk. apply in_seq in Hk. rewrite nth_error_app1, turn_app by lia. reflexivity.
  - cbn [flat_map Nat.add]. rewrite app_nil_r. rewrite nth_error_app2, Nat.sub_diag by auto. cbn [nth_error]. rewrite turn_app by auto. reflexivity.
Qed.
(** What holds after [n] cycles. *)
Definition Heap n k : Prop := List.length (heap s) <= List.length (heap (after n s0)) /\
  forall j i d, nth_error rs j = Some (RDict i) -> nth_error (heap s) i = Some d ->
    if k <=? j then nth_error (heap (after n s0)) i = Some d
    else exists d', nth_error (heap (after n s0)) i = Some d' /\ d_cond d' = None /\ d_bundles d' = None /\
         exists fr, called (cyc s + nth j (a n) 0) (d_funcs d) (assign (d_data d) (seen s0 (nth j (a n) 0))) (mm (after (nth j (a n) 0) s0)) fr /\
           match d_bundles d with Some bs => d_ret d' = Some (map (fun f => f (mm (after (nth j (a n) 0) s0))) bs, fr, cyc s + nth j (a n) 0) | None => d_ret d' = d_ret d end.
Definition Waiting n k : Prop :=
  (blocked (after n s0) = None /\ queue (after n s0) = skipn k rs /\ (k < List.length rs -> turn (a n) k = S n)) \/
  exists b r d, blocked (after n s0) = Some b /\ nth_error rs k = Some r /\ content s0 r (turn (a n) k) = Some d /\ nth_error (heap (after n s0)) b = Some d /\
    turn (a n) k <= n /\ queue (after n s0) = skipn (S k) rs /\ match r with RDict i => b = i | _ => List.length (heap s) <= b end.
(** What cycle [n] did to the memory. *)
Definition Eff n : Prop :=
  match n with
  | 0 => True
  | S m => let k := List.length (a m) in let t := turn (a m) k in
      match nth_error rs k with
      | None => mm (after n s0) = seen s0 n
      | Some r =>
          if may s0 rs k t n
          then match content s0 r t with
               | Some d => exists fr, called (cyc s + n) (d_funcs d) (assign (d_data d) (finds s0 r t n)) (mm (after n s0)) fr
               | None => mm (after n s0) = finds s0 r t n
               end
          else mm (after n s0) = finds s0 r t n
      end
  end.
Definition St n : Prop := assigned (after n s0) = assigned s ++ assignments s0 rs (a n) /\ Heap n (List.length (a n)) /\ Waiting n (List.length (a n)) /\ Eff n.
(** One attempt at request [r], whose dictionary [d] is object [b]. *)
Lemma attempt n r b d s1 : let k := List.length (a n) in
  St n -> nth_error rs k = Some r -> content s0 r (turn (a n) k) = Some d -> turn (a n) k <= S n ->
  after (S n) s0 = try_dict assign s1 b (cyc s + S n) -> nth_error (heap s1) b = Some d -> blocked s1 = None -> queue s1 = skipn (S k) rs -> assigned s1 = assigned (after n s0) ->
  (forall i x, nth_error (heap (after n s0)) i = Some x -> nth_error (heap s1) i = Some x) ->
  match r with RDict i => b = i | _ => List.length (heap s) <= b end ->
  mm s1 = finds s0 r (turn (a n) k) (S n) ->
  may s0 rs k (turn (a n) k) (S n) = match d_cond d with Some f => f (cyc s + S n) (mm s1) | None => true end -> St (S n).
Proof.
  intros k [A [[L H] [W _]]] Er Ec Et Ea Eb B Q As Hs Hb Em M.
  pose proof (try_spec s1 b (cyc s + S n) d Eb B) as T. cbv zeta in T. rewrite <- Ea, <- M in T. destruct T as [T1 T2].
  assert (L1 : List.length (heap s) <= List.length (heap s1)).
  { destruct (le_lt_dec (List.length (heap s)) (List.length (heap s1))) as [X|X]; auto. exfalso. destruct (nth_error (heap (after n s0)) (List.length (heap s1))) as [x|] eqn:E; [|apply nth_error_None in E; lia]. apply Hs in E. assert (Y : List.length (heap s1) < List.length (heap s1)) by (apply nth_error_Some; congruence). lia. }
  unfold St, Heap, Waiting, Eff. fold k. cbv zeta. rewrite Er, Ec. replace (a (S n)) with (if may s0 rs k (turn (a n) k) (S n) then a n ++ [S n] else a n) by reflexivity.
  destruct (may s0 rs k (turn (a n) k) (S n)).
  - destruct T2 as [T2 [T3 [d' [fr [T4 [T5 [T6 [T7 T8]]]]]]]]. rewrite Em in T5. rewrite app_length. cbn [List.length]. rewrite Nat.add_1_r. fold k. split; [|split; [|split; [|exists fr; exact T5]]].
    + rewrite assign_app. fold k. rewrite Er, Ec, app_assoc, <- A, <- As. exact T3.
    + split; [rewrite T4; clear -L1; revert b L1; generalize (heap s1); intros l b; assert (X : List.length (put_nth b d' l) = List.length l) by (revert b; induction l as [|x l IH]; intros [|b]; simpl; auto); lia|].
      intros j i x Hj Hx. specialize (H j i x Hj Hx). fold k in H. rewrite T4. rewrite (put_nth_get b d' d (heap s1) i Eb). fold k. destruct (Nat.leb_spec (S k) j) as [X|X].
      * revert H. destruct (Nat.leb_spec k j) as [_|]; [intros H|lia]. destruct (Nat.eqb_spec i b) as [->|_]; [|apply Hs; exact H]. exfalso. destruct r as [|i|f]; [discriminate Ec| |].
        -- subst b. destruct Di as [_ D]. pose proof (D _ _ _ Hj Er). lia.
        -- assert (Y : b < List.length (heap s)) by (apply nth_error_Some; congruence). lia.
      * destruct (Nat.eq_dec j k) as [->|Ne].
        -- assert (r = RDict i) as -> by congruence. subst b. rewrite Nat.eqb_refl. exists d'. split; auto. split; auto. split; auto. exists fr. simpl in Ec. rewrite Hx in Ec. injection Ec as <-. rewrite (app_nth2 (a n)) by (fold k; lia). fold k. rewrite Nat.sub_diag. exact (conj T5 T8).
        -- revert H. destruct (Nat.leb_spec k j) as [|Y]; [lia|intros H]. destruct H as [x' [H1 H2]]. destruct (Nat.eqb_spec i b) as [->|_].
           ++ exfalso. destruct r as [|i|f]; [discriminate Ec| |]; [subst b; destruct Di as [_ D]; pose proof (D _ _ _ Hj Er); lia|]. assert (Z : b < List.length (heap s)) by (apply nth_error_Some; congruence). lia.
           ++ exists x'. split; auto. now rewrite (app_nth1 (a n)) by auto.
    + left. split; auto. split; [rewrite T1; exact Q|]. intros _. cbn [turn]. rewrite (app_nth2 (a n)) by (fold k; lia). fold k. rewrite Nat.sub_diag. reflexivity.
  - destruct T2 as [T2 [T3 [T4 T5]]]. fold k. split; [congruence|]. split; [|split; [|congruence]].
    + split; [rewrite T4; auto|]. intros j i x Hj Hx. specialize (H j i x Hj Hx). fold k in H. rewrite T4. destruct (k <=? j); auto. destruct H as [x' [H1 H2]]. exists x'. split; auto.
    + right. exists b, r, d. rewrite T4. split; [exact T2|]. split; [exact Er|]. split; [exact Ec|]. split; [exact Eb|]. split; [exact Et|]. split; [congruence|exact Hb].
Qed.
Lemma st_step n : St n -> St (S n).
Proof.
  intros S0. pose proof S0 as [A [[L H] [W _]]]. destruct Id as [Q0 [B0 C0]]. destruct (cyc_after s0 n C0) as [D1 D2]. change (cyc s0) with (cyc s) in D1.
  assert (Es : after (S n) s0 = on_rise assign (mk_state (heap (after n s0)) (queue (after n s0)) (blocked (after n s0)) (dut (mm (after n s0))) (S (cyc (after n s0))) 1 (assigned (after n s0))) (cyc s + S n)).
  { change (after (S n) s0) with (dstep (after n s0)). rewrite dstep_one by auto. rewrite D1, Nat.add_succ_r. reflexivity. }
  assert (Sn : seen s0 (S n) = dut (mm (after n s0))) by (unfold Req_Spec.seen; now rewrite Nat.sub_succ, Nat.sub_0_r).
  set (k := List.length (a n)) in *. destruct W as [[W1 [W2 W3]]|[b [r [d [W1 [W2 [W3 [W4 [W5 [W6 W7]]]]]]]]]].
  - assert (No : forall P, (nth_error rs k = None -> P) -> (forall r, nth_error rs k = Some r -> P) -> P) by (intros P X Y; destruct (nth_error rs k); eauto).
    destruct (nth_error rs k) as [r|] eqn:Er.
    + assert (Hk : k < List.length rs) by (apply nth_error_Some; congruence). specialize (W3 Hk). rewrite (skipn_nth _ _ _ Er) in W2.
      unfold on_rise in Es. cbn [blocked] in Es. rewrite W1 in Es. unfold next_request in Es. cbn [queue] in Es. rewrite W2 in Es. cbn [heap mm cyc calls assigned blocked] in Es. clear No.
      assert (Skip : forall m, content s0 r (turn (a n) k) = None -> m = finds s0 r (turn (a n) k) (S n) ->
          after (S n) s0 = mk_state (heap (after n s0)) (skipn (S k) rs) None m (S (cyc (after n s0))) 1 (assigned (after n s0)) -> St (S n)).
      { intros m En Em E. assert (M : may s0 rs k (turn (a n) k) (S n) = true) by (unfold Req_Spec.may; now rewrite Er, En).
        unfold St, Heap, Waiting, Eff. fold k. cbv zeta. rewrite Er, En. replace (a (S n)) with (if may s0 rs k (turn (a n) k) (S n) then a n ++ [S n] else a n) by reflexivity. rewrite M, app_length. cbn [List.length]. rewrite Nat.add_1_r. fold k. split; [|split; [|split; [|rewrite E; exact Em]]].
        - rewrite assign_app. fold k. rewrite Er, En, app_nil_r, E. exact A.
        - rewrite E. cbn [heap]. split; auto. intros j i x Hj Hx. specialize (H j i x Hj Hx). revert H. destruct (Nat.leb_spec (S k) j) as [X|X]; [destruct (Nat.leb_spec k j); [auto|lia]|]. destruct (Nat.leb_spec k j) as [Y|Y]; intros H.
          + assert (j = k) by lia. subst j. assert (r = RDict i) as -> by congruence. simpl in En. congruence.
          + destruct H as [x' [H1 H2]]. exists x'. split; auto. now rewrite (app_nth1 (a n)) by auto.
        - left. rewrite E. cbn [blocked queue]. split; auto. split; auto. intros _. cbn [turn]. rewrite (app_nth2 (a n)) by (fold k; lia). fold k. rewrite Nat.sub_diag. reflexivity. }
      destruct r as [|i|f].
      * apply (Skip (dut (mm (after n s0))) eq_refl); [symmetry; exact Sn|exact Es].
      * destruct Di as [V _]. destruct (nth_error (heap s) i) as [d|] eqn:Ed; [|apply nth_error_None in Ed; specialize (V _ _ Er); lia]. specialize (H k i d Er Ed). rewrite Nat.leb_refl in H.
        eapply (attempt n (RDict i) i d _ S0 Er); [exact Ed|fold k; lia|exact Es|exact H|reflexivity|reflexivity|reflexivity|intros; assumption|reflexivity|symmetry; exact Sn|].
        unfold Req_Spec.may. fold k. rewrite Er. cbn [Req_Spec.content]. change (heap s0) with (heap s). rewrite Ed. cbn [mm]. change (cyc s0) with (cyc s). rewrite Sn. reflexivity.
      * assert (Ef : f (cyc s + S n) (dut (mm (after n s0))) = f (cyc s0 + turn (a n) k) (seen s0 (turn (a n) k))) by (rewrite W3, Sn; reflexivity).
        destruct (f (cyc s + S n) (dut (mm (after n s0)))) as [m1 o] eqn:Ef'. assert (Ec : content s0 (RCall f) (turn (a n) k) = o) by (unfold Req_Spec.content; rewrite <- Ef; reflexivity). assert (Em : m1 = finds s0 (RCall f) (turn (a n) k) (S n)) by (unfold Req_Spec.finds; rewrite <- Ef, W3, Nat.eqb_refl; reflexivity). destruct o as [d|].
        -- eapply (attempt n (RCall f) (List.length (heap (after n s0))) d _ S0 Er); [exact Ec|fold k; lia|exact Es| |reflexivity|reflexivity|reflexivity| |exact L|exact Em|].
           ++ cbn [heap]. rewrite nth_error_app2, Nat.sub_diag by auto. reflexivity.
           ++ intros i x Hi. cbn [heap]. rewrite nth_error_app1; auto. apply nth_error_Some. congruence.
           ++ unfold Req_Spec.may. fold k. rewrite Er, Ec. cbv beta iota. rewrite <- Ef. rewrite W3, Nat.eqb_refl. reflexivity.
        -- apply (Skip _ Ec Em Es).
    + assert (Hk : List.length rs <= k) by now apply nth_error_None. rewrite (skipn_all2 rs Hk) in W2. unfold on_rise in Es. cbn [blocked] in Es. rewrite W1 in Es. unfold next_request in Es. cbn [queue] in Es. rewrite W2 in Es.
      assert (M : may s0 rs k (turn (a n) k) (S n) = false) by (unfold Req_Spec.may; now rewrite Er).
      unfold St, Heap, Waiting, Eff. fold k. cbv zeta. rewrite Er. replace (a (S n)) with (if may s0 rs k (turn (a n) k) (S n) then a n ++ [S n] else a n) by reflexivity. rewrite M. fold k. rewrite Es. cbn [heap assigned blocked queue mm]. split; auto. split; auto. split; [|symmetry; exact Sn]. left. split; auto. split; [symmetry; apply skipn_all2; lia|lia].
  - set (s1 := mk_state _ _ _ _ _ _ _) in Es. rewrite (blocked_try s1 b _ d W4 W1) in Es.
    apply (attempt n r b d (unblock s1) S0 W2 W3 (le_S _ _ W5) Es W4 eq_refl W6 eq_refl (fun i x Hi => Hi) W7); [cbn [mm unblock s1]; fold k; unfold Req_Spec.finds; rewrite Sn; destruct r as [|i|f]; auto; destruct (Nat.eqb_spec (S n) (turn (a n) k)); auto; lia|].
    fold k. unfold Req_Spec.may. rewrite W2, W3. destruct (d_cond d) as [g|]; auto. change (cyc s0) with (cyc s). cbn [mm unblock s1]. f_equal. rewrite Sn. destruct r as [|i|f]; auto. destruct (Nat.eqb_spec (S n) (turn (a n) k)); auto. lia.
Qed.
Lemma st_all n : St n.
Proof.
  induction n as [|n IH]; [|now apply st_step]. destruct Id as [Q [B C]]. unfold St. simpl. rewrite app_nil_r. split; auto. split.
  - split; [apply le_n|]. intros j i d Hj Hd. exact Hd.
  - split; [|exact Logic.I]. left. simpl. rewrite Q. auto.
Qed.
Lemma queue_end n : queue (after n s0) = [] <-> List.length rs <= List.length (a n) \/ blocked (after n s0) <> None /\ List.length rs = S (List.length (a n)).
Proof.
  destruct (st_all n) as [_ [_ [W _]]]. split.
  - intros E. destruct W as [[W1 [W2 W3]]|[b [r [d [W1 [W2 [W3 [W4 [W5 [W6 W7]]]]]]]]]].
    + left. rewrite E in W2. apply (f_equal (@List.length _)) in W2. rewrite skipn_length in W2. simpl in W2. lia.
    + right. split; [congruence|]. rewrite E in W6. apply (f_equal (@List.length _)) in W6. rewrite skipn_length in W6. simpl in W6. assert (H : List.length (a n) < List.length rs) by (apply nth_error_Some; congruence). lia.
  - intros E. destruct W as [[W1 [W2 W3]]|[b [r [d [W1 [W2 [W3 [W4 [W5 [W6 W7]]]]]]]]]].
    + destruct E as [E|[E _]]; [|congruence]. now rewrite W2, skipn_all2.
    + rewrite W6. apply skipn_all2. lia.
Qed.
End Queue.

(** The schedule of the specification does what C54 says: a request is applied in the first cycle from its turn on in which it may be,
    and its turn comes right after the previous request was applied. *)
Lemma schedule_first ok n :
  (forall k j, nth_error (schedule ok n) k = Some j -> let t := turn (schedule ok n) k in t <= j <= n /\ ok k t j = true /\ forall i, t <= i < j -> ok k t i = false) /\
  (let k := List.length (schedule ok n) in let t := turn (schedule ok n) k in t <= S n /\ forall i, t <= i <= n -> ok k t i = false).
Proof.
  induction n as [|n [I1 [I2 I3]]].
  - simpl. split; [intros [|k] j H; discriminate|]. split; auto. intros i H. lia.
  - cbn [schedule]. cbv zeta in *. set (l := schedule ok n) in *. destruct (ok (List.length l) (turn l (List.length l)) (S n)) eqn:E.
    + split.
      * intros k j H. destruct (lt_eq_lt_dec k (List.length l)) as [[X|X]|X].
        -- rewrite nth_error_app1 in H by auto. rewrite turn_app by lia. destruct (I1 k j H) as [A [B C]]. split; [lia|]. auto.
        -- subst k. rewrite nth_error_app2, Nat.sub_diag in H by auto. injection H as <-. rewrite turn_app by auto. split; [lia|]. split; auto. intros i Hi. apply I3. lia.
        -- assert (Y : nth_error (l ++ [S n]) k = None) by (apply nth_error_None; rewrite app_length; simpl; lia). congruence.
      * rewrite app_length. cbn [List.length]. rewrite Nat.add_1_r. cbn [turn]. rewrite app_nth2, Nat.sub_diag by auto. simpl. split; auto. intros i Hi. lia.
    + split.
      * intros k j H. destruct (I1 k j H) as [A B]. split; [lia|auto].
      * split; [lia|]. intros i Hi. destruct (Nat.eq_dec i (S n)) as [->|]; auto. apply I3. lia.
Qed.
Lemma schedule_prefix ok n k : exists r, schedule ok (n + k) = schedule ok n ++ r.
Proof. induction k as [|k [r IH]]; [rewrite Nat.add_0_r; exists []; now rewrite app_nil_r|]. rewrite Nat.add_succ_r. cbn [schedule]. rewrite IH. destruct (ok _ _ _); [|eauto]. rewrite <- app_assoc. eauto. Qed.
(** Any list of requests in which no dictionary object occurs twice, given to an idle bundle: at any time, the bundle has been
    assigned the data of the first requests, in order, each once, where request [k] is applied in the first cycle from its turn on
    in which its condition is true, its turn comes in the cycle after the one in which the request before was applied, and no
    request after a waiting one is applied. *)
Theorem C54_blocks s rs n : idle s -> distinct s rs ->
  let s0 := put_all s rs in let a := schedule (may s0 rs) n in
  assigned (after n s0) = assigned s ++ assignments s0 rs a /\
  (forall k j, nth_error a k = Some j -> turn a k <= j <= n /\ may s0 rs k (turn a k) j = true /\ forall i, turn a k <= i < j -> may s0 rs k (turn a k) i = false) /\
  (forall i, turn a (List.length a) <= i <= n -> may s0 rs (List.length a) (turn a (List.length a)) i = false).
Proof.
  intros Id Di s0 a. destruct (schedule_first (may s0 rs) n) as [A [_ B]]. split; [|split; [exact A|exact B]]. destruct (st_all s rs Id Di n) as [X _]. exact X.
Qed.
(** When process_requests returns, all requests have been applied, except that the last one may still be waiting for its condition;
    it is not if it has none. *)
Theorem C54_partial s rs s' r : idle s -> distinct s rs -> process_requests s rs (s', r) ->
  let s0 := put_all s rs in exists n, let a := schedule (may s0 rs) n in s' = after n s0 /\ cyc s' = cyc s + n /\ queue s' = [] /\
    (List.length a = List.length rs /\ blocked s' = None \/ List.length rs = S (List.length a) /\ blocked s' <> None) /\
    ((forall k q t d, List.length rs = S k -> nth_error rs k = Some q -> content s0 q t = Some d -> d_cond d = None) -> List.length a = List.length rs).
Proof.
  intros Id Di P s0. pose proof Id as [Q [B C]]. inversion P as [? ? H1|? ? H1 H2 H3|? ? s1 H1 H2 H3]; subst; try congruence. apply loop_after in H3 as [n [E [E1 E2]]]. exists n. intros a. fold s0 in E, E1, E2. split; auto.
  split; [rewrite E; apply (cyc_after s0 n C)|]. split; auto. subst s'. destruct (st_all s rs Id Di n) as [_ [_ [W _]]]. pose proof (len_a s rs n) as Le. fold s0 in W, Le. cbv beta in Le. fold a in Le.
  assert (Or : List.length a = List.length rs /\ blocked (after n s0) = None \/ List.length rs = S (List.length a) /\ blocked (after n s0) <> None).
  { destruct W as [[W1 [W2 W3]]|[b [q [d [W1 [W2 [W3 [W4 [W5 [W6 W7]]]]]]]]]].
    - left. split; auto. fold s0 in W2. rewrite E1 in W2. apply (f_equal (@List.length _)) in W2. rewrite skipn_length in W2. cbn [List.length] in W2. fold s0 in W2. fold a in W2. lia.
    - right. fold s0 in W1, W2, W6. fold a in W2, W6. split; [|congruence]. rewrite E1 in W6. apply (f_equal (@List.length _)) in W6. rewrite skipn_length in W6. cbn [List.length] in W6. assert (X : List.length a < List.length rs) by (apply nth_error_Some; congruence). lia. }
  split; auto. intros Hc. destruct Or as [[Or _]|[Or Bl]]; auto. exfalso. destruct W as [[W1 _]|[b [q [d [W1 [W2 [W3 [W4 [W5 [W6 W7]]]]]]]]]]; fold s0 in W1; [congruence|].
  fold s0 in W2, W3, W5. fold a in W2, W3, W5. destruct (schedule_first (may s0 rs) n) as [_ [_ F]]. fold a in F. specialize (F n (conj W5 (le_n _))). unfold Req_Spec.may in F at 1. fold a in F. rewrite W2, W3 in F. rewrite (Hc _ _ _ _ Or W2 W3) in F. discriminate.
Qed.
(** It does return if every condition but the last one keeps becoming true. *)
Theorem C54_returns s rs : idle s -> distinct s rs -> (forall k t, S k < List.length rs -> exists j, t <= j /\ may (put_all s rs) rs k t j = true) -> exists s' r, process_requests s rs (s', Ok r).
Proof.
  intros Id Di H. pose proof Id as [Q [B C]]. set (s0 := put_all s rs) in *.
  assert (G : forall k, k < List.length rs -> exists n, k <= List.length (schedule (may s0 rs) n)).
  { induction k as [|k IH]; intros Hk; [exists 0; lia|]. destruct IH as [n Hn]; [lia|]. destruct (le_lt_dec (S k) (List.length (schedule (may s0 rs) n))) as [X|X]; eauto. assert (Ek : List.length (schedule (may s0 rs) n) = k) by lia.
    destruct (H k (turn (schedule (may s0 rs) n) k) Hk) as [j [J1 J2]]. destruct (schedule_first (may s0 rs) n) as [_ [_ F]]. rewrite Ek in F.
    assert (Nj : n < j) by (destruct (le_lt_dec j n) as [Y|Y]; auto; rewrite F in J2 by lia; discriminate).
    exists j. destruct (schedule_prefix (may s0 rs) n (j - n)) as [r Er]. replace (n + (j - n)) with j in Er by lia. destruct r as [|x r]; [|rewrite Er, app_length; simpl; lia]. exfalso. rewrite app_nil_r in Er. destruct (schedule_first (may s0 rs) j) as [_ [_ F2]]. rewrite Er, Ek in F2. rewrite F2 in J2 by lia. discriminate. }
  assert (E : exists n, queue (after n s0) = []).
  { destruct (Nat.eq_dec (List.length rs) 0) as [Z|Z]; [exists 0; cbn; rewrite Q; destruct rs; [reflexivity|discriminate]|]. destruct (G (pred (List.length rs))) as [n Hn]; [lia|]. exists (S n). apply (queue_end s rs Id Di). fold s0.
    destruct (schedule_prefix (may s0 rs) n 1) as [x Ex]. rewrite Nat.add_1_r in Ex. pose proof (f_equal (@List.length _) Ex) as Lx. rewrite app_length in Lx. destruct (le_lt_dec (List.length rs) (List.length (schedule (may s0 rs) (S n)))) as [X|X]; auto. right.
    assert (Y : List.length (schedule (may s0 rs) (S n)) = pred (List.length rs)) by lia. split; [|lia].
    assert (Y2 : x = []) by (destruct x; auto; cbn [List.length] in Lx; lia). subst x. rewrite app_nil_r in Ex. destruct (st_all s rs Id Di (S n)) as [_ [_ [W _]]]. fold s0 in W. destruct W as [[W1 [W2 W3]]|[b [q [d [W1 _]]]]]; [|fold s0 in W1; intros N; rewrite N in W1; discriminate]. fold s0 in W3. destruct (schedule_first (may s0 rs) n) as [_ [F _]]. rewrite <- Ex in F. rewrite W3 in F by lia. lia. }
  destruct E as [n En]. assert (M : exists m, queue (after m s0) = [] /\ forall k, k < m -> queue (after k s0) <> []).
  { clear -En. induction n as [n IH] using lt_wf_ind. destruct (Exists_dec (fun k => queue (after k s0) = []) (seq 0 n)) as [X|X]; [intros k; destruct (queue (after k s0)); [left|right]; congruence| |].
    - apply Exists_exists in X as [k [Hk X]]. apply in_seq in Hk. apply (IH k); [lia|auto].
    - exists n. split; auto. intros k Hk E. apply X. apply Exists_exists. exists k. split; auto. apply in_seq. lia. }
  destruct M as [m [M1 M2]]. exists (after m s0), (collect (after m s0) rs). apply pr_done; auto; [left; congruence|]. apply loop_after. exists m. auto.
Qed.

(** * C55 *)
Lemma flat_nth {A B} (f : A -> list B) l : flat_map f l = flat_map (fun k => match nth_error l k with Some x => f x | None => [] end) (seq 0 (List.length l)).
Proof.
  induction l as [|x l IH]; auto. cbn [List.length seq flat_map nth_error]. f_equal. rewrite IH. rewrite <- seq_shift. rewrite !flat_map_concat_map. f_equal. rewrite map_map. apply map_ext_in. reflexivity.
Qed.
Lemma map_flat {A B C} (g : B -> C) (f : A -> list B) l : map g (flat_map f l) = flat_map (fun x => map g (f x)) l.
Proof. induction l as [|x l IH]; auto. simpl. now rewrite map_app, IH. Qed.
(** The result has, in the order of the list, one entry for each dictionary in the list itself (used for the first time) that asks for
    data and was applied: the values of its bundles right after the cycle in which it was applied, and that cycle.  It has no
    other entries.  Missing: dictionaries returned by callables; dictionaries that are used again. *)
Theorem C55_partial s rs s' l : idle s -> distinct s rs -> (forall i d, In (RDict i) rs -> nth_error (heap s) i = Some d -> d_ret d = None) -> process_requests s rs (s', Ok l) ->
  let s0 := put_all s rs in exists n, s' = after n s0 /\ cyc s' = cyc s + n /\ map fst l = answers s0 rs (schedule (may s0 rs) n).
Proof.
  intros Id Di Fr P s0. pose proof Id as [Q [B C]]. inversion P as [ |? ? H1 H2 H3|? ? s1 H1 H2 H3]; subst. apply loop_after in H3 as [n [E [E1 E2]]]. exists n. fold s0 in E, E1, E2. split; auto. split; [rewrite E; apply (cyc_after s0 n C)|].
  unfold collect. rewrite map_flat, flat_nth. unfold Req_Spec.answers. rewrite !flat_map_concat_map. f_equal. apply map_ext_in. intros k Hk. apply in_seq in Hk. destruct (nth_error rs k) as [[|i|f]|] eqn:Er; auto.
  destruct Di as [V D]. destruct (nth_error (heap s) i) as [d|] eqn:Ed; [|apply nth_error_None in Ed; specialize (V _ _ Er); lia]. change (heap s0) with (heap s). change (cyc s0) with (cyc s). rewrite Ed.
  destruct (st_all s rs Id (conj V D) n) as [_ [[_ H] _]]. specialize (H k i d Er Ed). cbv beta zeta in H. fold s0 in H. rewrite E. pose proof (Fr i d (nth_error_In _ _ Er) Ed) as Fd. revert H. destruct (Nat.leb_spec (List.length (schedule (may s0 rs) n)) k) as [X|X]; intros H.
  - rewrite H, Fd. assert (Y : nth_error (schedule (may s0 rs) n) k = None) by now apply nth_error_None. now rewrite Y.
  - destruct H as [d' [H [_ [_ [fr [_ H']]]]]]. rewrite H. rewrite (nth_error_nth' _ 0 X). destruct (d_bundles d) as [bs|].
    + rewrite H'. reflexivity.
    + rewrite H', Fd. reflexivity.
Qed.
End Thms.
Print Assumptions C53_unconditional.
Print Assumptions C54_blocks.
Print Assumptions C54_partial.
Print Assumptions C54_returns.
Print Assumptions C55_partial.

(** * Examples: the DUT is a counter; assigning adds to a second register. *)
Definition cnt (m : nat * nat) := (S (fst m), snd m).
Definition put (d : nat) (m : nat * nat) := (fst m, d).
Definition mkd c d b := @mk_dict (nat * nat) nat nat c d [None] b None.
Definition rd (m : nat * nat) : nat := snd m + fst m.
Definition start h : @state (nat * nat) nat nat := mk_state h [] None (0, 0) 10 1 [].
Definition pd7 := mkd None 7 (Some [rd]).
Definition pd8 := mkd None 8 None.
Definition late := mkd (Some (fun _ m => 4 <=? fst m)) 9 (Some [rd; rd]).
(** Three requests, one of them None, one callable. *)
Example C53_ex : let rs := [RDict 0; RNone; RDict 0; RCall (fun c m => ((fst m, 100), Some (mkd None c None)))] in
  idle (start [pd7]) /\ Forall (plain (start [pd7])) rs /\
  exists s' r, process_requests cnt put (start [pd7]) rs (s', Ok r) /\ cyc s' = 14 /\ assigned s' = [(11, 7); (13, 7); (14, 14)].
Proof.
  intros rs. assert (Id : idle (start [pd7])) by (repeat split). assert (P : Forall (plain (start [pd7])) rs).
  { repeat constructor; try (exists pd7; split; reflexivity). intros c m d H. simpl in H. injection H as <-. reflexivity. }
  split; auto. split; auto. destruct (C53_unconditional cnt put _ rs Id P) as [s' [r [H [H1 [_ [H2 _]]]]]]. exists s', r. split; auto.
Qed.
(** The second request waits for the counter to reach 4. *)
Example C54_ex : let s := start [pd7; late; pd8] in let rs := [RDict 0; RDict 1; RDict 2] in
  idle s /\ distinct s rs /\ schedule (may cnt put (put_all s rs) rs) 9 = [1; 4; 5] /\
  exists s' r, process_requests cnt put s rs (s', Ok r) /\ cyc s' = 15 /\ map fst r = [(Single 8, 11); (Several [13; 13], 14)] /\ assigned s' = [(11, 7); (14, 9); (15, 8)].
Proof.
  intros s rs. split; [repeat split|]. split.
  { split; [intros [|[|[|[|k]]]] i H; simpl in H; try discriminate; injection H as <-; simpl; lia|].
    intros [|[|[|[|k]]]] [|[|[|[|k']]]] i H H'; simpl in H, H'; congruence. }
  split; [reflexivity|]. exists (after cnt put 5 (put_all s rs)), (collect (after cnt put 5 (put_all s rs)) rs). split; [|split; [|split]]; [|reflexivity|reflexivity|reflexivity].
  apply pr_done; [reflexivity|left; discriminate|]. apply loop_after. exists 5. repeat split. intros k Hk. do 5 (destruct k as [|k]; [discriminate|]). lia.
Qed.
(** The claim that process_requests does not return before all requests have been applied is false: with the conditional request
    last, it returns after one cycle, nothing is ever assigned, no data is returned. *)
Theorem C54_refuted : let s := start [late] in let rs := [RDict 0] in
  idle s /\ distinct s rs /\ exists s', process_requests cnt put s rs (s', Ok []) /\ cyc s' = 11 /\ assigned s' = [] /\ blocked s' = Some 0.
Proof.
  intros s rs. split; [repeat split|]. split.
  { split; [intros [|[|k]] i H; simpl in H; try discriminate; injection H as <-; simpl; lia|]. intros [|[|k]] [|[|k']] i H H'; simpl in H, H'; congruence. }
  exists (after cnt put 1 (put_all s rs)). split; [|auto]. apply (pr_done cnt put s rs); [reflexivity|left; discriminate|]. apply loop_after. exists 1. repeat split. intros [|k] Hk; [discriminate|lia].
Qed.
Print Assumptions C54_refuted.
(** The data a callable's dictionary asks for is not returned, though the request is applied. *)
Theorem C55_callable_refuted : let s := start [] in let rs := [RCall (fun _ m => (m, Some pd7))] in
  idle s /\ distinct s rs /\ exists s', process_requests cnt put s rs (s', Ok []) /\ cyc s' = 11 /\ assigned s' = [(11, 7)].
Proof.
  intros s rs. split; [repeat split|]. split; [split; intros [|[|k]]; discriminate|].
  exists (after cnt put 1 (put_all s rs)). split; [|auto]. apply (pr_done cnt put s rs); [reflexivity|left; discriminate|]. apply loop_after. exists 1. repeat split. intros [|k] Hk; [discriminate|lia].
Qed.
Print Assumptions C55_callable_refuted.
(** The same dictionary twice in the list: both entries report the first application (cycle 11, although the second one is in
    cycle 12). *)
Theorem C55_reuse_refuted : let s := start [pd7] in let rs := [RDict 0; RDict 0] in
  idle s /\ exists s' r, process_requests cnt put s rs (s', Ok r) /\ assigned s' = [(11, 7); (12, 7)] /\ map fst r = [(Single 8, 11); (Single 8, 11)].
Proof.
  intros s rs. split; [repeat split|].
  exists (after cnt put 2 (put_all s rs)), (collect (after cnt put 2 (put_all s rs)) rs). split; [|split]; [|reflexivity|reflexivity]. apply (pr_done cnt put s rs); [reflexivity|left; discriminate|]. apply loop_after. exists 2. repeat split. intros [|[|k]] Hk; [discriminate|discriminate|lia].
Qed.
Print Assumptions C55_reuse_refuted.
