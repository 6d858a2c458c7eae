(** C111: the end of a test that clocks several DUTs. *)
From Coq Require Import List Bool Arith Lia.
From Verif Require Import Clk_Model Clk_Spec P_Clk ClkEnd_Model.
Import ListNotations.

Section Thms.
Context {mem : Type} (dut : nat -> mem -> mem).
Notation act0 := (@act mem). Notation st := (@st (@mem1 mem)). Notation est := (@est mem).
Notation emove := (emove dut). Notation emoves := (emoves dut). Notation move := (move (dut1 dut)). Notation moves := (moves (dut1 dut)).
Implicit Types (s : st) (e : est).

(** main_coro has returned: run() returns. *)
Definition run_over e : Prop := nth_error (tasks (e_st e)) 0 = Some Ended.
(** The test has returned. *)
Definition test_over e : Prop := fst (mm (e_st e)) = true.
(** How often DUT [d] has been stepped. *)
Definition stepped e d : nat := steps_of (e_st e) d.
(** main_coro waits for the clock of [d]. *)
Definition main_waits e d : Prop := exists k, waiting (e_st e) 0 d k.
(** run() returns, after one more step of DUT [c] and none of another DUT. *)
Definition comes_back e c : Prop := exists i, run_over (emoves i e) /\ (forall j, j < i -> ~ run_over (emoves j e)) /\ forall d, stepped (emoves i e) d = if Nat.eqb c d then S (stepped e d) else stepped e d.
(** run() never returns: DUT [c] is stepped again and again, every other DUT never again. *)
Definition never_comes_back e c : Prop := (forall i, ~ run_over (emoves i e) /\ forall d, d <> c -> stepped (emoves i e) d = stepped e d) /\ forall q, exists i, stepped (emoves i e) c = stepped e c + q.

Lemma emoves_plus a b e : emoves (a + b) e = emoves b (emoves a e).
Proof. revert e. induction a as [|a IH]; intros e; cbn [Nat.add ClkEnd_Model.emoves]; auto. Qed.
Lemma emoves_S n e : emoves (S n) e = emove (emoves n e).
Proof. replace (S n) with (n + 1) by lia. rewrite emoves_plus. reflexivity. Qed.

(** * A clock loop ends the test *)
Section Ending.
Context (L c : nat).
(** Main waits for the last time, the other tasks have ended or are about to. *)
Definition ends_soon (e : est) (h : list handle) : Prop :=
  over (e_st e) = true /\ nth_error (tasks (e_st e)) 0 = Some (Waits L leave) /\ waits (e_st e) = [0] /\ forall t x, t <> 0 -> nth_error (tasks (e_st e)) t = Some x -> x = Ended \/ In (HTask t) h.
Definition J e : Prop :=
  match e_end e with
  | Gathers x n => x = c /\ n = length (ready (e_st e)) /\ n <> 0 /\ ~ In (HTask 0) (ready (e_st e)) /\ ends_soon e (ready (e_st e))
  | Woken x | Naps x => x = c /\ ready (e_st e) = [HClk c] /\ ends_soon e []
  | NotYet => ready (e_st e) = [HClk c] /\ ends_soon e []
  end.
Lemma no_run e : ends_soon e [] -> has_unwait (e_st e) = false.
Proof. intros [_ [M [_ O]]]. apply no_unwait. intros [|t] k R; unfold runnable in R; [congruence|]. destruct (O (S t) _ ltac:(discriminate) R) as [X|[]]. discriminate. Qed.
Lemma no_victims e : ends_soon e [] -> victims (e_st e) = [].
Proof.
  intros [_ [M [_ O]]]. unfold victims. apply incl_l_nil. intros t H. apply filter_In in H as [_ H]. destruct t as [|t]; [rewrite M in H; discriminate|]. destruct (nth_error (tasks (e_st e)) (S t)) as [x|] eqn:E; [|discriminate].
  destruct (O (S t) x ltac:(discriminate) E) as [->|[]]. discriminate.
Qed.
Lemma ends_put e t r x : t <> 0 -> ends_soon e (HTask t :: r) -> ends_soon (mk_est (mk_st x (put (tasks (e_st e)) t Ended) (waits (e_st e)) (steps_of (e_st e)) (mm (e_st e))) NotYet) r.
Proof.
  intros N [A [B [C D]]]. split; [exact A|]. cbn [e_st tasks waits]. split; [rewrite put_get; destruct (Nat.eqb_spec t 0); [contradiction|exact B]|]. split; [exact C|]. intros u y Nu H. rewrite put_get in H. destruct (Nat.eqb_spec t u) as [->|Ne].
  - left. destruct (Nat.ltb u (length (tasks (e_st e)))); congruence.
  - destruct (D u y Nu H) as [X|[X|X]]; auto. injection X as X. contradiction.
Qed.
Lemma ends_clk e d r : ends_soon e (HClk d :: r) -> ends_soon e r.
Proof. intros [A [B [C D]]]. split; auto. split; auto. split; auto. intros u y Nu H. destruct (D u y Nu H) as [X|[X|X]]; auto. discriminate. Qed.
Lemma J_waits e : J e -> nth_error (tasks (e_st e)) 0 = Some (Waits L leave).
Proof. unfold J. destruct (e_end e); [intros [_ X]|intros [_ [_ [_ [_ X]]]]|intros [_ [_ X]]|intros [_ [_ X]]]; apply X. Qed.
Lemma J_move e : J e -> (e_end e <> Naps c \/ c <> L) ->
  J (emove e) /\ forall d, stepped (emove e) d = match e_end e with Naps _ => if Nat.eqb c d then S (stepped e d) else stepped e d | _ => stepped e d end.
Proof.
  intros HJ HN. unfold J in HJ. unfold stepped, ClkEnd_Model.emove. destruct (e_end e) as [|x n|x|x] eqn:EE.
  - destruct HJ as [ER ES]. rewrite ER, (no_run e ES), (proj1 ES). unfold cancel_all. rewrite (no_victims e ES). cbn [app map]. unfold J. cbn [e_end e_st ready steps_of]. split; [|auto]. split; auto.
  - destruct HJ as [-> [-> [NZ [N0 ES]]]]. destruct (ready (e_st e)) as [|[d|t] r] eqn:ER; [cbn in NZ; lia|..]; cbn [length].
    + unfold gone. destruct r as [|h r]; cbn [length]; unfold J; cbn [e_end e_st ready steps_of app]; (split; [|auto]).
      * split; auto. split; auto. exact (ends_clk e d [] ES).
      * split; auto. split; auto. split; [discriminate|]. split; [intros X; apply N0; now right|]. exact (ends_clk e d _ ES).
    + assert (T : t <> 0) by (intros ->; apply N0; now left). unfold gone. destruct r as [|h r]; cbn [length]; unfold J; cbn [e_end e_st ready steps_of app]; (split; [|auto]).
      * split; auto. split; auto. exact (ends_put e t [] [HClk c] T ES).
      * split; auto. split; auto. split; [discriminate|]. split; [intros X; apply N0; now right|]. exact (ends_put e t _ (h :: r) T ES).
  - destruct HJ as [-> [ER ES]]. rewrite ER. unfold J. cbn [e_end e_st ready steps_of app]. split; auto.
  - destruct HJ as [-> [ER ES]]. rewrite ER. destruct HN as [HN|HN]; [congruence|]. unfold J. cbn [e_end e_st ready steps_of clock_step app]. split; [|reflexivity].
    destruct ES as [A [B [C D]]]. assert (WN : woken (e_st e) c = []). { unfold woken. rewrite C. cbn [filter]. unfold waits_on. rewrite B. cbn [on]. destruct (Nat.eqb_spec c L); [contradiction|reflexivity]. }
    rewrite WN. cbn [map app]. split; auto. split; [exact A|]. cbn [e_st tasks waits clock_step]. split; [rewrite nth_wake, B; destruct (Nat.eqb_spec c L); [contradiction|reflexivity]|]. split.
    + rewrite C. cbn [filter]. unfold waits_on. rewrite B. cbn [on]. destruct (Nat.eqb_spec c L); [contradiction|reflexivity].
    + intros t x Nt H. rewrite nth_wake in H. destruct (nth_error (tasks (e_st e)) t) as [y|] eqn:EY; [|discriminate]. destruct (D t y Nt EY) as [->|[]]. left. congruence.
Qed.
(** The clock loop comes to its step. *)
Lemma J_naps e : J e -> exists i, J (emoves i e) /\ e_end (emoves i e) = Naps c /\ (forall d, stepped (emoves i e) d = stepped e d) /\ forall j, j <= i -> ~ run_over (emoves j e).
Proof.
  assert (X : forall n e, J e -> match e_end e with NotYet => 1 | Gathers _ n => 2 + n | Woken _ => 1 | Naps _ => 0 end <= n ->
     exists i, J (emoves i e) /\ e_end (emoves i e) = Naps c /\ (forall d, stepped (emoves i e) d = stepped e d) /\ forall j, j <= i -> ~ run_over (emoves j e)).
  { induction n as [|n IH]; intros e0 HJ HL.
    - assert (HW := J_waits e0 HJ). destruct (e_end e0) as [|x k|x|x] eqn:EE; try lia. unfold J in HJ. rewrite EE in HJ. exists 0. cbn [ClkEnd_Model.emoves]. split; [unfold J; now rewrite EE|]. split; [rewrite EE; f_equal; apply HJ|]. split; auto.
      intros j Hj. replace j with 0 by lia. unfold run_over. cbn [ClkEnd_Model.emoves]. congruence.
    - assert (HW := J_waits e0 HJ). assert (D : (exists x, e_end e0 = Naps x) \/ forall x, e_end e0 <> Naps x) by (destruct (e_end e0); eauto; right; intros ?; discriminate). destruct D as [[x EE]|D].
      + unfold J in HJ. rewrite EE in HJ. exists 0. cbn [ClkEnd_Model.emoves]. split; [unfold J; now rewrite EE|]. split; [rewrite EE; f_equal; apply HJ|]. split; auto. intros j Hj. replace j with 0 by lia. unfold run_over. cbn [ClkEnd_Model.emoves]. congruence.
      + destruct (J_move e0 HJ (or_introl (D c))) as [HJ1 ST]. destruct (IH (emove e0) HJ1) as [i [A [B [C F]]]].
        * unfold J in HJ. unfold ClkEnd_Model.emove. destruct (e_end e0) as [|x k|x|x] eqn:EE; [| | |exfalso; now apply (D x)].
          -- destruct HJ as [ER ES]. rewrite ER, (no_run e0 ES), (proj1 ES). unfold cancel_all. rewrite (no_victims e0 ES). cbn. lia.
          -- destruct HJ as [-> [-> [NZ _]]]. destruct (ready (e_st e0)) as [|[d|t] [|h r]]; cbn in *; lia.
          -- destruct HJ as [-> [ER _]]. rewrite ER. cbn. lia.
        * exists (S i). cbn [ClkEnd_Model.emoves]. split; auto. split; auto. split.
          -- intros d. rewrite C, ST. destruct (e_end e0) as [| | |x] eqn:EE; auto. exfalso. now apply (D x).
          -- intros [|j] Hj; cbn [ClkEnd_Model.emoves]; [unfold run_over; congruence|]. apply F. lia. }
  intros HJ. exact (X _ e HJ (le_n _)).
Qed.
Lemma J_back e : J e -> c = L -> comes_back e c.
Proof.
  intros HJ EL. destruct (J_naps e HJ) as [i [A [B [C D]]]]. exists (S (S i)). rewrite !emoves_S. unfold J in A. rewrite B in A. destruct A as [_ [ER [A1 [A2 [A3 A4]]]]]. set (e1 := emoves i e) in *.
  assert (E1 : emove e1 = mk_est (clock_step (dut1 dut) (e_st e1) c []) NotYet) by (unfold ClkEnd_Model.emove; rewrite B, ER; reflexivity).
  assert (WN : woken (e_st e1) c = [0]). { unfold woken. rewrite A3. cbn [filter]. unfold waits_on. rewrite A2. cbn [on]. rewrite EL, Nat.eqb_refl. reflexivity. }
  assert (T0 : nth_error (tasks (e_st (emove e1))) 0 = Some (Can leave)) by (rewrite E1; cbn [e_st tasks clock_step]; rewrite nth_wake, A2, EL, Nat.eqb_refl; reflexivity).
  assert (R1 : ready (e_st (emove e1)) = [HTask 0; HClk c]) by (rewrite E1; cbn [e_st ready clock_step]; rewrite WN; reflexivity).
  assert (E2 : emove (emove e1) = mk_est (mk_st [HClk c] (put (tasks (e_st (emove e1))) 0 Ended) (waits (e_st (emove e1))) (steps_of (e_st (emove e1))) (mm (e_st (emove e1)))) NotYet).
  { unfold ClkEnd_Model.emove at 1. rewrite R1. replace (e_end (emove e1)) with (@NotYet) by (rewrite E1; reflexivity). unfold Clk_Model.move. rewrite R1. unfold resume. rewrite T0. reflexivity. }
  split; [|split].
  - unfold run_over. rewrite E2. cbn [e_st tasks]. rewrite put_get. cbn [Nat.eqb]. assert (X : Nat.ltb 0 (length (tasks (e_st (emove e1)))) = true) by (apply Nat.ltb_lt, nth_error_Some; congruence). now rewrite X.
  - intros j Hj. destruct (Nat.eq_dec j (S i)) as [->|N]; [|apply D; lia]. rewrite emoves_S. unfold run_over. fold e1. congruence.
  - intros d. rewrite <- C. unfold stepped. rewrite E2. cbn [e_st steps_of]. rewrite E1. reflexivity.
Qed.
Lemma J_never e : J e -> c <> L -> never_comes_back e c.
Proof.
  intros HJ NL. assert (X : forall i, J (emoves i e) /\ forall d, d <> c -> stepped (emoves i e) d = stepped e d).
  { induction i as [|i [IH1 IH2]]; [split; auto|]. rewrite emoves_S. destruct (J_move _ IH1 (or_intror NL)) as [A B]. split; auto. intros d Hd. rewrite B, IH2 by auto. destruct (e_end (emoves i e)); auto. destruct (Nat.eqb_spec c d); congruence. }
  split.
  - intros i. destruct (X i) as [A B]. split; auto. unfold run_over. rewrite (J_waits _ A). discriminate.
  - intros q. induction q as [|q [i IH]]; [exists 0; cbn; lia|]. destruct (X i) as [A _]. destruct (J_naps _ A) as [j [A1 [A2 [A3 _]]]]. exists (S (i + j)). rewrite emoves_S, emoves_plus. destruct (J_move _ A1 (or_intror NL)) as [_ B]. rewrite B, A2, Nat.eqb_refl, A3, IH. lia.
Qed.
(** The first move of the clock loop that ends the test. *)
Lemma J_first e cs : e_end e = NotYet -> wf (e_st e) -> rest (e_st e) (c :: cs) -> over (e_st e) = true -> nth_error (tasks (e_st e)) 0 = Some (Waits L leave) -> J (emove e) /\ forall d, stepped (emove e) d = stepped e d.
Proof.
  intros EE [W1 [W2 [W3 W4]]] [ER NR] OV M. unfold stepped, ClkEnd_Model.emove. rewrite EE, ER. cbn [map]. assert (U : has_unwait (e_st e) = false) by now apply no_unwait. rewrite U, OV. unfold cancel_all.
  assert (VI : forall t x, t <> 0 -> nth_error (tasks (e_st e)) t = Some x -> x = Ended \/ In (HTask t) (map HClk cs ++ map HTask (victims (e_st e)))).
  { intros t x Nt H. destruct x as [k|d k|]; [destruct (NR t k H)| |now left]. right. apply in_or_app. right. apply in_map. unfold victims. apply filter_In. split; [apply in_seq; split; [lia|]; apply nth_error_Some; congruence|]. rewrite H. destruct (Nat.eqb_spec t 0); [contradiction|reflexivity]. }
  assert (I0 : In 0 (waits (e_st e))) by (apply W4; unfold waiting; eauto). destruct (map HClk cs ++ map HTask (victims (e_st e))) as [|h q] eqn:EQ.
  - unfold J. cbn [e_end e_st ready steps_of]. split; [|auto]. split; auto. split; auto. split; [exact OV|]. cbn [e_st tasks waits]. split; [exact M|]. split; [|exact VI].
    assert (AL : forall t, In t (waits (e_st e)) -> t = 0). { intros t H. apply W4 in H as [d [k H]]. destruct (Nat.eq_dec t 0) as [|N]; auto. exfalso. destruct (VI t _ N H) as [X|[]]. discriminate. }
    destruct (waits (e_st e)) as [|a [|b w]]; [destruct I0|f_equal; apply AL; now left|]. exfalso. inversion W3 as [|? ? Nab _]. subst. apply Nab. rewrite (AL a), (AL b); cbn; auto.
  - unfold J. cbn [e_end e_st ready steps_of]. split; [|auto]. split; auto. split; auto. split; [discriminate|]. split.
    + rewrite <- EQ. intros X. apply in_app_or in X as [X|X]; apply in_map_iff in X as [y [Y1 Y2]]; [discriminate|]. injection Y1 as ->. unfold victims in Y2. apply filter_In in Y2 as [_ Y2]. rewrite M in Y2. discriminate.
    + split; [exact OV|]. cbn [e_st tasks waits]. split; [exact M|]. split; [|exact VI]. clear - W3 I0. induction (waits (e_st e)) as [|a w IH]; [destruct I0|]. cbn [filter]. inversion W3 as [|? ? Na W3']. subst. destruct (Nat.eqb_spec 0 a) as [<-|N].
      * f_equal. assert (X : forall y, In y (filter (Nat.eqb 0) w) -> False) by (intros y Hy; apply filter_In in Hy as [H1 H2]; apply Nat.eqb_eq in H2; now subst). destruct (filter (Nat.eqb 0) w) as [|y ?]; auto. destruct (X y). now left.
      * apply IH; auto. destruct I0 as [->|]; [contradiction|auto].
Qed.
End Ending.
Lemma later e1 e c : e1 = emove e -> ~ run_over e -> (forall d, stepped e1 d = stepped e d) -> (comes_back e1 c -> comes_back e c) /\ (never_comes_back e1 c -> never_comes_back e c).
Proof.
  intros -> N ST. split.
  - intros [i [A [B C]]]. exists (S i). split; [exact A|]. split; [intros [|j] Hj; [exact N|apply B; lia]|]. intros d. cbn [ClkEnd_Model.emoves]. rewrite C, ST. reflexivity.
  - intros [A B]. split.
    + intros [|i]; cbn [ClkEnd_Model.emoves]; [split; auto|]. destruct (A i) as [A1 A2]. split; auto. intros d Hd. rewrite A2 by exact Hd. apply ST.
    + intros q. destruct (B q) as [i Hi]. exists (S i). cbn [ClkEnd_Model.emoves]. now rewrite Hi, ST.
Qed.

(** * Before a clock loop ends the test *)
Lemma lift_eq (a : act0) : lift a = match a with Ends => Ends | Await d k => Await d (task k) end.
Proof. transitivity (match lift a with Ends => Ends | Await d k => Await d k end); [destruct (lift a); reflexivity|]. destruct a; reflexivity. Qed.
Lemma main_eq L d (k : mem -> mem * act0) : main_act L d k = Await d (main L k).
Proof. transitivity (match main_act L d k with Ends => Ends | Await d k => Await d k end); [destruct (main_act L d k); reflexivity|]. reflexivity. Qed.
Lemma main_run L (k : mem -> mem * act0) x : (exists d k', snd (main L k x) = Await d (main L k') /\ fst (fst (main L k x)) = fst x) \/ snd (main L k x) = Await L leave /\ fst (fst (main L k x)) = true.
Proof. unfold main. destruct (k (snd x)) as [m [|d k']]; [right; auto|]. left. exists d, k'. rewrite main_eq. auto. Qed.
Lemma task_run (k : mem -> mem * act0) x : (snd (task k x) = Ends \/ exists d k', snd (task k x) = Await d (task k')) /\ fst (fst (task k x)) = fst x.
Proof. unfold task. destruct (k (snd x)) as [m a]. split; [|reflexivity]. cbn [snd]. rewrite lift_eq. destruct a as [|d k']; [left; reflexivity|right; exists d, k'; reflexivity]. Qed.
(** What the tasks do next. *)
Definition shape L s : Prop :=
  (forall t x, t <> 0 -> nth_error (tasks s) t = Some x -> x = Ended \/ exists k, x = Can (task k) \/ exists d, x = Waits d (task k)) /\
  (if over s then nth_error (tasks s) 0 = Some (Waits L leave) \/ nth_error (tasks s) 0 = Some (Can leave) \/ nth_error (tasks s) 0 = Some Ended
   else exists k, nth_error (tasks s) 0 = Some (Can (main L k)) \/ exists d, nth_error (tasks s) 0 = Some (Waits d (main L k))).
Lemma clock_shape L s d r : shape L s -> shape L (clock_step (dut1 dut) s d r).
Proof.
  intros [O M]. split.
  - intros u x Nu H. cbn [tasks clock_step] in H. rewrite nth_wake in H. destruct (nth_error (tasks s) u) as [y|] eqn:EY; [|discriminate]. destruct (O u y Nu EY) as [->|[k [->|[d' ->]]]]; [left; congruence|right; exists k..].
    + left. congruence.
    + destruct (Nat.eqb d d'); [left|right; exists d']; congruence.
  - change (over (clock_step (dut1 dut) s d r)) with (over s). cbn [tasks clock_step]. rewrite nth_wake. destruct (over s).
    + destruct M as [->|[->| ->]]; auto. destruct (Nat.eqb d L); auto.
    + destruct M as [k [->|[d' ->]]]; exists k; eauto. destruct (Nat.eqb d d'); eauto.
Qed.
Lemma move_shape L s : shape L s -> shape L (move s) /\ (over s = true -> over (move s) = true).
Proof.
  intros [O M]. unfold Clk_Model.move. destruct (ready s) as [|[d|t] r]; [split; auto; now split|..].
  - destruct (has_unwait s); [split; auto; now split|]. split; [|auto]. apply clock_shape. now split.
  - unfold resume. destruct (nth_error (tasks s) t) as [[k|d k|]|] eqn:ET; try (split; auto; now split). assert (LT : Nat.ltb t (length (tasks s)) = true) by (apply Nat.ltb_lt, nth_error_Some; congruence).
    assert (K : exists st0 w, (let (m, a) := k (mm s) in match a with Await d k' => mk_st r (put (tasks s) t (Waits d k')) (waits s ++ [t]) (steps_of s) m | Ends => mk_st r (put (tasks s) t Ended) (waits s) (steps_of s) m end) = mk_st r (put (tasks s) t st0) w (steps_of s) (fst (k (mm s))) /\ st0 = now_ (snd (k (mm s)))).
    { destruct (k (mm s)) as [m [|d k']]; cbn; eauto. }
    destruct K as [st0 [w [K1 K2]]]. replace (match k (mm s) with (m, Ends) => mk_st r (put (tasks s) t Ended) (waits s) (steps_of s) m | (m, Await d k') => mk_st r (put (tasks s) t (Waits d k')) (waits s ++ [t]) (steps_of s) m end) with (mk_st r (put (tasks s) t st0) w (steps_of s) (fst (k (mm s)))) by (rewrite <- K1; destruct (k (mm s)) as [m []]; reflexivity).
    clear K1. unfold shape, over in *. cbn [tasks mm]. destruct (Nat.eq_dec t 0) as [->|NT].
    + assert (G : forall u, u <> 0 -> nth_error (put (tasks s) 0 st0) u = nth_error (tasks s) u) by (intros u Nu; rewrite put_get; destruct (Nat.eqb_spec 0 u); [congruence|reflexivity]).
      assert (G0 : nth_error (put (tasks s) 0 st0) 0 = Some st0) by (rewrite put_get, LT; reflexivity). rewrite G0.
      assert (OO : forall u x, u <> 0 -> nth_error (put (tasks s) 0 st0) u = Some x -> x = Ended \/ exists k, x = Can (task k) \/ exists d, x = Waits d (task k)) by (intros u x Nu H; rewrite G in H by exact Nu; eauto).
      destruct (fst (mm s)) eqn:EO.
      * destruct M as [M|[M|M]]; rewrite M in ET; try discriminate. injection ET as <-. cbn [leave fst snd] in *. rewrite EO. split; [|auto]. split; [exact OO|]. right. right. now rewrite K2.
      * destruct M as [k1 [M|[d M]]]; rewrite M in ET; [|discriminate]. injection ET as <-. destruct (main_run L k1 (mm s)) as [[d [k' [R1 R2]]]|[R1 R2]]; rewrite R2, K2, R1; cbn [now_].
        -- rewrite EO. split; [|discriminate]. split; [intros u x Nu H; rewrite put_get in H; destruct (Nat.eqb_spec 0 u); [congruence|eauto]|]. exists k'. right. exists d. reflexivity.
        -- split; [|discriminate]. split; [intros u x Nu H; rewrite put_get in H; destruct (Nat.eqb_spec 0 u); [congruence|eauto]|]. auto.
    + destruct (O t _ NT ET) as [X|[k1 [X|[d X]]]]; try discriminate. injection X as ->. destruct (task_run k1 (mm s)) as [R1 R2]. rewrite R2. split; [|auto]. split.
      * intros u x Nu H. rewrite put_get in H. destruct (Nat.eqb t u); [|eauto]. rewrite LT in H. injection H as <-. rewrite K2. destruct R1 as [->|[d [k' ->]]]; cbn [now_]; [now left|right; exists k'; right; eauto].
      * rewrite put_get. destruct (Nat.eqb_spec t 0); [contradiction|exact M].
Qed.
Lemma moves_shape L n s : shape L s -> shape L (moves n s).
Proof. revert s. induction n as [|n IH]; intros s H; cbn [Clk_Model.moves]; auto. apply IH. now apply move_shape. Qed.

(** The run begins: the test in task 0, the tasks [ks], the clock loops as in [l]. *)
Definition ebegins e L (test : mem -> mem * act0) ks l m : Prop :=
  e = estart L test ks l m /\ NoDup (task_handles l) /\ forall t, In t (task_handles l) <-> t < S (length ks).
Lemma ebegins_begins e L test ks l m : ebegins e L test ks l m -> begins (e_st e) (main L test :: map task ks) l (false, m).
Proof. intros [-> [A B]]. split; [reflexivity|]. split; auto. intros t. cbn [length]. rewrite map_length. apply B. Qed.
Lemma ebegins_shape e L test ks l m : ebegins e L test ks l m -> shape L (e_st e) /\ e_end e = NotYet.
Proof.
  intros [-> _]. split; [|reflexivity]. split.
  - intros [|t] x Nt H; [congruence|]. cbn in H. rewrite nth_error_map in H. rewrite nth_error_map in H. destruct (nth_error ks t) as [k|]; [|discriminate]. injection H as <-. right. exists k. now left.
  - cbn. exists test. now left.
Qed.
Lemma emove_move e : e_end e = NotYet -> (over (e_st e) = false \/ e_end (emove e) = NotYet) -> emove e = mk_est (move (e_st e)) NotYet.
Proof.
  intros EE H. unfold ClkEnd_Model.emove in *. rewrite EE in *. destruct (ready (e_st e)) as [|[d|t] r] eqn:ER; auto. destruct (has_unwait (e_st e)); auto. destruct (over (e_st e)); auto. destruct H as [H|H]; [discriminate|]. exfalso. unfold cancel_all in H. destruct (r ++ map HTask (victims (e_st e))); discriminate.
Qed.
Lemma emoves_moves n e : (forall i, i <= n -> e_end (emoves i e) = NotYet) -> emoves n e = mk_est (moves n (e_st e)) NotYet.
Proof.
  induction n as [|n IH]; intros H; [specialize (H 0 (le_n _)); destruct e; cbn in *; now subst|]. rewrite emoves_S, moves_S. assert (E := IH ltac:(intros i Hi; apply H; lia)). rewrite emove_move; [rewrite E; reflexivity|apply H; lia|right; rewrite <- emoves_S; apply H; lia].
Qed.
Lemma over_moves L n s : shape L s -> over (moves n s) = false -> over s = false.
Proof. intros SH. induction n as [|n IH]; auto. rewrite moves_S. intros H. apply IH. destruct (over (moves n s)) eqn:E; auto. apply (move_shape L) in E; [congruence|]. now apply moves_shape. Qed.
(** Ended, the clock loop never forgets that the test is over. *)
Lemma over_keeps L n e : shape L (e_st e) -> e_end e = NotYet -> over (e_st (emoves n e)) = false -> forall i, i <= n -> e_end (emoves i e) = NotYet.
Proof.
  intros SH EE. assert (X : forall n e, over (e_st e) = true -> shape L (e_st e) -> over (e_st (emoves n e)) = true).
  { clear. induction n as [|n IH]; intros e OV SH; auto. cbn [ClkEnd_Model.emoves]. apply IH.
    - unfold ClkEnd_Model.emove. destruct (e_end e) as [|x k|x|x]; destruct (ready (e_st e)) as [|[d|t] r] eqn:ER; try exact OV.
      + apply (move_shape L); auto.
      + destruct (has_unwait (e_st e)); [apply (move_shape L); auto|]. rewrite OV. unfold cancel_all. destruct (r ++ map HTask (victims (e_st e))); exact OV.
      + apply (move_shape L); auto.
      + destruct k; exact OV.
      + destruct k; [exact OV|]. destruct k; exact OV.
      + destruct k; [exact OV|]. destruct k; exact OV.
    - assert (SE : forall s', tasks s' = tasks (e_st e) -> mm s' = mm (e_st e) -> shape L s') by (intros s' E1 E2; unfold shape, over in *; rewrite E1, E2; exact SH).
      assert (ST : forall s' t, t <> 0 -> tasks s' = put (tasks (e_st e)) t Ended -> mm s' = mm (e_st e) -> shape L s').
      { intros s' t Nt E1 E2. unfold shape, over in *. rewrite E1, E2. destruct SH as [S1 S2]. rewrite put_get. destruct (Nat.eqb_spec t 0); [contradiction|]. split; [|exact S2]. intros u x Nu H. rewrite put_get in H. destruct (Nat.eqb t u); [|eauto]. destruct (Nat.ltb t (length (tasks (e_st e)))); [left; congruence|discriminate]. }
      assert (ST0 : forall s', tasks s' = put (tasks (e_st e)) 0 Ended -> mm s' = mm (e_st e) -> shape L s').
      { intros s' E1 E2. unfold shape, over in *. rewrite E1, E2, OV. rewrite OV in SH. destruct SH as [S1 S2]. split.
        - intros u x Nu H. rewrite put_get in H. destruct (Nat.eqb_spec 0 u); [congruence|eauto].
        - right. right. rewrite put_get. cbn [Nat.eqb]. assert (Q : nth_error (tasks (e_st e)) 0 <> None) by (destruct S2 as [->|[->| ->]]; discriminate). apply nth_error_Some in Q. apply Nat.ltb_lt in Q. now rewrite Q. }
      assert (SP : forall s' t, tasks s' = put (tasks (e_st e)) t Ended -> mm s' = mm (e_st e) -> shape L s') by (intros s' [|t]; [apply ST0|apply ST; discriminate]).
      unfold ClkEnd_Model.emove. destruct (e_end e) as [|x k|x|x]; destruct (ready (e_st e)) as [|[d|t] r] eqn:ER; try exact SH; try (apply SE; reflexivity); try (now apply (move_shape L)).
      + destruct (has_unwait (e_st e)); [now apply (move_shape L)|]. rewrite OV. unfold cancel_all. destruct (r ++ map HTask (victims (e_st e))); apply SE; reflexivity.
      + destruct k; exact SH.
      + destruct k as [|[|k]]; [exact SH|apply SE; reflexivity..].
      + destruct k as [|[|k]]; [exact SH|eapply SP; reflexivity..].
      + now apply clock_shape.
      + now apply clock_shape. }
  revert e SH EE. induction n as [|n IH]; intros e SH EE OV i Hi; [now replace i with 0 by lia|]. destruct i as [|i]; [exact EE|]. cbn [ClkEnd_Model.emoves] in *. destruct (over (e_st e)) eqn:OE.
  - specialize (X (S n) e OE SH). cbn [ClkEnd_Model.emoves] in X. congruence.
  - assert (M := emove_move e EE (or_introl OE)). apply IH; [rewrite M; now apply move_shape|now rewrite M|exact OV|lia].
Qed.

(** The test has returned, no clock loop has noticed it yet, nothing but clock loops can run and the loop of DUT [c] comes first.  If [c] is the DUT for which start_clock was
    called last, run() returns, after one more step of this DUT and of no other.  Otherwise run() never returns. *)
Theorem C111_first_clock_partial e0 L test ks l m n e c cs : ebegins e0 L test ks l m -> e = emoves n e0 -> (forall i, i <= n -> e_end (emoves i e0) = NotYet) -> rest (e_st e) (c :: cs) -> test_over e -> ~ run_over e ->
  (c = L -> comes_back e c) /\ (c <> L -> never_comes_back e c).
Proof.
  intros B -> NY R T NR. assert (BB := ebegins_begins _ _ _ _ _ _ B). destruct (ebegins_shape _ _ _ _ _ _ B) as [SH EE]. assert (E := emoves_moves n e0 NY). set (e := emoves n e0) in *.
  assert (W : wf (e_st e)) by (rewrite E; cbn [e_st]; apply moves_wf; eapply begins_wf; eauto). assert (SE : shape L (e_st e)) by (rewrite E; now apply moves_shape). destruct SE as [_ SM].
  unfold test_over in T. unfold over in SM. rewrite T in SM. assert (M : nth_error (tasks (e_st e)) 0 = Some (Waits L leave)) by (destruct SM as [SM|[SM|SM]]; [exact SM|destruct R as [_ R]; destruct (R 0 _ SM)|destruct (NR SM)]).
  destruct (J_first L c e cs (NY n (le_n _)) W R T M) as [HJ ST]. destruct (later (emove e) e c eq_refl NR ST) as [L1 L2]. split; intros H; [apply L1; now apply (J_back L)|apply L2; now apply (J_never L)].
Qed.

Lemma run_has (f : nat -> option (@mem1 mem -> @mem1 mem * act)) (P : nat -> act -> Prop) ts : forall x y acts t k, run_tasks f ts x = (y, acts) -> Forall2 P ts acts -> (forall u, In u ts -> f u <> None) -> In t ts -> f t = Some k -> exists z, P t (snd (k z)).
Proof.
  induction ts as [|u ts IH]; intros x y acts t k RT F2 D H Ft; [destruct H|]. destruct H as [->|H].
  - cbn [run_tasks] in RT. rewrite Ft in RT. destruct (k x) as [m1 a] eqn:EK. destruct (run_tasks f ts m1) as [m2 l0]. injection RT as _ <-. inversion F2. subst. exists x. now rewrite EK.
  - cbn [run_tasks] in RT. destruct (f u) as [ku|] eqn:EU; [|destruct (D u (or_introl eq_refl) EU)]. destruct (ku x) as [m1 a]. destruct (run_tasks f ts m1) as [m2 l0] eqn:ER. injection RT as _ <-. inversion F2. subst. eapply IH; eauto. intros v Hv. apply D. now right.
Qed.
(** Nothing but clock loops can run, the loop of DUT [c] comes first and the test awaits the clock of [c].  After one step of [c], and of no other DUT, the same loop comes
    first again; if the test has returned by then, run() returns if [c] is the DUT for which start_clock was called last, and never returns otherwise. *)
Theorem C111_await_partial e0 L test ks l m n e c cs : ebegins e0 L test ks l m -> e = emoves n e0 -> ~ test_over e -> rest (e_st e) (c :: cs) -> main_waits e c ->
  exists j, let e' := emoves j e in 0 < j /\ rest (e_st e') (c :: cs) /\ (forall d, stepped e' d = if Nat.eqb c d then S (stepped e d) else stepped e d) /\ ~ run_over e' /\
    (test_over e' -> (c = L -> comes_back e' c) /\ (c <> L -> never_comes_back e' c)).
Proof.
  intros B EN T R [k0 MW]. assert (BB := ebegins_begins _ _ _ _ _ _ B). destruct (ebegins_shape _ _ _ _ _ _ B) as [SH EE]. unfold test_over in T. assert (OF : over (e_st e) = false) by (unfold over; destruct (fst (mm (e_st e))); congruence).
  assert (NY : forall i, i <= n -> e_end (emoves i e0) = NotYet) by (subst e; now apply (over_keeps L)). assert (E := emoves_moves n e0 NY). rewrite <- EN in E. assert (ES : e_st e = moves n (e_st e0)) by now rewrite E.
  assert (SE : shape L (e_st e)) by (rewrite ES; now apply moves_shape). assert (W : wf (e_st e)) by (rewrite ES; apply moves_wf; eapply begins_wf; eauto).
  pose proof (C107_round_partial (dut1 dut) (e_st e0) _ _ _ n (e_st e) c cs BB ES R) as [RO R1]. assert (IW : In 0 (waiters (e_st e) c)).
  { unfold waiters. apply filter_In. split; [apply W; eauto|]. unfold waiting in MW. now rewrite MW, Nat.eqb_refl. }
  destruct (waiters (e_st e) c) as [|w0 ws] eqn:EW; [destruct IW|]. destruct RO as [j [PJ [RJ [RN SJ]]]]. assert (X : forall i, i <= j -> emoves i e = mk_est (moves i (e_st e)) NotYet).
  { induction i as [|i IH]; intros Hi; [rewrite E; reflexivity|]. specialize (IH ltac:(lia)). rewrite emoves_S, moves_S, IH. set (s := moves i (e_st e)) in *. unfold ClkEnd_Model.emove. cbn [e_end e_st]. destruct (ready s) as [|[d|t] r] eqn:ER; auto. destruct (has_unwait s) eqn:EU; auto. destruct (over s) eqn:OS; auto. exfalso.
    assert (I0 : i <> 0) by (intros ->; unfold s in OS; cbn [Clk_Model.moves] in OS; congruence). assert (SD : steps_of (move s) d = S (steps_of s d)) by (unfold Clk_Model.move; rewrite ER, EU; cbn; now rewrite Nat.eqb_refl).
    assert (M1 := steps_monos (dut1 dut) (j - S i) (move s) d). rewrite SD in M1. unfold s in M1 at 2. rewrite <- moves_S, <- moves_plus in M1. replace (S i + (j - S i)) with j in M1 by lia. rewrite SJ in M1.
    assert (M2 := steps_monos (dut1 dut) (i - 1) (move (e_st e)) d). change (move (e_st e)) with (moves 1 (e_st e)) in M2 at 2. rewrite <- moves_plus in M2. replace (1 + (i - 1)) with i in M2 by lia. fold s in M2. rewrite R1 in M2. destruct (Nat.eqb c d); lia. }
  assert (NR : ~ run_over (emoves j e)).
  { unfold run_over. rewrite X by lia. cbn [e_st]. destruct RN as [acts [RT [F2 _]]]. assert (WD : will_do (e_st e) c 0 = Some k0) by (unfold will_do, waiting in *; now rewrite MW, Nat.eqb_refl).
    destruct SE as [_ SM]. rewrite OF in SM. destruct SM as [k1 [SM|[d SM]]]; unfold waiting in MW; rewrite MW in SM; [discriminate|]. injection SM as _ ->.
    destruct (run_has _ _ _ _ _ _ 0 _ RT F2 ltac:(intros u Hu; rewrite <- EW in Hu; unfold waiters in Hu; apply filter_In in Hu as [_ Hu]; unfold will_do; destruct (nth_error (tasks (e_st e)) u) as [[|d' k'|]|]; try discriminate; rewrite Hu; discriminate) IW WD) as [z HZ]. rewrite HZ.
    destruct (main_run L k1 z) as [[d1 [k2 [-> _]]]|[-> _]]; discriminate. }
  exists j. cbv zeta. split; [exact PJ|]. split; [rewrite X by lia; exact RJ|]. split; [intros d; unfold stepped; rewrite X by lia; exact (SJ d)|]. split; [exact NR|]. intros TO.
  apply (C111_first_clock_partial e0 L test ks l m (n + j) (emoves j e) c cs B); auto.
  - rewrite EN, emoves_plus. reflexivity.
  - intros i Hi. destruct (le_lt_dec i n) as [Le|G]; [now apply NY|]. replace i with (n + (i - n)) by lia. rewrite emoves_plus, <- EN, X by lia. reflexivity.
  - rewrite X by lia. exact RJ.
Qed.
End Thms.
Print Assumptions C111_first_clock_partial.
Print Assumptions C111_await_partial.

(** * Two DUTs: start_clock is called for DUT 0, then for DUT 1 *)
Definition wait1 (d : nat) : list nat -> list nat * @act (list nat) := fun m => (m, Await d (fun m => (m ++ [7], Ends))).
(** Another task, which awaits the other clock for ever. *)
Definition order : list handle := [HTask 0; HClk 0; HClk 1; HTask 1].
Definition on_clock (d : nat) : @est (list nat) := estart 1 (wait1 d) [again 1] order [].
Lemma on_begins d : ebegins (on_clock d) 1 (wait1 d) [again 1] order [].
Proof. split; [reflexivity|]. cbn. split; [repeat constructor; cbn; intuition discriminate|]. intros t. cbn. lia. Qed.
Lemma on_rest d : rest (e_st (emoves clk 4 (on_clock d))) [0; 1] /\ main_waits (emoves clk 4 (on_clock d)) d /\ ~ test_over (emoves clk 4 (on_clock d)).
Proof. split; [|split; [eexists; reflexivity|discriminate]]. split; [reflexivity|]. intros [|[|[|t]]] k H; discriminate H. Qed.
(** The claim is false: a test that awaits one cycle of DUT 0 and returns; run() never returns, DUT 0 is stepped again and again. *)
Theorem C111_refuted : let e := on_clock 0 in ebegins e 1 (wait1 0) [again 1] order [] /\ test_over (emoves clk 7 e) /\ (forall n, ~ run_over (emoves clk n e)) /\ forall q, exists n, stepped (emoves clk n e) 0 = S q.
Proof.
  cbv zeta. split; [apply on_begins|]. split; [reflexivity|]. assert (X : never_comes_back clk (emoves clk 7 (on_clock 0)) 0).
  { apply (proj2 (C111_first_clock_partial clk (on_clock 0) 1 (wait1 0) [again 1] order [] 7 _ 0 [1] (on_begins 0) eq_refl
      ltac:(intros i Hi; do 8 (destruct i as [|i]; [reflexivity|]); lia) ltac:(split; [reflexivity|]; intros [|[|[|t]]] k H; discriminate H) eq_refl ltac:(intros H; discriminate H))). discriminate. }
  destruct X as [X1 X2]. split.
  - intros n. destruct (le_lt_dec 7 n) as [G|G].
    + replace n with (7 + (n - 7)) by lia. rewrite emoves_plus. apply X1.
    + do 7 (destruct n as [|n]; [intros H; discriminate H|]). lia.
  - intros q. destruct (X2 q) as [i Hi]. exists (7 + i). rewrite emoves_plus, Hi. reflexivity.
Qed.
Print Assumptions C111_refuted.

(** The hypotheses are met: a test that awaits DUT 1, the last one, returns and so does run(); a test that awaits DUT 0 returns, run() does not. *)
Example C111_nonvacuous : (let e := emoves clk 5 (on_clock 1) in rest (e_st e) [1; 0] /\ main_waits e 1 /\ ~ test_over e /\ rest (e_st (emoves clk 4 e)) [1; 0] /\ test_over (emoves clk 4 e) /\ ~ run_over (emoves clk 4 e) /\ mm (e_st (emoves clk 4 e)) = (true, [1; 100; 101; 7; 1])) /\
  (let e := emoves clk 7 (on_clock 0) in rest (e_st e) [0; 1] /\ test_over e /\ ~ run_over e /\ forall i, i <= 7 -> e_end (emoves clk i (on_clock 0)) = NotYet) /\
  ebegins (on_clock 1) 1 (wait1 1) [again 1] order [] /\ run_over (emoves clk 16 (on_clock 1)) /\ mm (e_st (emoves clk 16 (on_clock 1))) = (true, [1; 100; 101; 7; 1; 101]) /\ ~ run_over (emoves clk 60 (on_clock 0)).
Proof.
  assert (NR : forall e : @est (list nat), nth_error (tasks (e_st e)) 2 = None -> has_unwait (e_st e) = false -> forall t k, ~ runnable (e_st e) t k) by (intros e _ H; now apply no_unwait).
  cbv zeta. split; [|split; [|split; [apply on_begins|]]].
  - split; [split; [vm_compute; reflexivity|apply NR; vm_compute; reflexivity]|]. split; [eexists; vm_compute; reflexivity|]. split; [intros H; vm_compute in H; discriminate H|]. split; [split; [vm_compute; reflexivity|apply NR; vm_compute; reflexivity]|].
    split; [vm_compute; reflexivity|]. split; [intros H; vm_compute in H; discriminate H|vm_compute; reflexivity].
  - split; [split; [vm_compute; reflexivity|apply NR; vm_compute; reflexivity]|]. split; [vm_compute; reflexivity|]. split; [intros H; vm_compute in H; discriminate H|]. intros i Hi. do 8 (destruct i as [|i]; [vm_compute; reflexivity|]). lia.
  - split; [vm_compute; reflexivity|]. split; [vm_compute; reflexivity|intros H; vm_compute in H; discriminate H].
Qed.
