(** C107: several clocks in one test. *)
From Coq Require Import List Bool Arith Lia.
From Verif Require Import Clk_Model Clk_Spec.
Import ListNotations.

Section Thms.
Context {mem : Type} (dut : nat -> mem -> mem).
Notation st := (@st mem). Notation move := (move dut). Notation moves := (moves dut). Notation act := (@act mem).
Implicit Types (s : st).

(** ** Lists *)
Lemma put_get (l : list (@tstate mem)) t x u : nth_error (put l t x) u = if Nat.eqb t u then (if Nat.ltb t (length l) then Some x else None) else nth_error l u.
Proof.
  revert t u. induction l as [|y l IH]; intros [|t] [|u]; cbn; auto.
  - destruct (Nat.eqb t u); auto.
  - rewrite IH. reflexivity.
Qed.
Lemma moves_plus a b s : moves (a + b) s = moves b (moves a s).
Proof. revert s. induction a as [|a IH]; intros s; cbn [Nat.add Clk_Model.moves]; auto. Qed.
Lemma moves_S n s : moves (S n) s = move (moves n s).
Proof. replace (S n) with (n + 1) by lia. rewrite moves_plus. reflexivity. Qed.
Lemma handles_app l r : task_handles (l ++ r) = task_handles l ++ task_handles r.
Proof. apply flat_map_app. Qed.
Lemma handles_clks l : task_handles (map HClk l) = [].
Proof. induction l; cbn; auto. Qed.
Lemma handles_tasks l : task_handles (map HTask l) = l.
Proof. induction l as [|x l IH]; cbn; auto. f_equal. exact IH. Qed.
Lemma clocks_app l r : clocks (l ++ r) = clocks l ++ clocks r.
Proof. apply flat_map_app. Qed.
Lemma unwait_iff s : has_unwait s = true <-> exists t k, runnable s t k.
Proof.
  unfold has_unwait, runnable. rewrite existsb_exists. split.
  - intros [x [A B]]. apply In_nth_error in A as [t A]. destruct x as [k| |]; try discriminate. eauto.
  - intros [t [k H]]. exists (Can k). split; [eapply nth_error_In; eauto|reflexivity].
Qed.
Lemma no_unwait s : has_unwait s = false <-> forall t k, ~ runnable s t k.
Proof.
  split.
  - intros H t k R. assert (X : has_unwait s = true) by (apply unwait_iff; eauto). congruence.
  - intros H. destruct (has_unwait s) eqn:E; auto. apply unwait_iff in E as [t [k R]]. destruct (H t k R).
Qed.

(** ** Invariant: the queue holds the tasks that can run, once each; the waiting tasks are listed once each. *)
Definition wf s : Prop := NoDup (task_handles (ready s)) /\ (forall t, In t (task_handles (ready s)) <-> exists k, runnable s t k) /\
  NoDup (waits s) /\ (forall t, In t (waits s) <-> exists d k, waiting s t d k).
Lemma begins_wf s ks l m : begins s ks l m -> wf s.
Proof.
  intros [-> [A B]]. split; [exact A|]. split; [|split; [constructor|]].
  - intros t. cbn [ready start]. rewrite B. unfold runnable. cbn [tasks start]. rewrite nth_error_map. split.
    + intros H. destruct (nth_error ks t) as [k|] eqn:E; [exists k; reflexivity|]. apply nth_error_None in E. lia.
    + intros [k H]. apply nth_error_Some. intros X. rewrite X in H. discriminate.
  - intros t. cbn. split; [contradiction|]. intros [d [k H]]. unfold waiting in H. cbn [tasks start] in H. rewrite nth_error_map in H. destruct (nth_error ks t); discriminate.
Qed.
Lemma nth_wake d l t : nth_error (map (@wake mem d) l) t = match nth_error l t with Some (Waits d' k) => Some (if Nat.eqb d d' then Can k else Waits d' k) | x => x end.
Proof. rewrite nth_error_map. destruct (nth_error l t) as [[k|d' k|]|]; cbn; auto. Qed.
Lemma waits_on_iff s d t : waits_on s d t = true <-> exists k, waiting s t d k.
Proof.
  unfold waits_on, waiting. destruct (nth_error (tasks s) t) as [[k|d' k|]|]; cbn; split; try discriminate; try (intros [k0 X]; discriminate).
  - intros H. apply Nat.eqb_eq in H as ->. eauto.
  - intros [k0 X]. injection X as -> _. apply Nat.eqb_refl.
Qed.
Lemma move_wf s : wf s -> wf (move s).
Proof.
  intros [N1 [H1 [N2 H2]]]. unfold Clk_Model.move. destruct (ready s) as [|[d|t] r] eqn:ER; [now split; [rewrite ER|split; [rewrite ER|]]|..].
  - destruct (has_unwait s) eqn:EU.
    + split; [cbn [ready]; rewrite handles_app; cbn; rewrite app_nil_r; exact N1|]. split; [|now split]. intros t. cbn [ready]. rewrite handles_app. cbn. rewrite app_nil_r. exact (H1 t).
    + assert (NR : forall t k, ~ runnable s t k) by now apply no_unwait. assert (E : task_handles r = []).
      { destruct (task_handles r) as [|t l] eqn:E; auto. exfalso. destruct (proj1 (H1 t)) as [k X]; [change (In t (task_handles r)); rewrite E; now left|]. exact (NR t k X). }
      assert (HH : task_handles (ready (clock_step dut s d r)) = woken s d). { cbn [ready clock_step]. rewrite !handles_app, E, handles_tasks. cbn. apply app_nil_r. }
      unfold wf. rewrite HH. split; [now apply NoDup_filter|]. split; [|split; [now apply NoDup_filter|]].
      * intros t. unfold woken. rewrite filter_In, waits_on_iff. unfold runnable, waiting. cbn [tasks clock_step]. rewrite nth_wake. split.
        -- intros [_ [k ->]]. rewrite Nat.eqb_refl. eauto.
        -- intros [k X]. destruct (nth_error (tasks s) t) as [[k0|d' k0|]|] eqn:ET; try discriminate; [destruct (NR t k0 ET)|]. destruct (Nat.eqb_spec d d') as [->|]; [|discriminate]. split; [apply H2; unfold waiting; eauto|eauto].
      * intros t. cbn [waits clock_step]. rewrite filter_In, negb_true_iff. unfold waiting. cbn [tasks clock_step]. rewrite nth_wake. split.
        -- intros [A B]. apply H2 in A as [d' [k A]]. unfold waiting in A. rewrite A. destruct (Nat.eqb_spec d d') as [->|]; [|eauto]. assert (X : waits_on s d' t = true) by (apply waits_on_iff; eauto). congruence.
        -- intros [d' [k X]]. destruct (nth_error (tasks s) t) as [[k0|d0 k0|]|] eqn:ET; try discriminate. destruct (Nat.eqb_spec d d0) as [->|NE]; [discriminate|]. split; [apply H2; unfold waiting; eauto|].
           destruct (waits_on s d t) eqn:EW; auto. apply waits_on_iff in EW as [k1 EW]. unfold waiting in EW. rewrite ET in EW. injection EW as -> _. congruence.
  - change (NoDup (t :: task_handles r)) in N1. assert (NI : ~ In t (task_handles r)) by now inversion N1. assert (N3 : NoDup (task_handles r)) by now inversion N1. destruct (proj1 (H1 t)) as [k Hk]; [now left|].
    assert (LT : Nat.ltb t (length (tasks s)) = true) by (apply Nat.ltb_lt; apply nth_error_Some; unfold runnable in Hk; congruence).
    unfold resume. unfold runnable in Hk. rewrite Hk. destruct (k (mm s)) as [m [|d k']].
    + split; [exact N3|]. split; [|split; [exact N2|]].
      * intros u. cbn [ready]. unfold runnable. cbn [tasks]. rewrite put_get, LT. destruct (Nat.eqb_spec t u) as [<-|NE]; [split; [contradiction|intros [? ?]; discriminate]|]. rewrite <- (H1 u). cbn. intuition congruence.
      * intros u. cbn [waits]. unfold waiting. cbn [tasks]. rewrite put_get, LT. rewrite H2. unfold waiting. destruct (Nat.eqb_spec t u) as [<-|NE]; [|reflexivity]. rewrite Hk. split; intros [? [? ?]]; discriminate.
    + split; [exact N3|]. split; [|split].
      * intros u. cbn [ready]. unfold runnable. cbn [tasks]. rewrite put_get, LT. destruct (Nat.eqb_spec t u) as [<-|NE]; [split; [contradiction|intros [? ?]; discriminate]|]. rewrite <- (H1 u). cbn. intuition congruence.
      * cbn [waits]. assert (NW : ~ In t (waits s)) by (rewrite H2; unfold waiting; rewrite Hk; intros [? [? ?]]; discriminate). clear - N2 NW. induction (waits s) as [|x l IH]; cbn; [constructor; [intros []|constructor]|].
        inversion N2 as [|? ? A B]; subst. constructor; [rewrite in_app_iff; intros [X|[X|[]]]; [contradiction|subst; apply NW; now left]|]. apply IH; auto. intros X. apply NW. now right.
      * intros u. cbn [waits]. unfold waiting. cbn [tasks]. rewrite put_get, LT, in_app_iff, H2. unfold waiting. destruct (Nat.eqb_spec t u) as [<-|NE]; [split; [eauto|intros _; right; now left]|]. cbn. intuition congruence.
Qed.
Lemma moves_wf n s : wf s -> wf (moves n s).
Proof. revert s. induction n as [|n IH]; intros s H; cbn [Clk_Model.moves]; auto. apply IH. now apply move_wf. Qed.

(** A task awaits the clock of a DUT for [S n] cycles, with any number of clocks and other tasks.  In every later state it still waits, and of the [S n] steps of
    the DUT only those before the one it waits for have been made; or it has just been woken; or it has come back ([x]), after exactly [S n] steps of this DUT. *)
Theorem C107_cycles_partial s t d n k j : waiting s t d (cycles d n k) -> let s' := moves j s in
  (exists i, i <= n /\ waiting s' t d (cycles d i k) /\ steps_of s' d = steps_of s d + (n - i)) \/
  (exists i, i <= n /\ runnable s' t (cycles d i k) /\ steps_of s' d = steps_of s d + S (n - i)) \/
  (exists i, i < j /\ let x := moves i s in turn_of x (HTask t) /\ runnable x t k /\ steps_of x d = steps_of s d + S n).
Proof.
  intros H0 s'. subst s'. induction j as [|j IH]; [left; exists n; split; auto; split; [exact H0|cbn; lia]|].
  rewrite moves_S. set (x := moves j s) in *. destruct IH as [[i [Hi [A B]]]|[[i [Hi [A B]]]|[i [Hi X]]]]; [| |right; right; exists i; split; [lia|exact X]].
  - unfold Clk_Model.move. destruct (ready x) as [|[c|u] r] eqn:ER; [left; eauto| |].
    + destruct (has_unwait x) eqn:EU; [left; exists i; auto|]. destruct (Nat.eqb_spec c d) as [->|NE].
      * right; left. exists i. split; auto. unfold runnable. cbn [tasks clock_step steps_of]. rewrite nth_wake. unfold waiting in A. rewrite A, Nat.eqb_refl. split; auto. lia.
      * left. exists i. split; auto. unfold waiting. cbn [tasks clock_step steps_of]. rewrite nth_wake. unfold waiting in A. rewrite A. destruct (Nat.eqb_spec c d); [contradiction|]. auto.
    + left. exists i. split; auto. unfold resume, waiting in *. destruct (nth_error (tasks x) u) as [[k0| |]|] eqn:EU; auto. assert (NE : u <> t) by congruence.
      destruct (k0 (mm x)) as [m [|d' k']]; cbn [tasks steps_of]; rewrite put_get; destruct (Nat.eqb_spec u t); try contradiction; auto.
  - unfold Clk_Model.move. destruct (ready x) as [|[c|u] r] eqn:ER; [right; left; eauto| |].
    + rewrite (proj2 (unwait_iff x)) by eauto. right; left. exists i. auto.
    + destruct (Nat.eq_dec u t) as [->|NE].
      * destruct i as [|i]; [right; right; exists j; split; [lia|]; fold x; split; [exists r; exact ER|]; split; auto; rewrite B; f_equal; lia|].
        left. exists i. split; [lia|]. unfold resume, runnable in *. rewrite A. cbn [cycles]. unfold waiting. cbn [tasks steps_of]. rewrite put_get, Nat.eqb_refl.
        rewrite (proj2 (Nat.ltb_lt t (length (tasks x)))) by (apply nth_error_Some; congruence). split; auto. rewrite B. lia.
      * right; left. exists i. split; auto. unfold resume, runnable in *. destruct (nth_error (tasks x) u) as [[k0| |]|] eqn:EU; auto.
        destruct (k0 (mm x)) as [m [|d' k']]; cbn [tasks steps_of]; rewrite put_get; destruct (Nat.eqb_spec u t); try contradiction; auto.
Qed.

(** ** The tasks that can run, run *)
Lemma run_ext f g ts m : (forall t, In t ts -> f t = g t) -> run_tasks f ts m = run_tasks (mem := mem) g ts m.
Proof. revert m. induction ts as [|t ts IH]; intros m H; cbn [run_tasks]; auto. rewrite (H t) by now left. destruct (g t) as [k|]; [destruct (k m)|]; rewrite IH; auto; intros u Hu; apply H; now right. Qed.
Lemma filter_id (f : nat -> bool) l : (forall x, In x l -> f x = true) -> filter f l = l.
Proof. induction l as [|x l IH]; intros H; cbn; auto. rewrite (H x) by now left. f_equal. apply IH. intros y Hy. apply H. now right. Qed.
Lemma in_existsb t ts : existsb (Nat.eqb t) ts = true <-> In t ts.
Proof. rewrite existsb_exists. split; [intros [x [A B]]; apply Nat.eqb_eq in B; now subst|intros H; exists t; split; auto; apply Nat.eqb_refl]. Qed.
Lemma clocks_of_clks l : clocks (map HClk l) = l.
Proof. induction l as [|x l IH]; cbn; auto. f_equal. exact IH. Qed.
Lemma drain pre : forall s t post, wf s -> ready s = pre ++ HTask t :: map HClk post -> let s' := moves (S (length pre)) s in
  rest s' (post ++ clocks pre) /\ (forall d, steps_of s' d = steps_of s d) /\ ran_once s s' (can_do s) (task_handles (ready s)) (mm s).
Proof.
  assert (ONE : forall s t r, wf s -> ready s = HTask t :: r -> exists k, runnable s t k /\ let (m, a) := k (mm s) in
    move s = mk_st r (put (tasks s) t (now_ a)) (waits s ++ begins_to_wait (t, a)) (steps_of s) m /\ (forall u, nth_error (put (tasks s) t (now_ a)) u = if Nat.eqb t u then Some (now_ a) else nth_error (tasks s) u) /\ ~ In t (task_handles r)).
  { intros s t r [W1 [W2 [W3 W4]]] ER. destruct (proj1 (W2 t)) as [k Hk]; [rewrite ER; now left|]. exists k. split; auto. unfold Clk_Model.move, resume. rewrite ER. unfold runnable in Hk. rewrite Hk.
    assert (LT : Nat.ltb t (length (tasks s)) = true) by (apply Nat.ltb_lt; apply nth_error_Some; congruence). destruct (k (mm s)) as [m a]. split; [destruct a; cbn; [rewrite app_nil_r|]; reflexivity|]. split; [intros u; rewrite put_get, LT; reflexivity|].
    rewrite ER in W1. now inversion W1. }
  induction pre as [|h pre IH]; intros s t post W ER s'; subst s'.
  - cbn [app length Clk_Model.moves] in *. destruct (ONE s t _ W ER) as [k [Hk X]]. destruct (k (mm s)) as [m a] eqn:EK. destruct X as [E [G NI]]. assert (W' := move_wf s W). rewrite E in *. cbn [clocks flat_map]. rewrite app_nil_r.
    split; [|split; [reflexivity|]].
    + split; [reflexivity|]. intros u k0 R. destruct W' as [_ [W2 _]]. assert (X : In u (task_handles (map HClk post))) by (apply W2; eauto). rewrite handles_clks in X. exact X.
    + rewrite ER. change (task_handles (HTask t :: map HClk post)) with (t :: task_handles (map HClk post)). rewrite handles_clks. exists [a]. unfold runnable in Hk. cbn [run_tasks mm tasks waits]. unfold can_do. rewrite Hk, EK. split; [reflexivity|].
      split; [constructor; [rewrite G, Nat.eqb_refl; reflexivity|constructor]|]. split; [intros u Hu; rewrite G; destruct (Nat.eqb_spec t u) as [->|]; auto; destruct Hu; now left|].
      cbn [combine flat_map]. rewrite app_nil_r. f_equal. symmetry. apply filter_id. intros x Hx. cbn. destruct (Nat.eqb_spec x t) as [->|]; auto. exfalso. destruct W as [_ [_ [_ W4]]]. apply W4 in Hx as [d [k0 Hx]]. unfold waiting in Hx. congruence.
  - cbn [length]. change (moves (S (S (length pre))) s) with (moves (S (length pre)) (move s)). cbn [app] in ER. assert (W' := move_wf s W). destruct h as [c|u].
    + assert (U : has_unwait s = true). { apply unwait_iff. destruct W as [_ [W2 _]]. destruct (proj1 (W2 t)) as [k Hk]; [rewrite ER; change (In t (task_handles (pre ++ HTask t :: map HClk post))); rewrite handles_app; apply in_or_app; right; now left|]. eauto. }
      assert (E : move s = mk_st (pre ++ HTask t :: map HClk (post ++ [c])) (tasks s) (waits s) (steps_of s) (mm s)). { unfold Clk_Model.move. rewrite ER, U. f_equal. rewrite <- app_assoc. cbn. rewrite map_app. reflexivity. }
      destruct (IH (move s) t (post ++ [c]) W' ltac:(rewrite E; reflexivity)) as [A [B C]]. split; [|split].
      * cbn [clocks flat_map clock_of app]. rewrite <- app_assoc in A. exact A.
      * intros d. rewrite B, E. reflexivity.
      * rewrite E in C. rewrite ER. change (task_handles (HClk c :: pre ++ HTask t :: map HClk post)) with (task_handles (pre ++ HTask t :: map HClk post)). cbn [ready mm] in C.
        replace (task_handles (pre ++ HTask t :: map HClk (post ++ [c]))) with (task_handles (pre ++ HTask t :: map HClk post)) in C by (rewrite !handles_app; f_equal; change (t :: task_handles (map HClk post) = t :: task_handles (map HClk (post ++ [c]))); now rewrite !handles_clks). rewrite E. exact C.
    + destruct (ONE s u _ W ER) as [k [Hk X]]. destruct (k (mm s)) as [m a] eqn:EK. destruct X as [E [G NI]].
      destruct (IH (move s) t post W' ltac:(rewrite E; reflexivity)) as [A [B C]]. split; [exact A|]. split; [intros d; rewrite B, E; reflexivity|].
      rewrite E in C |- *. cbn [ready mm] in C. set (ts := task_handles (pre ++ HTask t :: map HClk post)) in *. destruct C as [acts [C1 [C2 [C3 C4]]]]. cbn [tasks waits] in C1, C2, C3, C4. set (z := moves _ _) in *.
      rewrite ER. change (task_handles (HTask u :: pre ++ HTask t :: map HClk post)) with (u :: ts). exists (a :: acts). cbn [run_tasks]. unfold runnable in Hk. unfold can_do at 1. rewrite Hk, EK.
      rewrite (run_ext _ (can_do (mk_st (pre ++ HTask t :: map HClk post) (put (tasks s) u (now_ a)) (waits s ++ begins_to_wait (u, a)) (steps_of s) m))) by (intros v Hv; unfold can_do; cbn [tasks]; rewrite G; destruct (Nat.eqb_spec u v) as [->|]; [contradiction|reflexivity]).
      rewrite C1. split; [reflexivity|]. split; [constructor; [|exact C2]|split].
      * rewrite (C3 u NI), G, Nat.eqb_refl. reflexivity.
      * intros v Hv. rewrite C3 by (intros X; apply Hv; now right). rewrite G. destruct (Nat.eqb_spec u v) as [->|]; auto. destruct Hv; now left.
      * cbn [combine flat_map]. rewrite C4, filter_app. rewrite app_assoc. f_equal. f_equal.
        -- apply filter_ext_in. intros x Hx. cbn [existsb]. destruct (Nat.eqb_spec x u) as [->|]; auto. exfalso. destruct W as [_ [_ [_ W4]]]. apply W4 in Hx as [d [k0 Hx]]. unfold waiting in Hx. congruence.
        -- apply filter_id. intros x Hx. unfold begins_to_wait in Hx. cbn in Hx. destruct a; cbn in Hx; [contradiction|]. destruct Hx as [<-|[]]. apply negb_true_iff. destruct (existsb (Nat.eqb u) ts) eqn:EX; auto. apply in_existsb in EX. contradiction.
Qed.

(** From any reachable state in which a task can run: without any step of a DUT, every task that can run runs, once and in the order of the ready queue, and then
    nothing but the clock loops can. *)
Theorem C107_settles_partial s0 ks l m n s : begins s0 ks l m -> s = moves n s0 -> (exists t k, runnable s t k) ->
  exists j cs ts, let s' := moves j s in rest s' cs /\ (forall d, steps_of s' d = steps_of s d) /\ (forall t, In t ts <-> exists k, runnable s t k) /\ NoDup ts /\ ran_once s s' (can_do s) ts (mm s).
Proof.
  intros B -> [t [k R]]. set (s := moves n s0) in *. assert (W : wf s) by (apply moves_wf; eapply begins_wf; eauto). destruct W as [W1 [W2 W34]] eqn:EW. clear EW.
  assert (SP : forall l0, In t (task_handles l0) -> exists pre u post, l0 = pre ++ HTask u :: map HClk post).
  { clear. intros l0. induction l0 as [|h l0 IH] using rev_ind; [intros []|]. rewrite handles_app, in_app_iff. intros H. destruct h as [c|u]; [|exists l0, u, []; reflexivity].
    destruct H as [H|[]]. destruct (IH H) as [pre [u [post ->]]]. exists pre, u, (post ++ [c]). rewrite <- app_assoc. cbn. rewrite map_app. reflexivity. }
  destruct (SP (ready s)) as [pre [u [post ER]]]; [apply W2; eauto|]. destruct (drain pre s u post (conj W1 (conj W2 W34)) ER) as [A [C D]]. exists (S (length pre)), (post ++ clocks pre), (task_handles (ready s)). auto 8.
Qed.
(** The clocks: when nothing but the clock loops can run, with [c] first in their order.
    - If no task waits for [c], DUT [c] is stepped and its loop goes to the end of the order.
    - If tasks wait for [c], DUT [c] is stepped, these tasks run, once each and in the order in which they began to wait, and when nothing but the clock loops can
      run again, their order is the same as before: [c] is first again.  No other DUT has been stepped. *)
Theorem C107_round_partial s0 ks l m n s c cs : begins s0 ks l m -> s = moves n s0 -> rest s (c :: cs) ->
  match waiters s c with
  | [] => rest (move s) (cs ++ [c]) /\ mm (move s) = dut c (mm s) /\ forall t, nth_error (tasks (move s)) t = nth_error (tasks s) t
  | _ :: _ => exists j, 0 < j /\ rest (moves j s) (c :: cs) /\ ran_once s (moves j s) (will_do s c) (waiters s c) (dut c (mm s)) /\ forall d, steps_of (moves j s) d = if Nat.eqb c d then S (steps_of s d) else steps_of s d
  end /\ forall d, steps_of (move s) d = if Nat.eqb c d then S (steps_of s d) else steps_of s d.
Proof.
  intros B -> [ER NR]. set (s := moves n s0) in *. assert (W : wf s) by (apply moves_wf; eapply begins_wf; eauto). assert (U : has_unwait s = false) by now apply no_unwait.
  assert (E : move s = clock_step dut s c (map HClk cs)) by (unfold Clk_Model.move; rewrite ER, U; reflexivity). assert (EW : woken s c = waiters s c).
  { unfold woken, waiters. apply filter_ext. intros t. unfold waits_on, on. destruct (nth_error (tasks s) t) as [[]|]; reflexivity. }
  split; [|intros d; rewrite E; reflexivity]. assert (W' := move_wf s W). destruct (waiters s c) as [|w ws] eqn:EWS.
  - rewrite E. cbn [mm clock_step tasks]. assert (T : forall t, nth_error (map (@wake mem c) (tasks s)) t = nth_error (tasks s) t).
    { intros t. rewrite nth_wake. destruct (nth_error (tasks s) t) as [[k|d k|]|] eqn:ET; auto. destruct (Nat.eqb_spec c d) as [->|]; auto. exfalso. destruct W as [_ [_ [_ W4]]].
      assert (X : In t (woken s d)) by (unfold woken; apply filter_In; split; [apply W4; unfold waiting; eauto|apply waits_on_iff; unfold waiting; eauto]). rewrite EW in X. exact X. }
    split; [|split; [reflexivity|exact T]]. split; [cbn [ready clock_step]; rewrite EW, map_app; reflexivity|]. intros t k R. unfold runnable in R. cbn [tasks clock_step] in R. rewrite T in R. exact (NR t k R).
  - assert (LT : exists ws' u, w :: ws = ws' ++ [u]) by (destruct (@exists_last _ (w :: ws)) as [ws' [u X]]; [discriminate|]; eauto). destruct LT as [ws' [u EL]].
    assert (ER1 : ready (move s) = (map HClk cs ++ map HTask ws') ++ HTask u :: map HClk [c]) by (rewrite E; cbn [ready clock_step]; rewrite EW, EL, map_app, <- !app_assoc; reflexivity).
    destruct (drain _ _ u [c] W' ER1) as [A [C D]]. set (j := S (length (map HClk cs ++ map HTask ws'))) in *. exists (S j). split; [lia|]. change (moves (S j) s) with (moves j (move s)).
    assert (EH : task_handles (ready (move s)) = w :: ws) by (rewrite ER1, !handles_app, handles_clks, handles_tasks, EL; reflexivity).
    split; [|split].
    + rewrite clocks_app, clocks_of_clks in A. replace (clocks (map HTask ws')) with (@nil nat) in A by (clear; induction ws'; cbn; auto). rewrite app_nil_r in A. exact A.
    + rewrite EH in D. destruct D as [acts [D1 [D2 [D3 D4]]]]. exists acts. set (z := moves j (move s)) in *. rewrite E in D1, D3, D4. cbn [mm clock_step tasks waits] in D1, D3, D4.
      assert (IN : forall t, In t (w :: ws) <-> exists k, waiting s t c k) by (intros t; rewrite <- EW; unfold woken; rewrite filter_In, waits_on_iff; destruct W as [_ [_ [_ W4]]]; rewrite W4; split; [intros [_ X]; exact X|intros [k X]; split; eauto]).
      split; [rewrite <- D1; apply run_ext; intros t Ht; apply IN in Ht as [k Ht]; unfold will_do, can_do; cbn [tasks clock_step]; rewrite nth_wake; unfold waiting in Ht; rewrite Ht, Nat.eqb_refl; reflexivity|].
      split; [exact D2|]. split.
      * intros t Ht. rewrite (D3 t Ht), nth_wake. destruct (nth_error (tasks s) t) as [[k|d k|]|] eqn:ET; auto. destruct (Nat.eqb_spec c d) as [->|]; auto. exfalso. apply Ht. apply IN. exists k. exact ET.
      * rewrite D4. f_equal. assert (FF : forall l0 : list nat, (forall t, In t l0 -> In t (waits s)) -> filter (fun t => negb (existsb (Nat.eqb t) (w :: ws))) (filter (fun t => negb (waits_on s c t)) l0) = filter (fun t => negb (existsb (Nat.eqb t) (w :: ws))) l0); [|apply FF; auto].
        intros l0 _. induction l0 as [|x l0 IH]; [reflexivity|]. cbn [filter]. destruct (waits_on s c x) eqn:EX; cbn [negb].
        -- rewrite IH. assert (X : existsb (Nat.eqb x) (w :: ws) = true) by (apply in_existsb, IN; now apply waits_on_iff). rewrite X. reflexivity.
        -- cbn [filter]. rewrite IH. reflexivity.
    + intros d. rewrite C, E. reflexivity.
Qed.
Lemma steps_mono s d : steps_of s d <= steps_of (move s) d.
Proof.
  unfold Clk_Model.move. destruct (ready s) as [|[c|t] r]; auto.
  - destruct (has_unwait s); auto. cbn. destruct (Nat.eqb c d); auto.
  - unfold resume. destruct (nth_error (tasks s) t) as [[k| |]|]; auto. destruct (k (mm s)) as [m0 []]; auto.
Qed.
Lemma steps_monos n s d : steps_of s d <= steps_of (moves n s) d.
Proof. revert s. induction n as [|n IH]; intros s; cbn [Clk_Model.moves]; auto. etransitivity; [apply steps_mono|apply IH]. Qed.
(** The first clock in the order starves the others: as long as some task waits for [c] whenever nothing but the clock loops can run, no other DUT is stepped. *)
Theorem C107_starved s0 ks l m n s c cs : begins s0 ks l m -> s = moves n s0 -> rest s (c :: cs) ->
  forall j, (forall i, i <= j -> rest (moves i s) (c :: cs) -> exists t k, waiting (moves i s) t c k) -> forall d, d <> c -> steps_of (moves j s) d = steps_of s d.
Proof.
  intros B E R j. revert n s E R. induction j as [j IH] using lt_wf_ind. intros n s E R H d ND. pose proof (C107_round_partial s0 ks l m n s c cs B E R) as [T _].
  assert (W : wf s) by (subst s; apply moves_wf; eapply begins_wf; eauto). destruct (waiters s c) as [|w ws] eqn:EW.
  - exfalso. destruct (H 0 (Nat.le_0_l _) R) as [t [k X]]. cbn [Clk_Model.moves] in X. destruct W as [_ [_ [_ W4]]]. assert (Y : In t (waiters s c)) by (unfold waiters; apply filter_In; split; [apply W4; eauto|]; unfold waiting in X; rewrite X; apply Nat.eqb_refl).
    rewrite EW in Y. exact Y.
  - destruct T as [i [I0 [RI [_ SI]]]]. assert (SD : steps_of (moves i s) d = steps_of s d) by (rewrite SI; destruct (Nat.eqb_spec c d); [congruence|reflexivity]). destruct (le_lt_dec i j) as [LE|GT].
    + replace j with (i + (j - i)) by lia. rewrite moves_plus. rewrite (IH (j - i) ltac:(lia) (n + i) (moves i s)); auto.
      * rewrite moves_plus, <- E. reflexivity.
      * intros i0 L0 R0. rewrite <- moves_plus in *. apply H; [lia|exact R0].
    + apply Nat.le_antisymm; [|apply steps_monos]. rewrite <- SD. replace i with (j + (i - j)) by lia. rewrite moves_plus. apply steps_monos.
Qed.
End Thms.
Print Assumptions C107_cycles_partial.
Print Assumptions C107_settles_partial.
Print Assumptions C107_round_partial.
Print Assumptions C107_starved.

(** Two DUTs, 0 and 1, whose clocks are started in this order, and one task for each that awaits its clock again and again. *)
CoFixpoint stay (d : nat) : @act (list nat) := Await d (fun m => (m ++ [d], stay d)).
Definition clk (d : nat) (m : list nat) : list nat := m ++ [100 + d].
Definition again (d : nat) (m : list nat) : list nat * act := (m ++ [d], stay d).
Definition two_duts : list handle := [HTask 0; HTask 1; HClk 0; HClk 1].
Definition k0 := start [again 0; again 1] two_duts [].
Lemma k0_begins : begins k0 [again 0; again 1] two_duts [].
Proof. split; [reflexivity|]. cbn. split; [repeat constructor; cbn; intuition discriminate|]. intros t. cbn. lia. Qed.
Lemma k2_rest : rest (moves clk 2 k0) [0; 1].
Proof. split; [reflexivity|]. intros [|[|[|t]]] k H; discriminate H. Qed.
Lemma always0 n : nth_error (tasks (moves clk n k0)) 0 = Some (Can (again 0)) \/ nth_error (tasks (moves clk n k0)) 0 = Some (Waits 0 (again 0)).
Proof.
  induction n as [|n IH]; [left; reflexivity|]. rewrite moves_S. set (s := moves clk n k0) in *. unfold move. destruct (ready s) as [|[c|t] r]; auto.
  - destruct (has_unwait s) eqn:U; auto. cbn [tasks clock_step]. rewrite nth_wake. destruct IH as [->| ->]; auto. destruct (Nat.eqb_spec c 0) as [->|]; auto.
  - unfold resume. destruct (nth_error (tasks s) t) as [[k| |]|] eqn:ET; auto. assert (LT : Nat.ltb t (length (tasks s)) = true) by (apply Nat.ltb_lt, nth_error_Some; congruence). destruct (Nat.eqb_spec t 0) as [->|NE].
    + destruct IH as [IH|IH]; rewrite IH in ET; [injection ET as <-|discriminate]. right. cbn [again stay]. cbn [tasks]. rewrite put_get, LT. reflexivity.
    + destruct (k (mm s)) as [m [|d k']]; cbn [tasks]; rewrite put_get; destruct (Nat.eqb_spec t 0); try contradiction; exact IH.
Qed.
Lemma waits0 n cs : rest (moves clk n k0) cs -> waiting (moves clk n k0) 0 0 (again 0).
Proof. intros [_ NR]. destruct (always0 n) as [X|X]; [destruct (NR 0 _ X)|exact X]. Qed.
(** The claim is false: the clock of DUT 1 never advances, and the task that awaits it waits forever, while DUT 0 is stepped again and again. *)
Theorem C107_refuted : begins k0 [again 0; again 1] two_duts [] /\ (forall n, steps_of (moves clk n k0) 1 = 0) /\ (forall n, 2 <= n -> waiting (moves clk n k0) 1 1 (again 1)) /\ forall q, exists n, steps_of (moves clk n k0) 0 = q.
Proof.
  assert (Z : forall n, steps_of (moves clk n k0) 1 = 0).
  { intros n. destruct (le_lt_dec 2 n) as [L|G]; [|destruct n as [|[|n]]; [reflexivity|reflexivity|lia]]. replace n with (2 + (n - 2)) by lia. rewrite moves_plus.
    rewrite (C107_starved clk k0 _ _ _ 2 _ 0 [1] k0_begins eq_refl k2_rest); [reflexivity| |discriminate]. intros i _ R. rewrite <- moves_plus in *. exists 0, (again 0). eapply waits0; eauto. }
  split; [apply k0_begins|]. split; [exact Z|]. split.
  - intros n L. replace n with (2 + (n - 2)) by lia. rewrite moves_plus. assert (W1 : waiting (moves clk 2 k0) 1 1 (cycles 1 0 (again 1))) by reflexivity.
    destruct (C107_cycles_partial clk (moves clk 2 k0) 1 1 0 (again 1) (n - 2) W1) as [[i [Hi [A _]]]|[[i [_ [_ B]]]|[i [_ [_ [_ B]]]]]].
    + replace i with 0 in A by lia. exact A.
    + rewrite <- moves_plus, !Z in B. lia.
    + rewrite <- moves_plus, !Z in B. lia.
  - intros q. enough (X : exists n, rest (moves clk n k0) [0; 1] /\ steps_of (moves clk n k0) 0 = q) by (destruct X as [n [_ X]]; eauto). induction q as [|q [n [R Q]]]; [exists 2; split; [apply k2_rest|reflexivity]|].
    destruct (C107_round_partial clk k0 _ _ _ n _ 0 [1] k0_begins eq_refl R) as [T _]. assert (W0 := waits0 n _ R). destruct (waiters (moves clk n k0) 0) as [|w ws] eqn:EW.
    + exfalso. assert (W : wf (moves clk n k0)) by (apply moves_wf; eapply begins_wf; apply k0_begins). destruct W as [_ [_ [_ W4]]]. assert (Y : In 0 (waiters (moves clk n k0) 0)) by (unfold waiters; apply filter_In; split; [apply W4; eauto|]; unfold waiting in W0; rewrite W0; reflexivity).
      rewrite EW in Y. exact Y.
    + destruct T as [j [_ [RJ [_ SJ]]]]. exists (n + j). rewrite moves_plus. split; [exact RJ|]. rewrite SJ. cbn. now rewrite Q.
Qed.
Print Assumptions C107_refuted.

(** Three DUTs; task 0 awaits DUT 0 for two cycles and ends, task 1 DUT 1 for two cycles, task 2 DUT 0 for one cycle.  DUT 1 has to wait until nobody waits for DUT 0 any more. *)
Definition back (n : nat) (m : list nat) : list nat * @act (list nat) := (m ++ [n], Ends).
Definition wait_for (d n t : nat) : list nat -> list nat * act := fun m => (m, Await d (cycles d n (back t))).
Definition three := start [wait_for 0 1 0; wait_for 1 1 1; wait_for 0 0 2] [HTask 2; HClk 0; HTask 0; HClk 1; HTask 1; HClk 2] [].
Example C107_nonvacuous : let s := moves clk 5 three in begins three [wait_for 0 1 0; wait_for 1 1 1; wait_for 0 0 2] [HTask 2; HClk 0; HTask 0; HClk 1; HTask 1; HClk 2] [] /\
  runnable (moves clk 1 three) 1 (wait_for 1 1 1) /\ rest s [2; 0; 1] /\ waiters s 2 = [] /\ waiters (moves clk 1 s) 0 = [2; 0] /\ rest (moves clk 6 s) [0; 1; 2] /\ mm (moves clk 6 s) = [102; 100; 2] /\ waiters (moves clk 6 s) 0 = [0] /\
  rest (moves clk 10 s) [0; 1; 2] /\ waiters (moves clk 10 s) 0 = [] /\ mm (moves clk 19 s) = [102; 100; 2; 100; 0; 100; 101; 101; 1] /\ waiting s 1 1 (cycles 1 1 (back 1)).
Proof.
  intros s. split; [split; [reflexivity|]; cbn; split; [repeat constructor; cbn; intuition discriminate|intros t; cbn; lia]|]. split; [reflexivity|].
  split; [split; [vm_compute; reflexivity|intros [|[|[|[|t]]]] k H; vm_compute in H; discriminate H]|]. split; [vm_compute; reflexivity|]. split; [vm_compute; reflexivity|].
  split; [split; [vm_compute; reflexivity|intros [|[|[|[|t]]]] k H; vm_compute in H; discriminate H]|]. split; [vm_compute; reflexivity|]. split; [vm_compute; reflexivity|].
  split; [split; [vm_compute; reflexivity|intros [|[|[|[|t]]]] k H; vm_compute in H; discriminate H]|]. split; [vm_compute; reflexivity|]. split; [|vm_compute; reflexivity].
  vm_compute. reflexivity.
Qed.
