(** Proofs about the event loop: micro steps on (running task, ready queue, futures) and the invariant that every unfinished task
    has exactly one token: it is running, or has one handle in the ready queue, or one wake-up callback on the future it awaits. *)
From Coq Require Import List Bool Arith ZArith Lia.
From Verif Require Import Py Prio_Model Loop_Model.
Import ListNotations.
Open Scope nat_scope.

(** * put_nth *)
Lemma put_nth_get {A} (l : list A) n x a m : nth_error l n = Some x -> nth_error (put_nth n a l) m = if Nat.eqb m n then Some a else nth_error l m.
Proof.
  revert n m. induction l as [|y l IH]; intros [|n] [|m] H; simpl in *; try discriminate; auto.
Qed.
Lemma put_nth_length {A} (l : list A) n a : List.length (put_nth n a l) = List.length l.
Proof. revert n. induction l as [|y l IH]; intros [|n]; simpl; auto. Qed.
Lemma put_nth_None {A} (l : list A) n a : nth_error l n = None -> put_nth n a l = l.
Proof. revert n. induction l as [|y l IH]; intros [|n] H; simpl in *; try discriminate; auto. f_equal; auto. Qed.
Lemma put_nth_id {A} (l : list A) n a : nth_error l n = Some a -> put_nth n a l = l.
Proof. revert n. induction l as [|y l IH]; intros [|n] H; simpl in *; try discriminate; auto. congruence. f_equal; auto. Qed.
Lemma nth_app_new {A} (l : list A) x m : nth_error (l ++ [x]) m = if Nat.eqb m (List.length l) then Some x else nth_error l m.
Proof.
  destruct (Nat.eqb_spec m (List.length l)) as [->|H].
  - rewrite nth_error_app2 by lia. rewrite Nat.sub_diag. reflexivity.
  - destruct (lt_dec m (List.length l)) as [H1|H1].
    + now rewrite nth_error_app1.
    + rewrite (proj2 (nth_error_None l m)) by lia. apply nth_error_None. rewrite app_length. simpl. lia.
Qed.
Lemma put_nth_sum {A} (w : A -> nat) (l : list A) n x a :
  nth_error l n = Some x -> list_sum (map w (put_nth n a l)) + w x = list_sum (map w l) + w a.
Proof.
  revert n. induction l as [|y l IH]; intros [|n] H; cbn [nth_error put_nth map list_sum fold_right] in *; try discriminate.
  - injection H as ->. unfold list_sum. lia.
  - specialize (IH n H). unfold list_sum in *. lia.
Qed.
Lemma sum_In {A} (w : A -> nat) (l : list A) n x : nth_error l n = Some x -> w x <= list_sum (map w l).
Proof.
  revert n. induction l as [|y l IH]; intros [|n] H; cbn [nth_error map list_sum fold_right] in *; try discriminate.
  - injection H as ->. unfold list_sum. lia.
  - specialize (IH n H). unfold list_sum in *. lia.
Qed.

Section Core.
Context {mem : Type}.
Notation prog := (@prog mem). Notation state := (@state mem). Notation body := (@body mem). Notation task := (@task mem).
Notation fut := (@fut mem). Notation kind := (@kind mem).

(** * Micro steps *)
Definition core : Type := (option (id * body) * list handle * list fut)%type.
Definition coreof (s : state) : core := (cur s, ready s, futs s).
Definition owner (h : handle) : option id := match h with HStep t | HThrow t _ | HWake t _ => Some t | _ => None end.
(** The outcome a handle resumes its task with. *)
Definition hres (F : list fut) (h : handle) : res lval :=
  match h with
  | HThrow _ e => Exn e
  | HWake _ f => match nth_error F f with Some fu => outcome (f_st fu) | None => Exn TypeError end
  | _ => Ok VNone
  end.
Definition mkt (st : fstate) (cbs : list cb) (k : res lval -> body) (w : option id) (m : bool) : fut := mk_fut st cbs (KTask (mk_task k w m)).

(** Changes of kind: a timer expires; a child of gather is done. *)
Definition kchg (k k' : kind) : Prop := match k, k' with KTimer, KFired => True | KGather _, KGather _ => True | _, _ => False end.
(** [settles]: which futures may be settled how; [resumes]: whether a handle may be taken off the ready queue. *)
Record perm := mk_perm { settles :> kind -> fstate -> Prop; resumes : Prop }.
Section M.
(** [N]: what holds of every continuation that gets stored, together with the future the task suspends on and its kind;
    [S]: what the step may do. *)
Context (N : option (id * kind) -> (res lval -> body) -> Prop) (S : perm).
Inductive m1 : core -> core -> Prop :=
| m_settle c r F f st cbs k st' : nth_error F f = Some (mk_fut st cbs k) -> st = Pending -> is_task k = false -> st' <> Pending -> S k st' ->
    m1 (c, r, F) (c, r ++ map (sched f) cbs, put_nth f (mk_fut st' [] k) F)
| m_must c r F t st cbs k w m m' : nth_error F t = Some (mkt st cbs k w m) -> (m' = true -> S (KTask (mk_task k w m)) Canc) -> m1 (c, r, F) (c, r, put_nth t (mkt st cbs k w m') F)
| m_cb c r F f cbs k g : nth_error F f = Some (mk_fut Pending cbs k) -> S (KGather 0) Pending -> m1 (c, r, F) (c, r, put_nth f (mk_fut Pending (cbs ++ [CbCount g]) k) F)
| m_push c r F h : match h with HCount _ => S (KGather 0) Pending | HTimer f => exists st cbs, nth_error F f = Some (mk_fut st cbs KFired) | _ => False end -> m1 (c, r, F) (c, r ++ [h], F)
| m_kind c r F f st cbs k k' : nth_error F f = Some (mk_fut st cbs k) -> kchg k k' -> resumes S \/ S (KGather 0) Pending ->
    m1 (c, r, F) (c, r, put_nth f (mk_fut st cbs k') F)
| m_alloc c r F st k : is_task k = false -> st = Pending \/ st = Finished (Ok VNone) -> S k Pending -> m1 (c, r, F) (c, r, F ++ [mk_fut st [] k])
| m_spawn c r F k : N None k -> S (KTask (mk_task k None false)) Pending -> m1 (c, r, F) (c, r ++ [HStep (List.length F)], F ++ [mkt Pending [] k None false])
| m_go t b b' r F : m1 (Some (t, b), r, F) (Some (t, b'), r, F)
| m_sleep t b r F h st cbs k0 w m k : nth_error F t = Some (mkt st cbs k0 w m) -> h = HStep t \/ h = HThrow t RuntimeError -> N None k ->
    m1 (Some (t, b), r, F) (None, r ++ [h], put_nth t (mkt st cbs k None m) F)
| m_wait t b r F f st cbs k0 w m k cbs' kd : nth_error F t = Some (mkt st cbs k0 w m) -> nth_error F f = Some (mk_fut Pending cbs' kd) -> f <> t -> N (Some (f, kd)) k ->
    m1 (Some (t, b), r, F) (None, r, put_nth f (mk_fut Pending (cbs' ++ [CbWake t]) kd) (put_nth t (mkt st cbs k (Some f) m) F))
| m_finish t b r F cbs k w m st : nth_error F t = Some (mkt Pending cbs k w m) -> st <> Pending -> S (KTask (mk_task k w m)) st ->
    m1 (Some (t, b), r, F) (None, r ++ map (sched t) cbs, put_nth t (mkt st [] k w m) F)
| m_resume h t r F st cbs k w m : owner h = Some t -> nth_error F t = Some (mkt st cbs k w m) -> resumes S ->
    m1 (None, h :: r, F) (Some (t, k (if m then Exn CancelledError else hres F h)), r, put_nth t (mkt st cbs k None false) F)
| m_pop h c r F : owner h = None -> resumes S -> m1 (c, h :: r, F) (c, r, F).
Inductive mstar : core -> core -> Prop :=
| ms_refl c : mstar c c
| ms_step c c1 c2 : m1 c c1 -> mstar c1 c2 -> mstar c c2.
Lemma mstar_one c c1 : m1 c c1 -> mstar c c1. Proof. intros H. econstructor; [eassumption|constructor]. Qed.
Lemma mstar_trans c c1 c2 : mstar c c1 -> mstar c1 c2 -> mstar c c2.
Proof. induction 1; intros; auto. econstructor; eauto. Qed.
Lemma mstar_inv (P : core -> Prop) c c1 : (forall c c1, m1 c c1 -> P c -> P c1) -> mstar c c1 -> P c -> P c1.
Proof. intros HP H. induction H; eauto. Qed.
End M.
Lemma m1_mono (N N' : option (id * kind) -> (res lval -> body) -> Prop) (S S' : perm) c c1 : (forall w k, N w k -> N' w k) -> (forall k st, S k st -> S' k st) -> (resumes S -> resumes S') -> m1 N S c c1 -> m1 N' S' c c1.
Proof. intros H1 H2 H3 H. destruct H as [ | | |? ? ? h X|? ? ? ? ? ? ? ? E K X| | | | | | | | ]; try (econstructor; eauto; fail). apply m_push. destruct h; auto. eapply m_kind; eauto. destruct X; auto. Qed.
Lemma mstar_mono (N N' : option (id * kind) -> (res lval -> body) -> Prop) (S S' : perm) c c1 : (forall w k, N w k -> N' w k) -> (forall k st, S k st -> S' k st) -> (resumes S -> resumes S') -> mstar N S c c1 -> mstar N' S' c c1.
Proof. intros H1 H2 H3 H. induction H; [constructor|]. econstructor; eauto using m1_mono. Qed.

(** * The token invariant *)
Definition owns (t : id) (h : handle) : bool := match owner h with Some t' => Nat.eqb t' t | None => false end.
Definition wakes (t : id) (c : cb) : bool := match c with CbWake t' => Nat.eqb t' t | _ => false end.
Definition cntc (t : id) (c : option (id * body)) : nat := match c with Some (t', _) => if Nat.eqb t' t then 1 else 0 | None => 0 end.
Definition cnth (t : id) (r : list handle) : nat := List.length (filter (owns t) r).
Definition cntb (t : id) (l : list cb) : nat := List.length (filter (wakes t) l).
Definition cntf (t : id) (F : list fut) : nat := list_sum (map (fun fu => cntb t (f_cbs fu)) F).
Definition islive (F : list fut) (t : id) : bool := match nth_error F t with Some (mk_fut Pending _ (KTask _)) => true | _ => false end.
Definition waitof (F : list fut) (t : id) : option (option id) := match nth_error F t with Some (mk_fut _ _ (KTask k)) => Some (k_wait k) | _ => None end.
Record Inv (x : core) : Prop := mk_inv
  { i_cnt : forall t, cntc t (fst (fst x)) + cnth t (snd (fst x)) + cntf t (snd x) = if islive (snd x) t then 1 else 0;
    i_step : forall t, In (HStep t) (snd (fst x)) -> waitof (snd x) t = Some None;
    i_throw : forall t e, In (HThrow t e) (snd (fst x)) -> waitof (snd x) t = Some None;
    i_wake : forall t f, In (HWake t f) (snd (fst x)) -> waitof (snd x) t = Some (Some f) /\ exists fu, nth_error (snd x) f = Some fu /\ pending fu = false;
    i_cb : forall t f fu, nth_error (snd x) f = Some fu -> In (CbWake t) (f_cbs fu) -> waitof (snd x) t = Some (Some f);
    i_cbs : forall f fu, nth_error (snd x) f = Some fu -> pending fu = false -> f_cbs fu = [];
    i_cur : forall t b, fst (fst x) = Some (t, b) -> waitof (snd x) t = Some None }.

Lemma cnth_app t r r' : cnth t (r ++ r') = cnth t r + cnth t r'.
Proof. unfold cnth. now rewrite filter_app, app_length. Qed.
Lemma cntb_app t r r' : cntb t (r ++ r') = cntb t r + cntb t r'.
Proof. unfold cntb. now rewrite filter_app, app_length. Qed.
Lemma cntf_app t F x : cntf t (F ++ [x]) = cntf t F + cntb t (f_cbs x).
Proof. unfold cntf. rewrite map_app. unfold list_sum. rewrite fold_right_app. simpl. rewrite Nat.add_0_r.
  induction (map (fun fu => cntb t (f_cbs fu)) F) as [|y l IH]; simpl; lia. Qed.
Lemma cnth_cons t h r : cnth t (h :: r) = (if owns t h then 1 else 0) + cnth t r.
Proof. unfold cnth. simpl. destruct (owns t h); reflexivity. Qed.
Lemma cnth_one t h : cnth t [h] = if owns t h then 1 else 0.
Proof. rewrite cnth_cons. apply Nat.add_0_r. Qed.
Lemma cnth_sched t f l : cnth t (map (sched f) l) = cntb t l.
Proof. unfold cnth, cntb. induction l as [|[]l IH]; simpl; auto. unfold owns at 1. simpl. destruct (Nat.eqb t0 t); simpl; auto. Qed.
Lemma cnth_In t h r : In h r -> owner h = Some t -> 1 <= cnth t r.
Proof.
  intros H E. unfold cnth. assert (H1 : In h (filter (owns t) r)).
  { apply filter_In. split; auto. unfold owns. rewrite E. apply Nat.eqb_refl. }
  destruct (filter (owns t) r); simpl in *; [contradiction|lia].
Qed.
Lemma cntb_In t l : In (CbWake t) l -> 1 <= cntb t l.
Proof.
  intros H. unfold cntb. assert (H1 : In (CbWake t) (filter (wakes t) l)) by (apply filter_In; split; auto; simpl; apply Nat.eqb_refl).
  destruct (filter (wakes t) l); simpl in *; [contradiction|lia].
Qed.
Lemma cntb_zero t l : cntb t l = 0 -> ~ In (CbWake t) l.
Proof. intros H H1. apply cntb_In in H1. lia. Qed.
Lemma cntf_put t F f x a : nth_error F f = Some x -> cntf t (put_nth f a F) + cntb t (f_cbs x) = cntf t F + cntb t (f_cbs a).
Proof. apply (put_nth_sum (fun fu => cntb t (f_cbs fu))). Qed.
Lemma cntf_le t F f x : nth_error F f = Some x -> cntb t (f_cbs x) <= cntf t F.
Proof. apply (sum_In (fun fu => cntb t (f_cbs fu))). Qed.
Lemma islive_put F f x a t : nth_error F f = Some x -> islive (put_nth f a F) t = if Nat.eqb t f then (match a with mk_fut Pending _ (KTask _) => true | _ => false end) else islive F t.
Proof. intros H. unfold islive. rewrite (put_nth_get _ _ _ _ t H). now destruct (Nat.eqb t f). Qed.
Lemma waitof_put F f x a t : nth_error F f = Some x -> waitof (put_nth f a F) t = if Nat.eqb t f then (match a with mk_fut _ _ (KTask k) => Some (k_wait k) | _ => None end) else waitof F t.
Proof. intros H. unfold waitof. rewrite (put_nth_get _ _ _ _ t H). now destruct (Nat.eqb t f). Qed.
Lemma islive_new F a t : islive (F ++ [a]) t = if Nat.eqb t (List.length F) then (match a with mk_fut Pending _ (KTask _) => true | _ => false end) else islive F t.
Proof. unfold islive. rewrite nth_app_new. now destruct (Nat.eqb t _). Qed.
Lemma waitof_new F a t : waitof (F ++ [a]) t = if Nat.eqb t (List.length F) then (match a with mk_fut _ _ (KTask k) => Some (k_wait k) | _ => None end) else waitof F t.
Proof. unfold waitof. rewrite nth_app_new. now destruct (Nat.eqb t _). Qed.
Lemma islive_len F t : islive F t = true -> t < List.length F.
Proof. unfold islive. intros H. apply nth_error_Some. destruct (nth_error F t); congruence. Qed.

Lemma waitof_ne F t : waitof F t <> None -> t < List.length F.
Proof. unfold waitof. intros H. apply nth_error_Some. destruct (nth_error F t); congruence. Qed.

Lemma waitof_task F t st cbs k w m : nth_error F t = Some (mkt st cbs k w m) -> waitof F t = Some w.
Proof. unfold waitof. now intros ->. Qed.
Lemma live_task F t : islive F t = true -> exists cbs k w m, nth_error F t = Some (mkt Pending cbs k w m).
Proof. unfold islive. destruct (nth_error F t) as [[[] cbs []]|]; try discriminate. destruct t0. intros _. unfold mkt. eauto 10. Qed.

Ltac bool_cases :=
  repeat match goal with
  | H : context [Nat.eqb ?a ?b] |- _ => destruct (Nat.eqb_spec a b); subst
  | |- context [Nat.eqb ?a ?b] => destruct (Nat.eqb_spec a b); subst
  end.

Lemma m1_inv N S c c1 : m1 N S c c1 -> Inv c -> Inv c1.
Proof.
  intros H I. destruct I as [Icnt Istep Ithrow Iwake Icb Icbs Icur]. destruct H; cbn [fst snd] in *.
  - (* settle *)
    rename H into Hf. subst st. rename H1 into Hk.
    assert (Hw : forall t, waitof (put_nth f (mk_fut st' [] k) F) t = waitof F t).
    { intros t. rewrite (waitof_put _ _ _ _ t Hf). bool_cases; auto. unfold waitof. rewrite Hf. destruct k; simpl in *; congruence. }
    constructor; cbn [fst snd].
    + intros t. rewrite cnth_app, cnth_sched. pose proof (cntf_put t F f _ (mk_fut st' [] k) Hf) as E. cbn [f_cbs] in E. cbn in E.
      rewrite (islive_put _ _ _ _ t Hf). specialize (Icnt t). bool_cases.
      * unfold islive in Icnt. rewrite Hf in Icnt. destruct k; simpl in *; try discriminate; destruct st'; lia.
      * lia.
    + intros t Ht. rewrite Hw. apply Istep. apply in_app_or in Ht as [|Ht]; auto. apply in_map_iff in Ht as [[] [E _]]; discriminate.
    + intros t e Ht. rewrite Hw. apply (Ithrow t e). apply in_app_or in Ht as [|Ht]; auto. apply in_map_iff in Ht as [[] [E _]]; discriminate.
    + intros t g Ht. rewrite Hw, (put_nth_get _ _ _ _ g Hf). apply in_app_or in Ht as [Ht|Ht].
      * destruct (Iwake t g Ht) as [W1 W2]. split; auto. bool_cases; auto. eexists. split; eauto. now destruct st'.
      * apply in_map_iff in Ht as [cb0 [E Ht]]. destruct cb0; simpl in E; try discriminate. injection E as -> <-. rewrite Nat.eqb_refl.
        split. { eapply Icb; eauto. } eexists. split; eauto. now destruct st'.
    + intros t g fu Hg Ht. rewrite Hw. rewrite (put_nth_get _ _ _ _ g Hf) in Hg. bool_cases.
      * injection Hg as <-. destruct Ht.
      * eauto.
    + intros g fu Hg Hp. rewrite (put_nth_get _ _ _ _ g Hf) in Hg. bool_cases; [now injection Hg as <-|eauto].
    + intros t b E. rewrite Hw. eauto.
  - (* must *)
    rename H into Hf.
    assert (Hw : forall x, waitof (put_nth t (mkt st cbs k w m') F) x = waitof F x).
    { intros x. rewrite (waitof_put _ _ _ _ x Hf). bool_cases; auto. unfold waitof. rewrite Hf. reflexivity. }
    constructor; cbn [fst snd].
    + intros x. pose proof (cntf_put x F t _ (mkt st cbs k w m') Hf) as E. cbn [f_cbs mkt] in E.
      rewrite (islive_put _ _ _ _ x Hf). specialize (Icnt x). bool_cases; [|lia].
      unfold islive in Icnt. rewrite Hf in Icnt. simpl in *. lia.
    + intros x Hx. rewrite Hw. auto.
    + intros x e Hx. rewrite Hw. eauto.
    + intros x g Hx. rewrite Hw, (put_nth_get _ _ _ _ g Hf). destruct (Iwake x g Hx) as [W1 [fu [W2 W3]]]. split; auto. bool_cases; eauto.
      rewrite Hf in W2. injection W2 as <-. eexists. split; eauto.
    + intros x g fu Hg Hx. rewrite Hw. rewrite (put_nth_get _ _ _ _ g Hf) in Hg. bool_cases; [|eauto].
      injection Hg as <-. simpl in Hx. eapply Icb; eauto.
    + intros g fu Hg Hp. rewrite (put_nth_get _ _ _ _ g Hf) in Hg. bool_cases; [|eauto]. injection Hg as <-. simpl. apply (Icbs t _ Hf). apply Hp.
    + intros x b E. rewrite Hw. eauto.
  - (* cb *)
    rename H into Hf.
    assert (Hw : forall x, waitof (put_nth f (mk_fut Pending (cbs ++ [CbCount g]) k) F) x = waitof F x).
    { intros x. rewrite (waitof_put _ _ _ _ x Hf). bool_cases; auto. unfold waitof. rewrite Hf. reflexivity. }
    constructor; cbn [fst snd].
    + intros x. pose proof (cntf_put x F f _ (mk_fut Pending (cbs ++ [CbCount g]) k) Hf) as E. cbn [f_cbs] in E. rewrite cntb_app in E. cbn in E.
      rewrite (islive_put _ _ _ _ x Hf). specialize (Icnt x). bool_cases; [|lia].
      unfold islive in Icnt. rewrite Hf in Icnt. lia.
    + intros x Hx. rewrite Hw. auto.
    + intros x e Hx. rewrite Hw. eauto.
    + intros x g0 Hx. rewrite Hw, (put_nth_get _ _ _ _ g0 Hf). destruct (Iwake x g0 Hx) as [W1 [fu [W2 W3]]]. split; auto. bool_cases; eauto.
      rewrite Hf in W2. injection W2 as <-. discriminate.
    + intros x g0 fu Hg Hx. rewrite Hw. rewrite (put_nth_get _ _ _ _ g0 Hf) in Hg. bool_cases; [|eauto].
      injection Hg as <-. simpl in Hx. apply in_app_or in Hx as [Hx|[Hx|[]]]; [|discriminate]. eapply Icb; eauto.
    + intros g0 fu Hg Hp. rewrite (put_nth_get _ _ _ _ g0 Hf) in Hg. bool_cases; [|eauto]. injection Hg as <-. discriminate.
    + intros x b E. rewrite Hw. eauto.
  - (* push *)
    assert (Ho : owner h = None) by (destruct h; simpl in *; tauto). clear H. rename Ho into H.
    constructor; cbn [fst snd]; eauto.
    + intros t. rewrite cnth_app. unfold cnth at 2. simpl. unfold owns. rewrite H. simpl. rewrite Nat.add_0_r. auto.
    + intros t Ht. apply in_app_or in Ht as [Ht|[Ht|[]]]; auto. subst. discriminate.
    + intros t e Ht. apply in_app_or in Ht as [Ht|[Ht|[]]]; eauto. subst. discriminate.
    + intros t e Ht. apply in_app_or in Ht as [Ht|[Ht|[]]]; eauto. subst. discriminate.
  - (* kind *)
    rename H into Hf.
    assert (Hw : forall x, waitof (put_nth f (mk_fut st cbs k') F) x = waitof F x).
    { intros x. rewrite (waitof_put _ _ _ _ x Hf). bool_cases; auto. unfold waitof. rewrite Hf. destruct k, k'; simpl in *; tauto || congruence. }
    constructor; cbn [fst snd].
    + intros x. pose proof (cntf_put x F f _ (mk_fut st cbs k') Hf) as E. cbn [f_cbs] in E.
      rewrite (islive_put _ _ _ _ x Hf). specialize (Icnt x). bool_cases; [|lia].
      unfold islive in Icnt. rewrite Hf in Icnt. destruct st, k, k'; simpl in *; try contradiction; lia.
    + intros x Hx. rewrite Hw. auto.
    + intros x e Hx. rewrite Hw. eauto.
    + intros x g0 Hx. rewrite Hw, (put_nth_get _ _ _ _ g0 Hf). destruct (Iwake x g0 Hx) as [W1 [fu [W2 W3]]]. split; auto. bool_cases; eauto.
      rewrite Hf in W2. injection W2 as <-. eexists. split; eauto.
    + intros x g0 fu Hg Hx. rewrite Hw. rewrite (put_nth_get _ _ _ _ g0 Hf) in Hg. bool_cases; [|eauto].
      injection Hg as <-. simpl in Hx. eapply Icb; eauto.
    + intros g0 fu Hg Hp. rewrite (put_nth_get _ _ _ _ g0 Hf) in Hg. bool_cases; [|eauto]. injection Hg as <-. simpl. apply (Icbs f _ Hf). apply Hp.
    + intros x b E. rewrite Hw. eauto.
  - (* alloc *)
    assert (Hw : forall x, waitof F x <> None -> waitof (F ++ [mk_fut st [] k]) x = waitof F x).
    { intros x Hx. rewrite waitof_new. bool_cases; auto. apply waitof_ne in Hx. lia. }
    constructor; cbn [fst snd].
    + intros x. rewrite cntf_app. cbn [f_cbs]. rewrite islive_new. specialize (Icnt x). bool_cases; cbn.
      * unfold islive in Icnt. rewrite (proj2 (nth_error_None F _) (le_n _)) in Icnt. destruct k; simpl in *; try discriminate; destruct st; lia.
      * lia.
    + intros x Hx. rewrite Hw; auto. rewrite (Istep x Hx). discriminate.
    + intros x e Hx. rewrite Hw; eauto. rewrite (Ithrow x e Hx). discriminate.
    + intros x g0 Hx. destruct (Iwake x g0 Hx) as [W1 [fu [W2 W3]]]. rewrite Hw by (rewrite W1; discriminate). split; auto.
      exists fu. split; auto. rewrite nth_app_new. bool_cases; auto. assert (List.length F < List.length F) by (apply nth_error_Some; congruence). lia.
    + intros x g0 fu Hg Hx. rewrite nth_app_new in Hg. bool_cases.
      * injection Hg as <-. destruct Hx.
      * rewrite Hw; [eauto|]. rewrite (Icb _ _ _ Hg Hx). discriminate.
    + intros g0 fu Hg Hp. rewrite nth_app_new in Hg. bool_cases; [now injection Hg as <-|eauto].
    + intros x b E. rewrite Hw; eauto. rewrite (Icur _ _ E). discriminate.
  - (* spawn *)
    set (fu0 := mkt Pending [] k None false).
    assert (Hw : forall x, waitof F x <> None -> waitof (F ++ [fu0]) x = waitof F x).
    { intros x Hx. rewrite waitof_new. bool_cases; auto. apply waitof_ne in Hx. lia. }
    constructor; cbn [fst snd].
    + intros x. rewrite cntf_app, cnth_app, cnth_one. unfold owns. cbn [owner]. replace (cntb x (f_cbs fu0)) with 0 by reflexivity. rewrite islive_new. specialize (Icnt x).
      rewrite (Nat.eqb_sym (List.length F) x). destruct (Nat.eqb_spec x (List.length F)) as [->|Hx].
      * unfold islive in Icnt. rewrite (proj2 (nth_error_None F _) (le_n _)) in Icnt. unfold fu0, mkt. lia.
      * lia.
    + intros x Hx. apply in_app_or in Hx as [Hx|[Hx|[]]].
      * rewrite Hw; auto. rewrite (Istep x Hx). discriminate.
      * injection Hx as <-. rewrite waitof_new, Nat.eqb_refl. reflexivity.
    + intros x e Hx. apply in_app_or in Hx as [Hx|[Hx|[]]]; [|discriminate]. rewrite Hw; eauto. rewrite (Ithrow x e Hx). discriminate.
    + intros x g0 Hx. apply in_app_or in Hx as [Hx|[Hx|[]]]; [|discriminate]. destruct (Iwake x g0 Hx) as [W1 [fu [W2 W3]]]. rewrite Hw by (rewrite W1; discriminate). split; auto.
      exists fu. split; auto. rewrite nth_app_new. bool_cases; auto. assert (List.length F < List.length F) by (apply nth_error_Some; congruence). lia.
    + intros x g0 fu Hg Hx. rewrite nth_app_new in Hg. bool_cases.
      * injection Hg as <-. destruct Hx.
      * rewrite Hw; [eauto|]. rewrite (Icb _ _ _ Hg Hx). discriminate.
    + intros g0 fu Hg Hp. rewrite nth_app_new in Hg. bool_cases; [now injection Hg as <-|eauto].
    + intros x b E. rewrite Hw; eauto. rewrite (Icur _ _ E). discriminate.
  - (* go *)
    constructor; cbn [fst snd]; eauto. intros x c0 E. injection E as <- <-. eapply Icur; eauto.
  - (* sleep *)
    rename H into Hf, H0 into Hh.
    assert (Hw : forall x, waitof (put_nth t (mkt st cbs k None m) F) x = waitof F x).
    { intros x. rewrite (waitof_put _ _ _ _ x Hf). bool_cases; auto. symmetry. eapply Icur; eauto. }
    assert (Ho : owner h = Some t) by (destruct Hh as [->| ->]; reflexivity).
    constructor; cbn [fst snd].
    + intros x. pose proof (cntf_put x F t _ (mkt st cbs k None m) Hf) as E. cbn [f_cbs mkt] in E. rewrite cnth_app, cnth_one. unfold owns. rewrite Ho.
      rewrite (islive_put _ _ _ _ x Hf). specialize (Icnt x). cbn [cntc] in *. bool_cases; try congruence.
      * unfold islive in Icnt. rewrite Hf in Icnt. simpl in Icnt |- *. lia.
      * lia.
    + intros x Hx. rewrite Hw. apply in_app_or in Hx as [Hx|[Hx|[]]]; auto. subst h. injection Ho as ->. eapply Icur; eauto.
    + intros x e Hx. rewrite Hw. apply in_app_or in Hx as [Hx|[Hx|[]]]; eauto. subst h. injection Ho as ->. eapply Icur; eauto.
    + intros x g0 Hx. rewrite Hw, (put_nth_get _ _ _ _ g0 Hf). apply in_app_or in Hx as [Hx|[Hx|[]]]; [|destruct Hh as [->| ->]; discriminate].
      destruct (Iwake x g0 Hx) as [W1 [fu [W2 W3]]]. split; auto. bool_cases; eauto.
      rewrite Hf in W2. injection W2 as <-. eexists. split; eauto.
    + intros x g0 fu Hg Hx. rewrite Hw. rewrite (put_nth_get _ _ _ _ g0 Hf) in Hg. bool_cases; [|eauto].
      injection Hg as <-. simpl in Hx. eapply Icb; eauto.
    + intros g0 fu Hg Hp. rewrite (put_nth_get _ _ _ _ g0 Hf) in Hg. bool_cases; [|eauto]. injection Hg as <-. simpl. apply (Icbs t _ Hf). apply Hp.
    + intros x c0 E. discriminate.
  - (* wait *)
    rename H into Hf, H0 into Hg, H1 into Hne.
    assert (Hz : cnth t r = 0 /\ cntf t F = 0).
    { specialize (Icnt t). cbn in Icnt. rewrite Nat.eqb_refl in Icnt. destruct (islive F t); lia. }
    set (F1 := put_nth t (mkt st cbs k (Some f) m) F).
    assert (Hg1 : nth_error F1 f = Some (mk_fut Pending cbs' kd)).
    { unfold F1. rewrite (put_nth_get _ _ _ _ f Hf). bool_cases; congruence. }
    assert (Hw : forall x, x <> t -> waitof (put_nth f (mk_fut Pending (cbs' ++ [CbWake t]) kd) F1) x = waitof F x).
    { intros x Hx. rewrite (waitof_put _ _ _ _ x Hg1). unfold F1. rewrite (waitof_put _ _ _ _ x Hf). bool_cases; auto; try congruence. unfold waitof. now rewrite Hg. }
    assert (Ht : waitof (put_nth f (mk_fut Pending (cbs' ++ [CbWake t]) kd) F1) t = Some (Some f)).
    { rewrite (waitof_put _ _ _ _ t Hg1). bool_cases; try congruence. unfold F1. rewrite (waitof_put _ _ _ _ t Hf). now rewrite Nat.eqb_refl. }
    assert (Hr : forall h, In h r -> owner h <> Some t).
    { intros h Hi E. pose proof (cnth_In t h r Hi E). lia. }
    constructor; cbn [fst snd].
    + intros x. pose proof (cntf_put x F1 f _ (mk_fut Pending (cbs' ++ [CbWake t]) kd) Hg1) as E1. cbn [f_cbs] in E1. rewrite cntb_app in E1.
      pose proof (cntf_put x F t _ (mkt st cbs k (Some f) m) Hf) as E. cbn [f_cbs mkt] in E. fold F1 in E.
      rewrite (islive_put _ _ _ _ x Hg1). replace (islive F1 x) with (islive (put_nth t (mkt st cbs k (Some f) m) F) x) by reflexivity. rewrite (islive_put _ _ _ _ x Hf).
      specialize (Icnt x). replace (cntb x [CbWake t]) with (if Nat.eqb t x then 1 else 0) in E1 by (unfold cntb; cbn; now destruct (Nat.eqb t x)). cbn [cntc] in *. rewrite (Nat.eqb_sym t x) in Icnt, E1.
      destruct (Nat.eqb_spec x f) as [Ex|Hxf]; [|destruct (Nat.eqb_spec x t) as [Ex|Hxt]].
      * subst x. destruct (Nat.eqb_spec f t); [congruence|]. unfold islive in Icnt. rewrite Hg in Icnt. lia.
      * subst x. unfold islive in Icnt. rewrite Hf in Icnt. unfold mkt in *. destruct st; lia.
      * lia.
    + intros x Hx. rewrite Hw; auto. intros ->. now apply (Hr _ Hx).
    + intros x e Hx. rewrite Hw; eauto. intros ->. now apply (Hr _ Hx).
    + intros x g0 Hx. rewrite Hw by (intros ->; now apply (Hr _ Hx)). destruct (Iwake x g0 Hx) as [W1 [fu [W2 W3]]]. split; auto.
      rewrite (put_nth_get _ _ _ _ g0 Hg1). unfold F1. rewrite (put_nth_get _ _ _ _ g0 Hf). bool_cases; eauto.
      * rewrite Hg in W2. injection W2 as <-. discriminate.
      * rewrite Hf in W2. injection W2 as <-. eexists. split; eauto.
    + intros x g0 fu Hi Hx. rewrite (put_nth_get _ _ _ _ g0 Hg1) in Hi. unfold F1 in Hi. rewrite (put_nth_get _ _ _ _ g0 Hf) in Hi.
      assert (Hold : forall y fy, nth_error F y = Some fy -> In (CbWake x) (f_cbs fy) -> x <> t).
      { intros y fy Ey Hy ->. apply cntb_In in Hy. pose proof (cntf_le t F _ _ Ey). lia. }
      destruct (Nat.eqb_spec g0 f) as [->|Hgf].
      * injection Hi as <-. simpl in Hx. apply in_app_or in Hx as [Hx|[Hx|[]]].
        -- rewrite Hw; [apply (Icb _ _ _ Hg Hx)|apply (Hold _ _ Hg Hx)].
        -- injection Hx as Hx. subst x. exact Ht.
      * destruct (Nat.eqb_spec g0 t) as [->|Hgt].
        -- injection Hi as <-. simpl in Hx. rewrite Hw; [apply (Icb _ _ _ Hf Hx)|apply (Hold _ _ Hf Hx)].
        -- rewrite Hw; [apply (Icb _ _ _ Hi Hx)|apply (Hold _ _ Hi Hx)].
    + intros g0 fu Hi Hp. rewrite (put_nth_get _ _ _ _ g0 Hg1) in Hi. unfold F1 in Hi. rewrite (put_nth_get _ _ _ _ g0 Hf) in Hi. bool_cases; eauto.
      * injection Hi as <-. discriminate.
      * injection Hi as <-. simpl. apply (Icbs t _ Hf). apply Hp.
    + discriminate.
  - (* finish *)
    rename H into Hf.
    assert (Hw : forall x, waitof (put_nth t (mkt st [] k w m) F) x = waitof F x).
    { intros x. rewrite (waitof_put _ _ _ _ x Hf). bool_cases; auto. unfold waitof. now rewrite Hf. }
    constructor; cbn [fst snd].
    + intros x. pose proof (cntf_put x F t _ (mkt st [] k w m) Hf) as E. cbn [f_cbs mkt] in E. rewrite cnth_app, cnth_sched.
      rewrite (islive_put _ _ _ _ x Hf). specialize (Icnt x). cbn [cntc] in *. replace (cntb x []) with 0 in E by reflexivity. bool_cases; try congruence.
      * unfold islive in Icnt. rewrite Hf in Icnt. simpl in Icnt |- *. destruct st; try congruence; lia.
      * lia.
    + intros x Hx. rewrite Hw. apply in_app_or in Hx as [Hx|Hx]; auto. apply in_map_iff in Hx as [[] [E _]]; discriminate.
    + intros x e Hx. rewrite Hw. apply in_app_or in Hx as [Hx|Hx]; eauto. apply in_map_iff in Hx as [[] [E _]]; discriminate.
    + intros x g0 Hx. rewrite Hw, (put_nth_get _ _ _ _ g0 Hf). apply in_app_or in Hx as [Hx|Hx].
      * destruct (Iwake x g0 Hx) as [W1 [fu [W2 W3]]]. split; auto. bool_cases; eauto.
        rewrite Hf in W2. injection W2 as <-. discriminate.
      * apply in_map_iff in Hx as [cb0 [E Hx]]. destruct cb0; simpl in E; try discriminate. injection E as -> <-. rewrite Nat.eqb_refl.
        split. { eapply Icb; eauto. } eexists. split; eauto. now destruct st.
    + intros x g0 fu Hi Hx. rewrite Hw. rewrite (put_nth_get _ _ _ _ g0 Hf) in Hi. bool_cases; [|eauto].
      injection Hi as <-. destruct Hx.
    + intros g0 fu Hi Hp. rewrite (put_nth_get _ _ _ _ g0 Hf) in Hi. bool_cases; [now injection Hi as <-|eauto].
    + discriminate.
  - (* resume *)
    rename H into Ho, H0 into Hf.
    assert (Hz : cnth t r = 0 /\ cntf t F = 0).
    { specialize (Icnt t). cbn [cntc] in Icnt. rewrite cnth_cons in Icnt. unfold owns in Icnt at 1. rewrite Ho, Nat.eqb_refl in Icnt. destruct (islive F t); lia. }
    assert (Hw : forall x, x <> t -> waitof (put_nth t (mkt st cbs k None false) F) x = waitof F x).
    { intros x Hx. rewrite (waitof_put _ _ _ _ x Hf). bool_cases; congruence. }
    assert (Hr : forall h, In h r -> owner h <> Some t).
    { intros h0 Hi E. pose proof (cnth_In t h0 r Hi E). lia. }
    constructor; cbn [fst snd].
    + intros x. pose proof (cntf_put x F t _ (mkt st cbs k None false) Hf) as E. cbn [f_cbs mkt] in E.
      rewrite (islive_put _ _ _ _ x Hf). specialize (Icnt x). cbn [cntc] in *. rewrite cnth_cons in Icnt. unfold owns in Icnt at 1. rewrite Ho in Icnt.
      unfold islive in Icnt. bool_cases; try congruence.
      * rewrite Hf in Icnt. simpl in Icnt |- *. lia.
      * fold (islive F x) in Icnt. lia.
    + intros x Hx. rewrite Hw; [apply Istep; now right|]. intros ->. now apply (Hr _ Hx).
    + intros x e Hx. rewrite Hw; [apply (Ithrow x e); now right|]. intros ->. now apply (Hr _ Hx).
    + intros x g0 Hx. rewrite Hw by (intros ->; now apply (Hr _ Hx)). destruct (Iwake x g0) as [W1 [fu [W2 W3]]]; [now right|]. split; auto.
      rewrite (put_nth_get _ _ _ _ g0 Hf). bool_cases; eauto. rewrite Hf in W2. injection W2 as <-. eexists. split; eauto.
    + intros x g0 fu Hi Hx. rewrite (put_nth_get _ _ _ _ g0 Hf) in Hi.
      assert (Hold : forall y fy, nth_error F y = Some fy -> In (CbWake x) (f_cbs fy) -> x <> t).
      { intros y fy Ey Hy ->. apply cntb_In in Hy. pose proof (cntf_le t F _ _ Ey). lia. }
      destruct (Nat.eqb_spec g0 t) as [->|Hgt].
      * injection Hi as <-. simpl in Hx. rewrite Hw; [apply (Icb _ _ _ Hf Hx)|apply (Hold _ _ Hf Hx)].
      * rewrite Hw; [apply (Icb _ _ _ Hi Hx)|apply (Hold _ _ Hi Hx)].
    + intros g0 fu Hi Hp. rewrite (put_nth_get _ _ _ _ g0 Hf) in Hi. bool_cases; [|eauto]. injection Hi as <-. simpl. apply (Icbs t _ Hf). apply Hp.
    + intros x b E. injection E as <- <-. rewrite (waitof_put _ _ _ _ t Hf), Nat.eqb_refl. reflexivity.
  - (* pop *)
    constructor; cbn [fst snd]; eauto.
    + intros t. specialize (Icnt t). rewrite cnth_cons in Icnt. unfold owns in Icnt at 1. rewrite H in Icnt. auto.
    + intros t Ht. apply Istep. now right.
    + intros t e Ht. apply (Ithrow t e). now right.
    + intros t f Ht. apply Iwake. now right.
Qed.
Lemma mstar_Inv N S c c1 : mstar N S c c1 -> Inv c -> Inv c1.
Proof. intros H. apply (mstar_inv N S Inv c c1 (m1_inv N S) H). Qed.

(** * What micro steps keep *)
Definition kindrel (k k' : kind) : Prop :=
  match k, k' with
  | KTask _, KTask _ => True
  | KGather _, KGather _ => True
  | KTimer, KTimer | KTimer, KFired | KFired, KFired => True
  | KEv e, KEv e' => e = e'
  | KQueue q, KQueue q' => q = q'
  | _, _ => False
  end.
Lemma kindrel_refl k : kindrel k k. Proof. now destruct k. Qed.
Lemma kindrel_trans k1 k2 k3 : kindrel k1 k2 -> kindrel k2 k3 -> kindrel k1 k3.
Proof. destruct k1, k2; simpl; try contradiction; destruct k3; simpl; try contradiction; congruence. Qed.
Definition fext (F F' : list fut) : Prop :=
  forall f fu, nth_error F f = Some fu -> exists fu', nth_error F' f = Some fu' /\ kindrel (f_kind fu) (f_kind fu') /\ (pending fu = false -> f_st fu' = f_st fu).
Lemma fext_refl F : fext F F.
Proof. intros f fu H. exists fu. split; [|split]; auto. apply kindrel_refl. Qed.
Lemma fext_trans F1 F2 F3 : fext F1 F2 -> fext F2 F3 -> fext F1 F3.
Proof.
  intros H1 H2 f fu H. destruct (H1 f fu H) as [fu1 [E1 [K1 P1]]]. destruct (H2 f fu1 E1) as [fu2 [E2 [K2 P2]]].
  exists fu2. split; [|split]; auto. { eapply kindrel_trans; eauto. } intros Hp. rewrite P2; auto. unfold pending in *. now rewrite P1.
Qed.
Lemma fext_put F f fu a : nth_error F f = Some fu -> kindrel (f_kind fu) (f_kind a) -> (pending fu = false -> f_st a = f_st fu) -> fext F (put_nth f a F).
Proof.
  intros H K P g gu Hg. rewrite (put_nth_get _ _ _ _ g H). destruct (Nat.eqb_spec g f) as [->|Hne].
  - rewrite H in Hg. injection Hg as <-. eauto.
  - exists gu. split; [|split]; auto. apply kindrel_refl.
Qed.
Lemma fext_new F a : fext F (F ++ [a]).
Proof.
  intros g gu Hg. exists gu. split; [|split]; auto; [|apply kindrel_refl]. rewrite nth_app_new.
  destruct (Nat.eqb_spec g (List.length F)); auto. assert (g < List.length F) by (apply nth_error_Some; congruence). lia.
Qed.
Lemma m1_ext N S c c1 : m1 N S c c1 -> fext (snd c) (snd c1).
Proof.
  intros H. destruct H; cbn [snd]; try apply fext_refl; try apply fext_new; try (eapply fext_put; [eassumption|exact I || apply kindrel_refl|]; intros; (reflexivity || (subst; discriminate))).
  - eapply fext_put; [eassumption| |reflexivity]. destruct k, k'; simpl in *; tauto.
  - eapply fext_trans.
    + apply (fext_put F t _ (mkt st cbs k (Some f) m) H); [exact I|reflexivity].
    + apply (fext_put _ f (mk_fut Pending cbs' kd)); [|apply kindrel_refl|reflexivity]. rewrite (put_nth_get _ _ _ _ f H). destruct (Nat.eqb_spec f t); [congruence|assumption].
Qed.
Lemma mstar_ext N S c c1 : mstar N S c c1 -> fext (snd c) (snd c1).
Proof. induction 1; [apply fext_refl|]. eapply fext_trans; eauto using m1_ext. Qed.

(** * The functions of the machine as micro steps *)
(** Everything but the ready queue and the futures. *)
Definition rest (s : state) : state := set_futs (set_ready s []) [].
Lemma rest_cur (s s' : state) : rest s = rest s' -> cur s = cur s'. Proof. intros H. change (cur (rest s) = cur (rest s')). now rewrite H. Qed.
Lemma rest_evs (s s' : state) : rest s = rest s' -> evs s = evs s'. Proof. intros H. change (evs (rest s) = evs (rest s')). now rewrite H. Qed.
Lemma rest_qs (s s' : state) : rest s = rest s' -> qs s = qs s'. Proof. intros H. change (qs (rest s) = qs (rest s')). now rewrite H. Qed.
Lemma rest_settle s f st : rest (settle s f st) = rest s.
Proof. unfold settle, conclude. destruct (fget s f) as [fu|]; auto. destruct (is_task _); auto. destruct (pending fu); reflexivity. Qed.
Lemma rest_on_done s f c : rest (on_done s f c) = rest s.
Proof. unfold on_done. destruct (fget s f) as [fu|]; auto. destruct (pending fu); reflexivity. Qed.
Lemma rest_tput s t k : rest (tput s t k) = rest s.
Proof. unfold tput. destruct (fget s t) as [fu|]; auto. Qed.
Lemma rest_cancel n s f : rest (fst (cancel n s f)) = rest s.
Proof.
  revert s f. induction n as [|n IH]; intros s f; simpl; destruct (fget s f) as [fu|]; auto; destruct (pending fu); auto; destruct (f_kind fu) as [| | | | |k]; try apply rest_settle.
  - destruct (k_wait k); apply rest_tput.
  - destruct (k_wait k) as [g|]; [|apply rest_tput]. specialize (IH s g). destruct (cancel n s g) as [s1 []]; simpl in *; [exact IH|apply rest_tput].
Qed.
Lemma rest_fold {A} (h : state -> A -> state) l s : (forall s a, rest (h s a) = rest s) -> rest (fold_left h l s) = rest s.
Proof. intros H. revert s. induction l as [|a l IH]; intros s; simpl; auto. now rewrite IH. Qed.
Lemma rest_wake l s : rest (fst (wake_next s l)) = rest s.
Proof. revert s. induction l as [|f l IH]; intros s; simpl; auto. destruct (fpending s f); [apply rest_settle|apply IH]. Qed.

Section Fn.
Context (N : option (id * kind) -> (res lval -> body) -> Prop) (S : perm).
Notation ms := (mstar N S).
Lemma L_go s t b b' : cur s = Some (t, b) -> ms (coreof s) (coreof (go s t b')).
Proof. intros H. apply mstar_one. unfold coreof, go. simpl. rewrite H. constructor. Qed.
Lemma L_settle s f st : st <> Pending -> (forall fu, fget s f = Some fu -> pending fu = true -> is_task (f_kind fu) = false -> S (f_kind fu) st) ->
  ms (coreof s) (coreof (settle s f st)).
Proof.
  intros H1 H2. unfold settle, conclude. destruct (fget s f) as [[st0 cbs k]|] eqn:E; [|constructor]. simpl.
  destruct (is_task k) eqn:Ek; [constructor|]. unfold pending. simpl. specialize (H2 _ eq_refl). unfold pending in H2. simpl in H2.
  destruct st0; try constructor. apply mstar_one. unfold coreof. simpl. eapply m_settle; eauto.
Qed.
Lemma L_must s t k m : tget s t = Some k -> (m = true -> forall k, S k Canc) -> ms (coreof s) (coreof (tput s t (mk_task (k_cont k) (k_wait k) m))).
Proof.
  unfold tget, tput. destruct (fget s t) as [[st cbs kd]|] eqn:E; [|discriminate]. destruct kd; try discriminate. intros H HS. injection H as ->.
  apply mstar_one. unfold coreof. simpl. destruct k. eapply m_must; [exact E|auto].
Qed.
Lemma tget_fut (s : state) t k : tget s t = Some k -> exists st cbs, fget s t = Some (mk_fut st cbs (KTask k)).
Proof. unfold tget. destruct (fget s t) as [[st cbs []]|]; try discriminate. intros H. injection H as ->. eauto. Qed.
Lemma L_cancel n s f : (forall k, S k Canc) -> ms (coreof s) (coreof (fst (cancel n s f))).
Proof.
  intros HS. revert s f. induction n as [|n IH]; intros s f; simpl; destruct (fget s f) as [fu|] eqn:E; try constructor; destruct (pending fu); try constructor;
    destruct (f_kind fu) as [| | | | |k] eqn:Ek; try (apply L_settle; [discriminate|auto]);
    assert (T : tget s f = Some k) by (unfold tget; rewrite E; destruct fu; simpl in *; now rewrite Ek).
  - destruct (k_wait k) as [g|] eqn:W; rewrite <- W; now apply L_must.
  - destruct (k_wait k) as [g|] eqn:W.
    + specialize (IH s g). destruct (cancel n s g) as [s1 []]; simpl in *; [exact IH|]. rewrite <- W. now apply L_must.
    + rewrite <- W. now apply L_must.
Qed.
Lemma L_fold {A} (h : state -> A -> state) l s : (forall s a, ms (coreof s) (coreof (h s a))) -> ms (coreof s) (coreof (fold_left h l s)).
Proof. intros H. revert s. induction l as [|a l IH]; intros s; simpl; [constructor|]. eapply mstar_trans; [apply H|apply IH]. Qed.
Lemma L_count s f g : S (KGather 0) Pending -> ms (coreof s) (coreof (on_done s f (CbCount g))).
Proof.
  intros HG. unfold on_done. destruct (fget s f) as [[st cbs k]|] eqn:E; [|constructor]. unfold pending. simpl. apply mstar_one. unfold coreof.
  destruct st; simpl; try (apply m_push; exact HG). eapply m_cb; [exact E|exact HG].
Qed.
Lemma L_alloc (s : state) st (k : kind) : is_task k = false -> st = Pending \/ st = Finished (Ok VNone) -> S k Pending -> ms (coreof s) (coreof (falloc s (mk_fut st [] k))).
Proof. intros H H1 H2. apply mstar_one. unfold coreof. simpl. now constructor. Qed.
Lemma L_spawn s k : N None k -> S (KTask (mk_task k None false)) Pending -> ms (coreof s) (coreof (spawn s k)).
Proof. intros H H0. apply mstar_one. unfold coreof. simpl. now apply m_spawn. Qed.
Lemma L_suspend0 s t b tk k : cur s = Some (t, b) -> tget s t = Some tk -> N None k -> ms (coreof s) (coreof (suspend0 s t k)).
Proof.
  intros Hc Ht Hk. unfold suspend0. rewrite Ht. destruct (tget_fut _ _ _ Ht) as [st [cbs E]]. apply mstar_one. unfold coreof, tput. rewrite E. simpl. rewrite Hc.
  destruct tk. eapply m_sleep; eauto.
Qed.
Lemma L_suspend s t b tk f k : (k_must tk = true -> forall k, S k Canc) -> cur s = Some (t, b) -> tget s t = Some tk -> fpending s f = true -> (t = f -> N None k) ->
  (forall kd, option_map f_kind (fget s f) = Some kd -> N (Some (f, kd)) k) -> ms (coreof s) (coreof (suspend s t f k)).
Proof.
  intros HS Hc Ht Hp Hk0 Hk. unfold suspend. rewrite Ht. destruct (tget_fut _ _ _ Ht) as [st [cbs E]]. destruct (Nat.eqb_spec t f) as [<-|Hne].
  - apply mstar_one. unfold coreof, tput. rewrite E. simpl. rewrite Hc. destruct tk. eapply m_sleep; eauto.
  - set (s1 := set_cur (on_done (tput s t (mk_task k (Some f) (k_must tk))) f (CbWake t)) None).
    assert (H1 : ms (coreof s) (coreof s1)).
    { unfold fpending in Hp. destruct (fget s f) as [[st' cbs' kd]|] eqn:Ef; [|discriminate]. unfold pending in Hp. simpl in Hp. destruct st'; try discriminate.
      assert (Ef1 : fget (tput s t (mk_task k (Some f) (k_must tk))) f = Some (mk_fut Pending cbs' kd)).
      { unfold tput. rewrite E. unfold fget. simpl. rewrite (put_nth_get _ _ _ _ f E). destruct (Nat.eqb_spec f t); [congruence|exact Ef]. }
      apply mstar_one. unfold s1, on_done. rewrite Ef1. unfold coreof, tput. rewrite E. simpl. rewrite Hc. destruct tk. eapply m_wait; eauto. }
    destruct (k_must tk) eqn:Em; [|exact H1]. pose proof (L_cancel (List.length (futs s1)) s1 f (HS eq_refl)) as H2. destruct (cancel _ s1 f) as [s2 ok]. simpl in H2.
    destruct ok; [|eapply mstar_trans; eauto]. destruct (tget s2 t) as [tk'|] eqn:T2; [|eapply mstar_trans; eauto].
    eapply mstar_trans; [exact H1|]. eapply mstar_trans; [exact H2|]. apply L_must; auto.
Qed.
End Fn.
End Core.
