(** C56: instances of bundles. *)
From Coq Require Import List Bool Arith ZArith Lia.
From Verif Require Import Inst_Model Inst_Spec.
Import ListNotations.

Section Ind.
Context (P : cls -> Prop) (H : forall sigs subs sls bls, Forall P subs -> P (Cls sigs subs sls bls)).
Fixpoint cls_all (c : cls) : P c :=
  match c with Cls sigs subs sls bls => H sigs subs sls bls ((fix go l : Forall P l := match l with [] => Forall_nil P | x :: t => Forall_cons x (cls_all x) (go t) end) subs) end.
End Ind.

(** * Objects and regions *)
Lemma put_len h a o : List.length (put h a o) = List.length h.
Proof.
  unfold put. rewrite app_length, firstn_length. pose proof (skipn_length a h) as S. destruct (skipn a h) as [|x t]; simpl in *; lia.
Qed.
Lemma put_get h a o b x : nth_error h a = Some x -> nth_error (put h a o) b = if b =? a then Some o else nth_error h b.
Proof.
  unfold put. revert a b. induction h as [|y h IH]; intros [|a] [|b] E; simpl in *; try discriminate; auto.
Qed.
(** The same object except for the signals in it. *)
Section Upd.
Context (E : nat -> Prop).
Definition shape (o o' : obj) : Prop := match o, o' with OBun _ a b c, OBun _ a' b' c' => a = a' /\ b = b' /\ c = c' | OSig _, OSig _ => True | OLst a, OLst b => a = b | _, _ => False end.
Definition alike (o o' : obj) : Prop := shape o o' /\ forall p, In (SPin p) (slots o') -> E p \/ In (SPin p) (slots o).
Lemma alike_refl o : alike o o. Proof. split; auto. destruct o; simpl; auto. Qed.
Lemma alike_trans a b c : alike a b -> alike b c -> alike a c.
Proof. intros [A A'] [B B']. split; [|intros p Hp; destruct (B' p Hp); auto]. clear A' B'. destruct a, b, c; simpl in *; try tauto; try congruence. destruct A as [-> [-> ->]]. auto. Qed.
Lemma alike_refs a b : alike a b -> refs a = refs b.
Proof. intros [A _]. destruct a, b; simpl in *; try tauto; try congruence. destruct A as [-> [-> ->]]. auto. Qed.
(** [h'] differs from [h] only in signals of objects in [R]. *)
Definition upd (R : nat -> Prop) (h h' : heap) : Prop :=
  List.length h' = List.length h /\ forall a, (~ R a -> nth_error h' a = nth_error h a) /\ forall o, nth_error h a = Some o -> exists o', nth_error h' a = Some o' /\ alike o o'.
Definition closed (R : nat -> Prop) (h : heap) : Prop := forall a o b, R a -> nth_error h a = Some o -> In b (refs o) -> R b.
Lemma upd_refl R h : upd R h h.
Proof. split; auto. intros a. split; auto. intros o H. exists o. split; auto. apply alike_refl. Qed.
Lemma upd_trans R h1 h2 h3 : upd R h1 h2 -> upd R h2 h3 -> upd R h1 h3.
Proof.
  intros [L1 A] [L2 B]. split; [congruence|]. intros a. destruct (A a) as [A1 A2]. destruct (B a) as [B1 B2]. split; [intros N; rewrite (B1 N); auto|].
  intros o H. destruct (A2 o H) as [o1 [H1 K1]]. destruct (B2 o1 H1) as [o2 [H2 K2]]. exists o2. split; auto. eapply alike_trans; eauto.
Qed.
Lemma upd_closed R R' h h' : upd R h h' -> closed R' h -> closed R' h'.
Proof.
  intros [L U] C a o b Ra Ho Hb. destruct (U a) as [_ U2]. destruct (nth_error h a) as [o1|] eqn:Eo.
  - destruct (U2 o1 eq_refl) as [o' [Ho' K]]. assert (o' = o) as -> by congruence. apply (C a o1 b); auto. now rewrite (alike_refs _ _ K).
  - exfalso. apply nth_error_None in Eo. assert (X : a < List.length h') by (apply nth_error_Some; congruence). lia.
Qed.
Lemma put_upd (R : nat -> Prop) h a o o' : R a -> nth_error h a = Some o -> alike o o' -> upd R h (put h a o').
Proof.
  intros Ra Eo K. split; [apply put_len|]. intros b. rewrite (put_get _ _ _ b _ Eo). destruct (Nat.eqb_spec b a) as [->|Ne].
  - split; [tauto|]. intros x Hx. assert (x = o) as -> by congruence. eauto.
  - split; auto. intros x Hx. exists x. split; auto. apply alike_refl.
Qed.
Lemma number_in {A} (l : list A) i x : In (i, x) (number l) -> In x l.
Proof. intros H. eapply in_combine_r; eauto. Qed.
Lemma fold_upd {A} (R : nat -> Prop) (f : heap -> A -> heap) l h : closed R h ->
  (forall h' x, closed R h' -> upd R h h' -> In x l -> upd R h' (f h' x)) -> upd R h (fold_left f l h).
Proof.
  intros C H. assert (G : forall h', closed R h' -> upd R h h' -> upd R h' (fold_left f l h')); [|apply G; auto; apply upd_refl].
  revert H. induction l as [|x l IH]; intros H h' C' U; simpl; [apply upd_refl|]. pose proof (H h' x C' U (or_introl eq_refl)) as K. apply (upd_trans _ _ (f h' x)); auto. apply IH; [|eapply upd_closed; eauto|eapply upd_trans; eauto]. intros h2 y C2 U2 Hy. apply H; simpl; auto.
Qed.
(** Binding changes nothing outside of a closed region. *)
Lemma fill_upd (R : nat -> Prop) n g : (forall p o l q, In (SPin q) (g p o l) -> E q \/ In (SPin q) l) -> forall p h a, R a -> closed R h -> upd R h (fill n g p h a).
Proof.
  intros Hg. induction n as [|n IH]; intros p h a Ra C; cbn [fill]; [apply upd_refl|]. destruct (nth_error h a) as [[sigs subs sls bls|els|els]|] eqn:Eo; try apply upd_refl. cbv zeta.
  set (o := OBun sigs subs sls bls) in Eo. set (h1 := put h a _). assert (U1 : upd R h h1) by (apply (put_upd R h a o); auto; split; simpl; auto; intros q; apply Hg). pose proof (upd_closed _ _ _ _ U1 C) as C1. eapply upd_trans; [exact U1|].
  assert (In1 : forall b, In b (subs ++ sls ++ bls) -> R b) by (intros b Hb; apply (C a o b); auto).
  match goal with |- context [fold_left ?f (number sls) h1] => set (h2 := fold_left f (number sls) h1) end. assert (U2 : upd R h1 h2).
  { apply fold_upd; auto. intros h' [i x] C' U' Hi. apply number_in in Hi. cbn [fst snd]. destruct (nth_error h' x) as [[| |]|] eqn:Ex; try apply upd_refl. apply (put_upd R h' x (OSig els)); auto; [|split; [exact Logic.I|intros q; apply Hg]]. apply In1. rewrite !in_app_iff. auto. }
  pose proof (upd_closed _ _ _ _ U2 C1) as C2. eapply upd_trans; [exact U2|]. match goal with |- context [fold_left ?f (number subs) h2] => set (h3 := fold_left f (number subs) h2) end.
  assert (U3 : upd R h2 h3) by (apply fold_upd; auto; intros h' [i x] C' U' Hi; apply number_in in Hi; cbn [fst snd]; apply IH; auto; apply In1; rewrite !in_app_iff; auto).
  pose proof (upd_closed _ _ _ _ U3 C2) as C3. eapply upd_trans; [exact U3|]. apply fold_upd; auto. intros h' [i x] C' U' Hi. apply number_in in Hi. cbn [fst snd]. destruct (nth_error h' x) as [[| |els]|] eqn:Ex; try apply upd_refl.
  apply fold_upd; auto. intros h4 [k y] C4 U4 Hy. apply number_in in Hy. cbn [fst snd]. apply IH; auto. apply (C' x (OLst els) y); auto. apply In1. rewrite !in_app_iff. auto.
Qed.
End Upd.
(** What is seen depends only on a closed region. *)
Lemma view_agree (R : nat -> Prop) h h' : closed R h -> (forall a, R a -> nth_error h' a = nth_error h a) -> forall n a, R a -> view n h' a = view n h a.
Proof.
  intros C A. induction n as [|n IH]; intros a Ra; auto. cbn [view]. rewrite (A a Ra). destruct (nth_error h a) as [[sigs subs sls bls|els|els]|] eqn:E; auto.
  assert (In1 : forall b, In b (subs ++ sls ++ bls) -> R b) by (intros b Hb; apply (C a _ b Ra E); auto).
  f_equal; apply map_ext_in; intros x Hx.
  - apply IH. apply In1. rewrite !in_app_iff. auto.
  - rewrite A; auto. apply In1. rewrite !in_app_iff. auto.
  - assert (Rx : R x) by (apply In1; rewrite !in_app_iff; auto). rewrite (A x Rx). destruct (nth_error h x) as [[| |els]|] eqn:Ex; auto. apply map_ext_in. intros y Hy. apply IH. apply (C x _ y Rx Ex). exact Hy.
Qed.

(** * Creation *)
Fixpoint init_all (l : list cls) (h : heap) : heap * list nat :=
  match l with [] => (h, []) | x :: t => let (h1, b) := init x h in let (h2, r) := init_all t h1 in (h2, b :: r) end.
Lemma init_unfold sigs subs sls bls h : init (Cls sigs subs sls bls) h =
  let (h1, subs') := init_all subs h in let (h2, sls') := each from_signallist h1 sls in let (h3, bls') := each from_bundlelist h2 bls in alloc h3 (OBun sigs subs' sls' bls').
Proof. reflexivity. Qed.
(** What creating adds to the heap [h]: objects that refer only to new objects and, if [lists], to the [n0] old ones. *)
Definition added (lists : bool) (n0 : nat) (h : heap) (r : list obj) : Prop := forall o b, In o r -> In b (refs o) -> List.length h <= b < List.length h + List.length r \/ lists = true /\ b < n0.
Lemma added_app l n0 h r1 r2 : added l n0 h r1 -> added l n0 (h ++ r1) r2 -> added l n0 h (r1 ++ r2).
Proof.
  intros A B o b Ho Hb. rewrite app_length. apply in_app_or in Ho as [Ho|Ho].
  - destruct (A o b Ho Hb) as [X|X]; [left; lia|auto].
  - destruct (B o b Ho Hb) as [X|X]; [left; rewrite app_length in X; lia|auto].
Qed.
Definition new_at (h : heap) (r : list obj) (b : nat) : Prop := List.length h <= b < List.length h + List.length r.
Lemma each_sig n0 h l : forall h' r', each from_signallist h l = (h', r') -> exists r, h' = h ++ r /\ added false n0 h r /\ Forall (new_at h r) r'.
Proof.
  revert h. induction l as [|a l IH]; intros h h' r' E; cbn [each] in E.
  - injection E as <- <-. exists []. rewrite app_nil_r. split; auto. split; [intros o b []|constructor].
  - assert (X : exists els, from_signallist h a = (h ++ [OSig els], List.length h)) by (unfold from_signallist, alloc; destruct (nth_error h a) as [[| |]|]; eauto).
    destruct X as [els X]. rewrite X in E. destruct (each from_signallist (h ++ [OSig els]) l) as [h2 r2] eqn:E2. injection E as <- <-. destruct (IH _ _ _ E2) as [r [-> [A F]]]. exists ([OSig els] ++ r). rewrite app_assoc. split; auto. split.
    + apply added_app; [|exact A]. intros o b [<-|[]] [].
    + constructor; [unfold new_at; rewrite app_length; simpl; lia|]. eapply Forall_impl; [|exact F]. unfold new_at. intros x Hx. rewrite !app_length in *. simpl in *. lia.
Qed.
Lemma each_lst n0 h l : n0 <= List.length h -> closed (fun a => a < n0) h -> Forall (fun a => a < n0) l -> forall h' r', each from_bundlelist h l = (h', r') -> exists r, h' = h ++ r /\ added true n0 h r /\ Forall (new_at h r) r'.
Proof.
  revert h. induction l as [|a l IH]; intros h Le C F h' r' E; cbn [each] in E.
  - injection E as <- <-. exists []. rewrite app_nil_r. split; auto. split; [intros o b []|constructor].
  - inversion F as [|? ? Fa Fl]; subst. assert (X : exists els, from_bundlelist h a = (h ++ [OLst els], List.length h) /\ Forall (fun b => b < n0) els).
    { unfold from_bundlelist, alloc. destruct (nth_error h a) as [[| |els]|] eqn:Ea; [exists []| exists []|exists els|exists []]; split; auto. apply Forall_forall. intros b Hb. exact (C a _ b Fa Ea Hb). }
    destruct X as [els [X Fe]]. rewrite X in E. destruct (each from_bundlelist (h ++ [OLst els]) l) as [h2 r2] eqn:E2. injection E as <- <-.
    destruct (IH (h ++ [OLst els])) with (h' := h2) (r' := r2) as [r [-> [A F2]]]; auto; [rewrite app_length; lia| |].
    { intros x o b Hx Ho Hb. rewrite nth_error_app1 in Ho by lia. apply (C x o b); auto. }
    exists ([OLst els] ++ r). rewrite app_assoc. split; auto. split.
    + apply added_app; [|exact A]. intros o b [<-|[]] Hb. rewrite Forall_forall in Fe. right. split; [reflexivity|]. exact (Fe b Hb).
    + constructor; [unfold new_at; rewrite app_length; simpl; lia|]. eapply Forall_impl; [|exact F2]. unfold new_at. intros x Hx. rewrite !app_length in *. simpl in *. lia.
Qed.
Lemma added_weak n0 h r : added false n0 h r -> added true n0 h r.
Proof. intros A o b Ho Hb. destruct (A o b Ho Hb) as [X|[X _]]; [auto|discriminate]. Qed.
Definition class_level n0 (c : cls) : Prop := exists h0, List.length h0 = n0 /\ known h0 c.
Lemma init_added n0 h0 c : List.length h0 = n0 -> known h0 c -> forall h, n0 <= List.length h -> closed (fun a => a < n0) h -> exists r, fst (init c h) = h ++ r /\ new_at h r (snd (init c h)) /\ added true n0 h r /\ (listless c -> added false n0 h r).
Proof.
  intros L0. revert c. refine (cls_all _ _). intros sigs subs sls bls IH K h Le C. inversion K as [? ? ? ? Ks Kl]; subst sigs0 subs0 sls0 bls0. rewrite L0 in Kl. apply Forall_app in Kl as [Kl1 Kl2].
  assert (G : forall h, n0 <= List.length h -> closed (fun a => a < n0) h -> exists r, fst (init_all subs h) = h ++ r /\ Forall (new_at h r) (snd (init_all subs h)) /\ added true n0 h r /\ (Forall listless subs -> added false n0 h r)).
  { clear h Le C. revert Ks IH. clear. induction subs as [|x l IHl]; intros Ks IH h Le C; cbn [init_all].
    - exists []. rewrite app_nil_r. simpl. split; auto. split; auto. split; intros ? b; simpl; tauto.
    - inversion IH as [|? ? Ix Il]; inversion Ks as [|? ? Kx Kl]; subst. destruct (Ix Kx h Le C) as [r [E1 [E2 [E3 E4]]]]. destruct (init x h) as [h1 b]. cbn [fst snd] in *. subst h1.
      destruct (IHl Kl Il (h ++ r)) as [r2 [F1 [F2 [F3 F4]]]]; [rewrite app_length; lia| |].
      { intros y o z Hy Ho Hz. rewrite nth_error_app1 in Ho by lia. apply (C y o z); auto. }
      destruct (init_all l (h ++ r)) as [h2 bs]. cbn [fst snd] in *. subst h2. exists (r ++ r2). rewrite app_assoc. split; auto. split; [|split].
      + constructor; [unfold new_at in *; rewrite app_length; lia|]. eapply Forall_impl; [|exact F2]. unfold new_at. intros y Hy. rewrite !app_length in *. lia.
      + now apply added_app.
      + intros Fl. inversion Fl; subst. apply added_app; auto. }
  rewrite init_unfold. destruct (G h Le C) as [r1 [G1 [G2 [G3 G4]]]]. destruct (init_all subs h) as [h1 subs'] eqn:E1. cbn [fst snd] in *. subst h1.
  destruct (each from_signallist (h ++ r1) sls) as [h2 sls'] eqn:E2. destruct (each_sig n0 _ _ _ _ E2) as [r2 [-> [A2 F2]]].
  assert (C2 : closed (fun a => a < n0) ((h ++ r1) ++ r2)) by (intros y o z Hy Ho Hz; rewrite <- app_assoc, nth_error_app1 in Ho by lia; apply (C y o z); auto).
  destruct (each from_bundlelist ((h ++ r1) ++ r2) bls) as [h3 bls'] eqn:E3. assert (Le2 : n0 <= List.length ((h ++ r1) ++ r2)) by (rewrite !app_length; lia).
  destruct (each_lst n0 _ _ Le2 C2 Kl2 _ _ E3) as [r3 [-> [A3 F3]]]. unfold alloc. cbn [fst snd]. set (o := OBun sigs subs' sls' bls'). exists (r1 ++ r2 ++ r3 ++ [o]). rewrite <- !app_assoc. split; auto.
  assert (Ho : forall b, In b (refs o) -> List.length h <= b < List.length h + List.length (r1 ++ r2 ++ r3 ++ [o])).
  { intros b Hb. cbn [refs o] in Hb. rewrite !in_app_iff in Hb. rewrite Forall_forall in *. unfold new_at in *. destruct Hb as [Hb|[Hb|Hb]]; [specialize (G2 b Hb)|specialize (F2 b Hb)|specialize (F3 b Hb)]; rewrite ?app_length in *; simpl; lia. }
  split; [unfold new_at; rewrite !app_length; simpl; lia|].
  assert (Gen : forall l, added l n0 h r1 -> added l n0 ((h ++ r1) ++ r2) r3 -> added l n0 (h ++ r1) r2 -> added l n0 h (r1 ++ r2 ++ r3 ++ [o])).
  { intros l X1 X3 X2. rewrite <- app_assoc in X3. pose proof (added_app l n0 h _ r3 (added_app l n0 h r1 r2 X1 X2) X3) as Y. intros x b Hx Hb. rewrite !in_app_iff in Hx. destruct Hx as [Hx|[Hx|[Hx|[<-|[]]]]]; [| | |left; auto].
    all: (destruct (Y x b) as [Z|Z]; [rewrite !in_app_iff; auto|exact Hb|left; rewrite ?app_length in *; simpl; lia|right; exact Z]). }
  split.
  - apply Gen; auto. now apply added_weak.
  - intros Ll. inversion Ll as [? ? ? Fl]; subst. apply Gen; auto. cbn [each] in E3. injection E3 as E3 _. assert (r3 = []) as -> by (rewrite <- (app_nil_r ((h ++ r1) ++ r2)) in E3 at 1; now apply app_inv_head in E3). intros x b [].
Qed.

(** * Runs *)
Definition agree (R : nat -> Prop) (h h' : heap) : Prop := forall a, R a -> nth_error h' a = nth_error h a.
Lemma agree_closed R h h' : agree R h h' -> closed R h -> closed R h'.
Proof. intros A C a o b Ra Ho Hb. rewrite (A a Ra) in Ho. exact (C a o b Ra Ho Hb). Qed.
Lemma put_agree (R : nat -> Prop) h h' a o x : agree R h h' -> R a -> nth_error h a = Some x -> agree R (put h a o) (put h' a o).
Proof. intros A Ra E b Rb. rewrite (put_get h a o b x E). rewrite (put_get h' a o b x) by (rewrite (A a Ra); auto). destruct (b =? a); auto. Qed.
Lemma fold_agree {A} (R : nat -> Prop) (f : heap -> A -> heap) l : (forall h h' x, closed R h -> agree R h h' -> In x l -> agree R (f h x) (f h' x) /\ closed R (f h x)) ->
  forall h h', closed R h -> agree R h h' -> agree R (fold_left f l h) (fold_left f l h') /\ closed R (fold_left f l h).
Proof. induction l as [|x l IH]; intros H h h' C Ag; simpl; auto. destruct (H h h' x C Ag (or_introl eq_refl)) as [A1 C1]. apply IH; auto. intros h1 h2 y K1 K2 K3. apply H; simpl; auto. Qed.
Lemma any_slots (g : list seg -> option nat -> list slot -> list slot) : forall p o l q, In (SPin q) (g p o l) -> (fun _ : nat => True) q \/ In (SPin q) l.
Proof. auto. Qed.
Lemma put_closed (R : nat -> Prop) h a o o' : nth_error h a = Some o -> shape o o' -> closed R h -> closed R (put h a o').
Proof. intros E S C x y b Rx Hy Hb. rewrite (put_get h a o' x o E) in Hy. destruct (Nat.eqb_spec x a) as [->|]; [|exact (C x y b Rx Hy Hb)]. injection Hy as <-. apply (C a o b Rx E). destruct o, o'; simpl in *; try tauto; [destruct S as [-> [-> ->]]; auto|congruence]. Qed.
Lemma fill_agree (R : nat -> Prop) n g : forall p h h' a, R a -> closed R h -> agree R h h' -> agree R (fill n g p h a) (fill n g p h' a).
Proof.
  induction n as [|n IH]; intros p h h' a Ra C Ag; cbn [fill]; auto. rewrite (Ag a Ra). destruct (nth_error h a) as [[sigs subs sls bls|els|els]|] eqn:E; auto. cbv zeta.
  set (o := OBun sigs subs sls bls) in E. assert (In1 : forall b, In b (subs ++ sls ++ bls) -> R b) by (intros b Hb; apply (C a o b); auto).
  assert (IH2 : forall p h h' a, R a -> closed R h -> agree R h h' -> agree R (fill n g p h a) (fill n g p h' a) /\ closed R (fill n g p h a)) by (intros; split; [auto|]; eapply upd_closed; [apply (fill_upd (fun _ => True) R n g (any_slots g)); eauto|auto]).
  assert (A1 : agree R (put h a (OBun (g p None sigs) subs sls bls)) (put h' a (OBun (g p None sigs) subs sls bls))) by (eapply put_agree; eauto).
  assert (C1 : closed R (put h a (OBun (g p None sigs) subs sls bls))) by (apply (put_closed R h a o _ E); simpl; auto).
  revert A1 C1. generalize (put h a (OBun (g p None sigs) subs sls bls)) (put h' a (OBun (g p None sigs) subs sls bls)). intros k k' A1 C1.
  match goal with |- context [fold_left ?f (number sls) k] => assert (G2 : agree R (fold_left f (number sls) k) (fold_left f (number sls) k') /\ closed R (fold_left f (number sls) k)) end.
  { apply fold_agree; auto. intros h1 h2 [i x] C2 A2 Hi. apply number_in in Hi. cbn [fst snd]. assert (Rx : R x) by (apply In1; rewrite !in_app_iff; auto). rewrite (A2 x Rx). destruct (nth_error h1 x) as [[| |]|] eqn:Ex; auto. split; [eapply put_agree; eauto|]. apply (put_closed R h1 x _ _ Ex); simpl; auto. }
  destruct G2 as [A2 C2]. revert A2 C2. match goal with |- agree _ (fold_left ?f (number sls) k) _ -> _ => generalize (fold_left f (number sls) k) (fold_left f (number sls) k') end. intros k2 k2' A2 C2.
  match goal with |- context [fold_left ?f (number subs) k2] => assert (G3 : agree R (fold_left f (number subs) k2) (fold_left f (number subs) k2') /\ closed R (fold_left f (number subs) k2)) end.
  { apply fold_agree; auto. intros h1 h2 [i x] C3 A3 Hi. apply number_in in Hi. cbn [fst snd]. apply IH2; auto. apply In1. rewrite !in_app_iff. auto. }
  destruct G3 as [A3 C3]. apply fold_agree; auto. intros h1 h2 [i x] C4 A4 Hi. apply number_in in Hi. cbn [fst snd]. assert (Rx : R x) by (apply In1; rewrite !in_app_iff; auto). rewrite (A4 x Rx). destruct (nth_error h1 x) as [[| |els]|] eqn:Ex; auto.
  apply fold_agree; auto. intros h3 h4 [m y] C5 A5 Hy. apply number_in in Hy. cbn [fst snd]. apply IH2; auto. exact (C4 x _ y Rx Ex Hy).
Qed.
(** What [init] does depends only on the class-level lists and on the number of objects. *)
Lemma each_agree f n0 l : (forall h h' a, List.length h = List.length h' -> (forall x, x < n0 -> nth_error h' x = nth_error h x) -> a < n0 -> exists o, f h a = (h ++ [o], List.length h) /\ f h' a = (h' ++ [o], List.length h)) ->
  Forall (fun a => a < n0) l -> forall h h', n0 <= List.length h -> List.length h = List.length h' -> (forall x, x < n0 -> nth_error h' x = nth_error h x) -> exists r, fst (each f h l) = h ++ r /\ fst (each f h' l) = h' ++ r /\ snd (each f h l) = snd (each f h' l).
Proof.
  intros Hf. induction l as [|a l IH]; intros F h h' Le L A; cbn [each]; [exists []; rewrite !app_nil_r; auto|]. inversion F as [|? ? Fa Fl]; subst. destruct (Hf h h' a L A Fa) as [o [E1 E2]]. rewrite E1, E2.
  destruct (IH Fl (h ++ [o]) (h' ++ [o])) as [r [R1 [R2 R3]]]; [rewrite app_length; lia|rewrite !app_length; lia|intros x Hx; rewrite !nth_error_app1 by lia; auto|].
  destruct (each f (h ++ [o]) l), (each f (h' ++ [o]) l). cbn [fst snd] in *. exists (o :: r). rewrite R1, R2, <- !app_assoc. simpl. split; auto. split; auto. congruence.
Qed.
Lemma init_agree n0 h0 c : List.length h0 = n0 -> known h0 c -> forall h h', n0 <= List.length h -> List.length h = List.length h' -> (forall x, x < n0 -> nth_error h' x = nth_error h x) -> exists r, fst (init c h) = h ++ r /\ fst (init c h') = h' ++ r /\ snd (init c h) = snd (init c h').
Proof.
  intros L0. revert c. refine (cls_all _ _). intros sigs subs sls bls IH K h h' Le L A. inversion K as [? ? ? ? Ks Kl]; subst sigs0 subs0 sls0 bls0. rewrite L0 in Kl. apply Forall_app in Kl as [Kl1 Kl2].
  assert (G : forall h h', n0 <= List.length h -> List.length h = List.length h' -> (forall x, x < n0 -> nth_error h' x = nth_error h x) -> exists r, fst (init_all subs h) = h ++ r /\ fst (init_all subs h') = h' ++ r /\ snd (init_all subs h) = snd (init_all subs h')).
  { clear h h' Le L A. revert Ks IH. clear. induction subs as [|x l IHl]; intros Ks IH h h' Le L A; cbn [init_all]; [exists []; rewrite !app_nil_r; auto|].
    inversion IH as [|? ? Ix Il]; inversion Ks as [|? ? Kx Kl]; subst. destruct (Ix Kx h h' Le L A) as [r [R1 [R2 R3]]]. destruct (init x h) as [h1 b1], (init x h') as [h2 b2]. cbn [fst snd] in *. subst h1 h2 b2.
    destruct (IHl Kl Il (h ++ r) (h' ++ r)) as [r2 [S1 [S2 S3]]]; [rewrite app_length; lia|rewrite !app_length; lia|intros y Hy; rewrite !nth_error_app1 by lia; auto|].
    destruct (init_all l (h ++ r)), (init_all l (h' ++ r)). cbn [fst snd] in *. exists (r ++ r2). rewrite S1, S2, <- !app_assoc. split; auto. split; auto. congruence. }
  rewrite !init_unfold. destruct (G h h' Le L A) as [r1 [R1 [R2 R3]]]. destruct (init_all subs h) as [h1 s1], (init_all subs h') as [h2 s2]. cbn [fst snd] in *. subst h1 h2 s2.
  destruct (each_agree from_signallist n0 sls) with (h := h ++ r1) (h' := h' ++ r1) as [r2 [S1 [S2 S3]]]; auto; [|rewrite app_length; lia|rewrite !app_length; lia|intros y Hy; rewrite !nth_error_app1 by lia; auto|].
  { intros k k' a Lk Ak Ha. unfold from_signallist, alloc. rewrite (Ak a Ha), Lk. destruct (nth_error k a) as [[| |]|]; eauto. }
  destruct (each from_signallist (h ++ r1) sls) as [h1 t1], (each from_signallist (h' ++ r1) sls) as [h2 t2]. cbn [fst snd] in *. subst h1 h2 t2.
  destruct (each_agree from_bundlelist n0 bls) with (h := (h ++ r1) ++ r2) (h' := (h' ++ r1) ++ r2) as [r3 [T1 [T2 T3]]]; auto; [|rewrite !app_length; lia|rewrite !app_length; lia|intros y Hy; rewrite <- !app_assoc, !nth_error_app1 by lia; auto|].
  { intros k k' a Lk Ak Ha. unfold from_bundlelist, alloc. rewrite (Ak a Ha), Lk. destruct (nth_error k a) as [[| |]|]; eauto. }
  destruct (each from_bundlelist ((h ++ r1) ++ r2) bls) as [h1 u1], (each from_bundlelist ((h' ++ r1) ++ r2) bls) as [h2 u2]. cbn [fst snd] in *. subst h1 h2 u2.
  unfold alloc. cbn [fst snd]. eexists (r1 ++ r2 ++ r3 ++ [_]). rewrite <- !app_assoc. split; [reflexivity|]. split; [reflexivity|]. rewrite !app_length. lia.
Qed.
(** New objects hold no pins. *)
Lemma each_blank f n0 l : (forall h a, (forall x o, x < n0 -> nth_error h x = Some o -> pinless (slots o)) -> a < n0 -> exists o, f h a = (h ++ [o], List.length h) /\ pinless (slots o)) ->
  Forall (fun a => a < n0) l -> forall h, n0 <= List.length h -> (forall x o, x < n0 -> nth_error h x = Some o -> pinless (slots o)) -> exists r, fst (each f h l) = h ++ r /\ Forall (fun o => pinless (slots o)) r.
Proof.
  intros Hf. induction l as [|a l IH]; intros F h Le A; cbn [each]; [exists []; rewrite !app_nil_r; auto|]. inversion F as [|? ? Fa Fl]; subst. destruct (Hf h a A Fa) as [o [E1 E2]]. rewrite E1.
  destruct (IH Fl (h ++ [o])) as [r [R1 R2]]; [rewrite app_length; lia|intros x y Hx; rewrite nth_error_app1 by lia; eauto|]. destruct (each f (h ++ [o]) l). cbn [fst snd] in *. exists (o :: r). rewrite R1, <- app_assoc. split; auto.
Qed.
Lemma pinless_nil : pinless []. Proof. intros p []. Qed.
Lemma init_blank n0 h0 c : List.length h0 = n0 -> known h0 c -> blank c -> forall h, n0 <= List.length h -> (forall x o, x < n0 -> nth_error h x = Some o -> pinless (slots o)) -> exists r, fst (init c h) = h ++ r /\ Forall (fun o => pinless (slots o)) r.
Proof.
  intros L0. revert c. refine (cls_all _ _). intros sigs subs sls bls IH K Bl h Le A. inversion K as [? ? ? ? Ks Kl]; subst sigs0 subs0 sls0 bls0. rewrite L0 in Kl. apply Forall_app in Kl as [Kl1 Kl2]. inversion Bl as [? ? ? ? Bs Bsub]; subst.
  assert (G : forall h, List.length h0 <= List.length h -> (forall x o, x < List.length h0 -> nth_error h x = Some o -> pinless (slots o)) -> exists r, fst (init_all subs h) = h ++ r /\ Forall (fun o => pinless (slots o)) r).
  { clear h Le A K Bl. revert Ks IH Bsub. clear. induction subs as [|x l IHl]; intros Ks IH Bs h Le A; cbn [init_all]; [exists []; rewrite !app_nil_r; auto|].
    inversion IH as [|? ? Ix Il]; inversion Ks as [|? ? Kx Kl]; inversion Bs as [|? ? Bx Bl]; subst. destruct (Ix Kx Bx h Le A) as [r [R1 R2]]. destruct (init x h) as [h1 b1]. cbn [fst snd] in *. subst h1.
    destruct (IHl Kl Il Bl (h ++ r)) as [r2 [S1 S2]]; [rewrite app_length; lia|intros y o Hy; rewrite nth_error_app1 by lia; eauto|].
    destruct (init_all l (h ++ r)). cbn [fst snd] in *. exists (r ++ r2). rewrite S1, <- !app_assoc. split; auto. apply Forall_app. auto. }
  rewrite !init_unfold. destruct (G h Le A) as [r1 [R1 R2]]. destruct (init_all subs h) as [h1 s1]. cbn [fst snd] in *. subst h1.
  destruct (each_blank from_signallist (List.length h0) sls) with (h := h ++ r1) as [r2 [S1 S2]]; auto; [|rewrite app_length; lia|intros y o Hy; rewrite nth_error_app1 by lia; eauto|].
  { intros k a Ak Ha. unfold from_signallist, alloc. destruct (nth_error k a) as [[| |]|] eqn:Ea; eexists; (split; [reflexivity|]); try apply pinless_nil. exact (Ak a _ Ha Ea). }
  destruct (each from_signallist (h ++ r1) sls) as [h1 t1]. cbn [fst snd] in *. subst h1.
  destruct (each_blank from_bundlelist (List.length h0) bls) with (h := (h ++ r1) ++ r2) as [r3 [T1 T2]]; auto; [|rewrite !app_length; lia|intros y o Hy; rewrite <- app_assoc, nth_error_app1 by lia; eauto|].
  { intros k a Ak Ha. unfold from_bundlelist, alloc. destruct (nth_error k a) as [[| |]|] eqn:Ea; eexists; (split; [reflexivity|]); apply pinless_nil. }
  destruct (each from_bundlelist ((h ++ r1) ++ r2) bls) as [h1 u1]. cbn [fst snd] in *. subst h1.
  unfold alloc. cbn [fst snd]. eexists (r1 ++ r2 ++ r3 ++ [_]). rewrite <- !app_assoc. split; [reflexivity|]. rewrite !Forall_app. repeat (split; auto).
Qed.

Section Run.
Context (h0 : heap) (v0 : nat -> Z) (So : sound h0).
Let n0 := List.length h0.
Definition reg (lo hi : nat -> nat) (k x : nat) : Prop := lo k <= x < hi k.
Record Inv (lo hi : nat -> nat) (cs : list cls) (s : state) : Prop := mk_Inv {
  i_len : n0 <= List.length (hp s);
  i_base : closed (fun a => a < n0) (hp s);
  i_cnt : List.length (insts s) = List.length cs;
  i_reg : forall k a c, nth_error (insts s) k = Some a -> nth_error cs k = Some c ->
    n0 <= lo k /\ reg lo hi k a /\ hi k <= List.length (hp s) /\ closed (fun x => x < n0 \/ reg lo hi k x) (hp s) /\ (listless c -> closed (reg lo hi k) (hp s));
  i_dis : forall j k, j < k < List.length cs -> hi j <= lo k }.
Definition nlo (s : state) (x : act) (lo : nat -> nat) (k : nat) : nat := match x with New _ => if k =? List.length (insts s) then List.length (hp s) else lo k | _ => lo k end.
Definition nhi (s : state) (x : act) (hi : nat -> nat) (k : nat) : nat := match x with New c => if k =? List.length (insts s) then List.length (fst (init c (hp s))) else hi k | _ => hi k end.
Definition news (x : act) : list cls := match x with New c => [c] | _ => [] end.
Lemma closed_app (R : nat -> Prop) (h r : heap) : (forall x, R x -> x < List.length h) -> closed R h -> closed R (h ++ r).
Proof. intros H C a o b Ra Ho Hb. rewrite nth_error_app1 in Ho by auto. exact (C a o b Ra Ho Hb). Qed.
Lemma closed_ext (R R' : nat -> Prop) h : (forall x, R x <-> R' x) -> closed R h -> closed R' h.
Proof. intros H C a o b Ra Ho Hb. apply H. apply H in Ra. exact (C a o b Ra Ho Hb). Qed.
Lemma cs_of lo hi cs s k a : Inv lo hi cs s -> nth_error (insts s) k = Some a -> exists c, nth_error cs k = Some c.
Proof. intros I H. destruct (nth_error cs k) as [c|] eqn:E; eauto. apply nth_error_None in E. rewrite <- (i_cnt _ _ _ _ I) in E. assert (X : k < List.length (insts s)) by (apply nth_error_Some; congruence). lia. Qed.
Lemma inv_upd lo hi cs s h' E R v : Inv lo hi cs s -> upd E R (hp s) h' -> Inv lo hi cs (mk_state h' (insts s) v).
Proof.
  intros [A B C D F] U. pose proof (proj1 U) as L. constructor; cbn [hp insts]; [rewrite L; exact A|eapply upd_closed; eauto|exact C| |exact F]. intros k a c Ha Hc. destruct (D k a c Ha Hc) as [D1 [D2 [D3 [D4 D5]]]]. rewrite L. split; [exact D1|]. split; [exact D2|]. split; [exact D3|]. split; [eapply upd_closed; eauto|]. intros Hl. eapply upd_closed; eauto.
Qed.
Lemma inv_step lo hi cs s x : Inv lo hi cs s -> creates (known h0) x -> Inv (nlo s x lo) (nhi s x hi) (cs ++ news x) (do s x).
Proof.
  intros I K. destruct x as [c|k g|k v].
  - pose proof I as [A B C D F]. destruct (init_added n0 h0 c eq_refl K (hp s) A B) as [r [E1 [E2 [E3 E4]]]]. cbn [do news]. assert (Ef : List.length (fst (init c (hp s))) = List.length (hp s) + List.length r) by (rewrite E1, app_length; auto).
    assert (Bx : forall k, k < List.length cs -> nlo s (New c) lo k = lo k /\ nhi s (New c) hi k = hi k) by (intros k Hk; cbn [nlo nhi]; rewrite C; destruct (Nat.eqb_spec k (List.length cs)); [lia|auto]).
    assert (Bn : nlo s (New c) lo (List.length cs) = List.length (hp s) /\ nhi s (New c) hi (List.length cs) = List.length (hp s) + List.length r) by (cbn [nlo nhi]; rewrite C, Nat.eqb_refl; auto).
    destruct (init c (hp s)) as [h a] eqn:Ei. cbn [fst snd] in *. subst h. constructor; cbn [hp insts].
    + rewrite app_length. lia.
    + apply closed_app; auto. intros x Hx. cbn beta in Hx. lia.
    + rewrite !app_length, C. reflexivity.
    + intros k a' c' Ha Hc. destruct (lt_eq_lt_dec k (List.length cs)) as [[X|X]|X].
      * rewrite nth_error_app1 in Ha by lia. rewrite nth_error_app1 in Hc by lia. destruct (Bx k X) as [Bl Bh]. destruct (D k a' c' Ha Hc) as [D1 [D2 [D3 [D4 D5]]]]. unfold reg in *. rewrite Bl, Bh. rewrite app_length. split; auto. split; auto. split; [lia|]. split; [apply closed_app; auto; intros y; lia|]. intros Hl. apply closed_app; [intros y; lia|auto].
      * subst k. rewrite nth_error_app2 in Ha by lia. rewrite C, Nat.sub_diag in Ha. injection Ha as <-. rewrite nth_error_app2, Nat.sub_diag in Hc by lia. injection Hc as <-. destruct Bn as [Bl Bh]. unfold reg. rewrite Bl, Bh. rewrite app_length. unfold new_at in E2. split; auto. split; auto. split; [auto|]. split.
        -- intros y o b [Ry|Ry] Ho Hb.
           ++ left. rewrite nth_error_app1 in Ho by lia. exact (B y o b Ry Ho Hb).
           ++ rewrite nth_error_app2 in Ho by lia. apply nth_error_In in Ho. destruct (E3 o b Ho Hb) as [Z|[_ Z]]; auto.
        -- intros Hl y o b Ry Ho Hb. rewrite nth_error_app2 in Ho by lia. apply nth_error_In in Ho. destruct (E4 Hl o b Ho Hb) as [Z|[Z _]]; [auto|discriminate].
      * exfalso. assert (Y : k < List.length (cs ++ [c])) by (apply nth_error_Some; congruence). rewrite app_length in Y. simpl in Y. lia.
    + intros j k Hjk. rewrite app_length in Hjk. simpl in Hjk. destruct (Bx j ltac:(lia)) as [_ Bh]. rewrite Bh. destruct (Nat.eq_dec k (List.length cs)) as [->|Ne]; [|destruct (Bx k ltac:(lia)) as [Bl _]; rewrite Bl; apply F; lia].
      destruct Bn as [Bl _]. rewrite Bl. destruct (nth_error (insts s) j) as [aj|] eqn:Ej; [|apply nth_error_None in Ej; lia]. destruct (cs_of _ _ _ _ _ _ I Ej) as [cj Cj]. destruct (D j aj cj Ej Cj) as [_ [_ [D3 _]]]. exact D3.
  - cbn [do news nlo nhi]. rewrite app_nil_r. destruct (nth_error (insts s) k) as [a|] eqn:E; auto. destruct (cs_of _ _ _ _ _ _ I E) as [c Hc]. destruct (i_reg _ _ _ _ I k a c E Hc) as [D1 [D2 [D3 [D4 D5]]]].
    exact (inv_upd lo hi cs s _ _ _ _ I (fill_upd (fun _ => True) _ (S a) _ (any_slots _) [] (hp s) a (or_intror D2) D4)).
  - cbn [do news nlo nhi]. rewrite app_nil_r. destruct (nth_error (insts s) k) as [a|] eqn:E; auto. exact (inv_upd lo hi cs s _ _ _ _ I (upd_refl (fun _ => True) (fun _ => True) (hp s))).
Qed.
Lemma inv_start : Inv (fun _ => 0) (fun _ => 0) [] (start h0 v0).
Proof.
  constructor; cbn [hp insts start]; auto.
  - intros a o b Ha Ho Hb. apply nth_error_In in Ho. exact (So o b Ho Hb).
  - intros [|k] a c H; discriminate H.
Qed.
Lemma created_app l x : created (l ++ [x]) = created l ++ news x.
Proof. unfold created. rewrite flat_map_app. simpl. rewrite app_nil_r. destruct x; reflexivity. Qed.
Lemma doall_app s l x : doall s (l ++ [x]) = do (doall s l) x.
Proof. unfold doall. now rewrite fold_left_app. Qed.
Lemma inv_run l : Forall (creates (known h0)) l -> exists lo hi, Inv lo hi (created l) (doall (start h0 v0) l).
Proof.
  induction l as [|x l IH] using rev_ind; intros F; [exists (fun _ => 0), (fun _ => 0); apply inv_start|]. apply Forall_app in F as [F1 F2]. inversion F2 as [|? ? Fx]; subst. destruct (IH F1) as [lo [hi I]]. rewrite created_app, doall_app. eexists _, _. apply inv_step; eauto.
Qed.
Lemma dis_reg lo hi cs s j k x : Inv lo hi cs s -> j <> k -> j < List.length cs -> k < List.length cs -> reg lo hi j x -> reg lo hi k x -> False.
Proof. intros I Ne Hj Hk X Y. unfold reg in *. destruct (lt_eq_lt_dec j k) as [[Z|Z]|Z]; [pose proof (i_dis _ _ _ _ I j k ltac:(lia)); lia|auto|pose proof (i_dis _ _ _ _ I k j ltac:(lia)); lia]. Qed.
(** After any program, creating, binding or driving other instances (of any classes) does not change what is seen through an instance
    whose class has no bundle lists on any level. *)
Theorem C56_others_partial l j k c a x : Forall (creates (known h0)) l -> nth_error (created l) j = Some c -> listless c ->
  let s := doall (start h0 v0) l in nth_error (insts s) j = Some a ->
  creates (known h0) x -> match x with New _ => True | Bind i _ | Drive i _ => i = k /\ k <> j end ->
  nth_error (insts (do s x)) j = Some a /\ look (hp (do s x)) a = look (hp s) a.
Proof.
  intros F Hc Hl s Ha Kx Hx. destruct (inv_run l F) as [lo [hi I]]. fold s in I. destruct (i_reg _ _ _ _ I j a c Ha Hc) as [D1 [D2 [D3 [D4 D5]]]]. specialize (D5 Hl).
  assert (G : forall h', agree (reg lo hi j) (hp s) h' -> look h' a = look (hp s) a) by (intros h' Ag; apply (view_agree (reg lo hi j)); auto).
  destruct x as [c'|i g|i v]; cbn [do].
  - destruct (init_added n0 h0 c' eq_refl Kx (hp s) (i_len _ _ _ _ I) (i_base _ _ _ _ I)) as [r [E1 _]]. destruct (init c' (hp s)) as [h b]. cbn [fst snd hp insts] in *. subst h. split; [rewrite nth_error_app1; auto; apply nth_error_Some; congruence|]. apply G. intros y Ry. unfold reg in Ry. apply nth_error_app1. lia.
  - destruct Hx as [-> Ne]. destruct (nth_error (insts s) k) as [b|] eqn:Eb; auto. cbn [hp insts]. split; auto. apply G. intros y Ry. destruct (cs_of _ _ _ _ _ _ I Eb) as [ck Ck]. destruct (i_reg _ _ _ _ I k b ck Eb Ck) as [B1 [B2 [B3 [B4 B5]]]].
    destruct (fill_upd (fun _ => True) _ (S b) _ (any_slots (g (look (hp s) b))) [] (hp s) b (or_intror B2) B4) as [_ U]. apply (proj1 (U y)). intros [Z|Z]; [unfold reg in Ry; lia|].
    apply (dis_reg lo hi _ s j k y I); auto; apply nth_error_Some; congruence.
  - destruct Hx as [-> Ne]. destruct (nth_error (insts s) k) as [b|] eqn:Eb; auto.
Qed.

(** Creating an instance (of any class) changes nothing of what is seen through the instances there are, of any classes: neither which
    signals nor their values. *)
Theorem C56_new l j c a : Forall (creates (known h0)) l -> known h0 c -> let s := doall (start h0 v0) l in nth_error (insts s) j = Some a ->
  nth_error (insts (do s (New c))) j = Some a /\ seen (do s (New c)) j = seen s j.
Proof.
  intros F K s Ha. destruct (inv_run l F) as [lo [hi I]]. fold s in I. destruct (cs_of _ _ _ _ _ _ I Ha) as [cj Cj]. destruct (i_reg _ _ _ _ I j a cj Ha Cj) as [D1 [D2 [D3 [D4 _]]]]. cbn [do].
  destruct (init_added n0 h0 c eq_refl K (hp s) (i_len _ _ _ _ I) (i_base _ _ _ _ I)) as [r [E1 _]]. destruct (init c (hp s)) as [h b]. cbn [fst] in E1. subst h. unfold seen. cbn [insts hp values].
  assert (E : nth_error (insts s ++ [b]) j = Some a) by (rewrite nth_error_app1; auto; apply nth_error_Some; congruence). rewrite E, Ha. split; auto.
  replace (look (hp s ++ r) a) with (look (hp s) a); auto. symmetry. apply (view_agree (fun x => x < n0 \/ reg lo hi j x)); auto. intros x Rx. apply nth_error_app1. pose proof (i_len _ _ _ _ I). unfold reg in Rx. lia.
Qed.

(** * Whole programs *)
Context (D : nat -> nat -> Prop).
Definition pins_in lo hi (cs : list cls) (s : state) : Prop := forall k x o p, k < List.length cs -> reg lo hi k x -> nth_error (hp s) x = Some o -> In (SPin p) (slots o) -> D k p.
Definition base s : Prop := forall x, x < n0 -> nth_error (hp s) x = nth_error h0 x.
Context (Pl : forall o, In o h0 -> pinless (slots o)).
Lemma base_pinless s : base s -> forall x o, x < n0 -> nth_error (hp s) x = Some o -> pinless (slots o).
Proof. intros B x o Hx Ho. rewrite (B x Hx) in Ho. apply Pl. eapply nth_error_In; eauto. Qed.
Definition Good lo hi cs s : Prop := Inv lo hi cs s /\ Forall listless cs /\ base s /\ pins_in lo hi cs s.
Lemma good_step lo hi cs s x : Good lo hi cs s -> creates (fun c => known h0 c /\ listless c /\ blank c) x -> binds_to D x -> Good (nlo s x lo) (nhi s x hi) (cs ++ news x) (do s x).
Proof.
  intros [I [Fl [Bs Pi]]] K Bd. split; [apply inv_step; auto; destruct x; simpl in *; tauto|]. destruct x as [c|k g|k v]; cbn [news].
  - destruct K as [K1 [K2 K3]]. split; [apply Forall_app; auto|]. destruct (init_blank n0 h0 c eq_refl K1 K3 (hp s) (i_len _ _ _ _ I) (base_pinless s Bs)) as [r [E1 E2]]. cbn [do]. assert (Ef : List.length (fst (init c (hp s))) = List.length (hp s) + List.length r) by (rewrite E1, app_length; auto). unfold base, pins_in, reg. cbn [nlo nhi]. rewrite Ef. destruct (init c (hp s)) as [h a]. cbn [fst hp] in *. subst h. split.
    + intros y Hy. rewrite nth_error_app1 by (pose proof (i_len _ _ _ _ I); lia). auto.
    + intros k y o p Hk Ry Ho Hp. rewrite app_length in Hk. simpl in Hk. rewrite (i_cnt _ _ _ _ I) in Ry. destruct (Nat.eqb_spec k (List.length cs)) as [->|Ne].
      * exfalso. rewrite nth_error_app2 in Ho by lia. apply nth_error_In in Ho. rewrite Forall_forall in E2. exact (E2 o Ho p Hp).
      * assert (Hk' : k < List.length cs) by lia. destruct (nth_error (insts s) k) as [ak|] eqn:Ek; [|apply nth_error_None in Ek; pose proof (i_cnt _ _ _ _ I); lia]. destruct (cs_of _ _ _ _ _ _ I Ek) as [ck Ck]. destruct (i_reg _ _ _ _ I k ak ck Ek Ck) as [_ [_ [B3 _]]].
        rewrite nth_error_app1 in Ho by lia. exact (Pi k y o p Hk' Ry Ho Hp).
  - rewrite app_nil_r. split; auto. cbn [do nlo nhi]. destruct (nth_error (insts s) k) as [a|] eqn:E; [|split; auto]. destruct (cs_of _ _ _ _ _ _ I E) as [c Hc]. destruct (i_reg _ _ _ _ I k a c E Hc) as [D1 [D2 [D3 [D4 D5]]]]. assert (Lc : listless c) by (rewrite Forall_forall in Fl; apply Fl; eapply nth_error_In; eauto). specialize (D5 Lc).
    assert (Hg : forall p o l q, In (SPin q) (g (look (hp s) a) p o l) -> D k q \/ In (SPin q) l) by (intros; eapply Bd; eauto).
    destruct (fill_upd (D k) (reg lo hi k) (S a) _ Hg [] (hp s) a D2 D5) as [UL U]. unfold base, pins_in. cbn [hp]. split.
    + intros y Hy. rewrite (proj1 (U y)); auto. unfold reg. lia.
    + intros i y o p Hi Ry Ho Hp. destruct (Nat.eq_dec i k) as [->|Ne].
      * destruct (nth_error (hp s) y) as [o1|] eqn:Eo; [|exfalso; apply nth_error_None in Eo; assert (Z : y < List.length (fill (S a) (g (look (hp s) a)) [] (hp s) a)) by (apply nth_error_Some; congruence); lia].
        destruct (proj2 (U y) o1 Eo) as [o2 [Ho2 [_ Q]]]. assert (o2 = o) as -> by congruence. destruct (Q p Hp) as [Z|Z]; auto. exact (Pi k y o1 p Hi Ry Eo Z).
      * rewrite (proj1 (U y)) in Ho; [exact (Pi i y o p Hi Ry Ho Hp)|]. intros Z. apply (dis_reg lo hi cs s i k y I Ne Hi); auto. apply nth_error_Some. congruence.
  - rewrite app_nil_r. split; auto. cbn [do nlo nhi]. destruct (nth_error (insts s) k) as [a|] eqn:E; split; auto.
Qed.
Lemma pins_view (R : nat -> Prop) h : closed R h -> forall n a p, R a -> In p (pins (view n h a)) -> exists x o, R x /\ nth_error h x = Some o /\ In (SPin p) (slots o).
Proof.
  intros C. assert (Of : forall p l, In p (flat_map (fun s => match s with SPin p => [p] | _ => [] end) l) -> In (SPin p) l) by (intros p l H; apply in_flat_map in H as [[| |q] [H1 H2]]; simpl in H2; try tauto; destruct H2 as [->|[]]; auto).
  induction n as [|n IH]; intros a p Ra H; [contradiction H|]. cbn [view] in H. destruct (nth_error h a) as [[sigs subs sls bls|els|els]|] eqn:E; try contradiction H.
  assert (In1 : forall b, In b (subs ++ sls ++ bls) -> R b) by (intros b Hb; apply (C a _ b Ra E); auto).
  cbn [pins] in H. rewrite !in_app_iff in H. destruct H as [H|[H|[H|H]]].
  - exists a, (OBun sigs subs sls bls). split; auto.
  - apply in_flat_map in H as [l [H1 H2]]. apply in_map_iff in H1 as [x [Hx Hi]]. destruct (nth_error h x) as [[|els|]|] eqn:Ex; subst l; try contradiction H2. exists x, (OSig els). split; [apply In1; rewrite !in_app_iff; auto|]. split; [exact Ex|]. now apply Of.
  - apply in_flat_map in H as [t [H1 H2]]. apply in_map_iff in H1 as [x [<- Hi]]. apply (IH x p); auto. apply In1. rewrite !in_app_iff. auto.
  - apply in_flat_map in H as [l [H1 H2]]. apply in_map_iff in H1 as [x [Hx Hi]]. destruct (nth_error h x) as [[| |els]|] eqn:Ex; subst l; try contradiction H2. apply in_flat_map in H2 as [t [H1 H2]]. apply in_map_iff in H1 as [y [<- Hy]]. apply (IH y p); auto. apply (C x (OLst els) y); auto. apply In1. rewrite !in_app_iff. auto.
Qed.
(** The full run and the run with only the commands on instance [j]. *)
Definition Sim j lo hi cs s s' : Prop := Good lo hi cs s /\ Good lo hi cs s' /\ insts s = insts s' /\ List.length (hp s) = List.length (hp s') /\ (j < List.length cs -> agree (reg lo hi j) (hp s) (hp s')) /\ forall p, D j p -> values s p = values s' p.
Context (Dd : forall j k p, j <> k -> D j p -> D k p -> False).
Lemma reg_of lo hi cs s k a : Good lo hi cs s -> nth_error (insts s) k = Some a -> k < List.length cs /\ reg lo hi k a /\ closed (reg lo hi k) (hp s).
Proof.
  intros [I [Fl _]] E. destruct (cs_of _ _ _ _ _ _ I E) as [c Hc]. destruct (i_reg _ _ _ _ I k a c E Hc) as [D1 [D2 [D3 [D4 D5]]]]. split; [apply nth_error_Some; congruence|]. split; auto. apply D5. rewrite Forall_forall in Fl. apply Fl. eapply nth_error_In; eauto.
Qed.
Lemma sim_step j lo hi cs s s' x : Sim j lo hi cs s s' -> creates (fun c => known h0 c /\ listless c /\ blank c) x -> binds_to D x ->
  Sim j (nlo s x lo) (nhi s x hi) (cs ++ news x) (do s x) (if only j x then do s' x else s').
Proof.
  intros [G [G' [Ei [El [Ag Va]]]]] K Bd. pose proof (good_step _ _ _ _ x G K Bd) as N. pose proof (good_step _ _ _ _ x G' K Bd) as N'. pose proof G as [I [_ [Bs _]]]. pose proof G' as [I' [_ [Bs' _]]].
  destruct x as [c|k g|k v]; cbn [only].
  - destruct K as [K1 _]. destruct (init_agree n0 h0 c eq_refl K1 (hp s) (hp s') (i_len _ _ _ _ I) El) as [r [R1 [R2 R3]]]; [intros y Hy; rewrite (Bs y Hy), (Bs' y Hy); auto|].
    assert (Ln : List.length (fst (init c (hp s))) = List.length (fst (init c (hp s')))) by (rewrite R1, R2, !app_length; lia).
    split; auto. split.
    { replace (nlo s (New c) lo) with (nlo s' (New c) lo) by (unfold nlo; rewrite Ei, El; auto). replace (nhi s (New c) hi) with (nhi s' (New c) hi) by (unfold nhi; rewrite Ei, Ln; auto). exact N'. }
    cbn [do] in *. unfold reg in *. cbn [nlo nhi]. rewrite Ln. destruct (init c (hp s)) as [h a], (init c (hp s')) as [h' a']. cbn [fst snd hp insts values] in *. subst h h' a'. split; [congruence|]. split; auto. split; auto.
    intros Hj y Ry. rewrite app_length in Hj. simpl in Hj. rewrite (i_cnt _ _ _ _ I) in Ry. destruct (Nat.eqb_spec j (List.length cs)) as [->|Ne].
    + rewrite !nth_error_app2 by lia. now rewrite El.
    + assert (Hj' : j < List.length cs) by lia. destruct (nth_error (insts s) j) as [aj|] eqn:Ej; [|apply nth_error_None in Ej; pose proof (i_cnt _ _ _ _ I); lia]. destruct (cs_of _ _ _ _ _ _ I Ej) as [cj Cj]. destruct (i_reg _ _ _ _ I j aj cj Ej Cj) as [_ [_ [B3 _]]]. rewrite !nth_error_app1 by lia. apply Ag; auto.
  - cbn [news do nlo nhi] in *. rewrite app_nil_r in *. destruct (Nat.eqb_spec k j) as [->|Ne].
    + split; auto. split; auto. rewrite <- Ei in *. destruct (nth_error (insts s) j) as [a|] eqn:E; [|repeat (split; auto)]. destruct (reg_of _ _ _ _ _ _ G E) as [Hj [Ra C]].
      assert (El2 : look (hp s') a = look (hp s) a) by (apply (view_agree (reg lo hi j)); auto; exact (Ag Hj)). rewrite El2. cbn [hp insts values]. split; auto. split.
      * destruct (fill_upd (fun _ => True) _ (S a) _ (any_slots (g (look (hp s) a))) [] (hp s) a Ra C) as [U1 _]. assert (C' : closed (reg lo hi j) (hp s')) by (eapply agree_closed; eauto). destruct (fill_upd (fun _ => True) _ (S a) _ (any_slots (g (look (hp s) a))) [] (hp s') a Ra C') as [U2 _]. congruence.
      * split; auto. intros _. apply fill_agree; auto.
    + split; auto. split; auto. destruct (nth_error (insts s) k) as [a|] eqn:E; [|repeat (split; auto)]. destruct (reg_of _ _ _ _ _ _ G E) as [Hk [Ra C]]. cbn [hp insts values].
      destruct (fill_upd (fun _ => True) _ (S a) _ (any_slots (g (look (hp s) a))) [] (hp s) a Ra C) as [U1 U2]. split; auto. split; [congruence|]. split; auto. intros Hj y Ry. rewrite (proj1 (U2 y)); [apply Ag; auto|]. intros Z. exact (dis_reg lo hi cs s j k y I (not_eq_sym Ne) Hj Hk Ry Z).
  - cbn [news do nlo nhi] in *. rewrite app_nil_r in *. destruct (Nat.eqb_spec k j) as [->|Ne].
    + split; auto. split; auto. rewrite <- Ei in *. destruct (nth_error (insts s) j) as [a|] eqn:E; [|repeat (split; auto)]. destruct (reg_of _ _ _ _ _ _ G E) as [Hj [Ra C]].
      assert (El2 : look (hp s') a = look (hp s) a) by (apply (view_agree (reg lo hi j)); auto; exact (Ag Hj)). rewrite El2. cbn [hp insts values]. split; auto. split; auto. split; auto. intros p Hp. destruct (existsb _ _); auto.
    + split; auto. split; auto. destruct (nth_error (insts s) k) as [a|] eqn:E; [|repeat (split; auto)]. destruct (reg_of _ _ _ _ _ _ G E) as [Hk [Ra C]]. cbn [hp insts values]. split; auto. split; auto. split; auto.
      intros p Hp. destruct (existsb (Nat.eqb p) (pins (look (hp s) a))) eqn:Ex; auto. exfalso. apply existsb_exists in Ex as [q [Hq Eq]]. apply Nat.eqb_eq in Eq as <-. destruct (pins_view _ _ C _ _ _ Ra Hq) as [y [o [Ry [Ho Hs]]]]. destruct G as [_ [_ [_ Pi]]]. apply (Dd j k p (not_eq_sym Ne) Hp). exact (Pi k y o p Hk Ry Ho Hs).
Qed.
(** Any program on instances of classes without bundle lists, each bound only to pins of its own DUT: the signals seen through an
    instance, and the values on its pins, are at the end those after the program without all commands on the other instances. *)
Theorem C56_independent_partial l j : Forall (fun x => creates (fun c => known h0 c /\ listless c /\ blank c) x /\ binds_to D x) l ->
  seen (doall (start h0 v0) l) j = seen (doall (start h0 v0) (filter (only j) l)) j.
Proof.
  intros F. assert (S : exists lo hi, Sim j lo hi (created l) (doall (start h0 v0) l) (doall (start h0 v0) (filter (only j) l))).
  { induction l as [|x l IH] using rev_ind.
    - exists (fun _ => 0), (fun _ => 0). assert (G : Good (fun _ => 0) (fun _ => 0) [] (start h0 v0)) by (split; [apply inv_start|]; split; [constructor|]; split; [intros y Hy; reflexivity|intros k y o p Hk; simpl in Hk; lia]).
      split; auto. split; auto. split; auto. split; auto. split; auto. simpl. lia.
    - apply Forall_app in F as [F1 F2]. inversion F2 as [|? ? [Fx Fb]]; subst. destruct (IH F1) as [lo [hi S]]. rewrite created_app, doall_app, filter_app. simpl. pose proof (sim_step _ _ _ _ _ _ x S Fx Fb) as S'. eexists _, _. destruct (only j x); [rewrite doall_app|rewrite app_nil_r]; exact S'. }
  destruct S as [lo [hi [G [G' [Ei [El [Ag Va]]]]]]]. unfold seen. rewrite <- Ei. destruct (nth_error (insts (doall (start h0 v0) l)) j) as [a|] eqn:E; auto. destruct (reg_of _ _ _ _ _ _ G E) as [Hj [Ra C]].
  assert (El2 : look (hp (doall (start h0 v0) (filter (only j) l))) a = look (hp (doall (start h0 v0) l)) a) by (apply (view_agree (reg lo hi j)); auto; exact (Ag Hj)). rewrite El2. f_equal. f_equal. apply map_ext_in. intros p Hp. apply Va. destruct (pins_view _ _ C _ _ _ Ra Hp) as [y [o [Ry [Ho Hs]]]]. destruct G as [_ [_ [_ Pi]]]. exact (Pi j y o p Hj Ry Ho Hs).
Qed.
End Run.
Print Assumptions C56_others_partial.
Print Assumptions C56_new.
Print Assumptions C56_independent_partial.

(** * Bundle lists *)
Definition within (lo hi : nat) (y : nat) : Prop := lo <= y < hi.
Lemma added_closed n0 (h r : heap) q : added false n0 h r -> closed (within (List.length h) (List.length h + List.length r)) (h ++ r ++ q).
Proof.
  intros A x o b Rx Ho Hb. unfold within in *. rewrite nth_error_app2, nth_error_app1 in Ho by lia. destruct (A o b (nth_error_In _ _ Ho) Hb) as [X|[X _]]; [exact X|discriminate X].
Qed.
Lemma inits_regions n0 h0 c : List.length h0 = n0 -> known h0 c -> listless c -> forall n h, n0 <= List.length h -> closed (fun a => a < n0) h -> forall h' r, inits n c h = (h', r) ->
  exists q lo hi, h' = h ++ q /\ List.length r = n /\
    (forall i x, nth_error r i = Some x -> List.length h <= lo i /\ within (lo i) (hi i) x /\ hi i <= List.length h' /\ closed (within (lo i) (hi i)) h') /\ forall i j, i < j < n -> hi i <= lo j.
Proof.
  intros L0 K Ll. induction n as [|n IH]; intros h Le C h' r E; cbn [inits] in E.
  - injection E as <- <-. exists [], (fun _ => 0), (fun _ => 0). rewrite app_nil_r. split; auto. split; auto. split; [intros [|i] x H; discriminate H|intros; lia].
  - destruct (init_added n0 h0 c L0 K h Le C) as [r0 [E1 [E2 [_ E4]]]]. specialize (E4 Ll). destruct (init c h) as [h1 b]. cbn [fst snd] in *. subst h1.
    destruct (inits n c (h ++ r0)) as [h2 r1] eqn:E3. injection E as <- <-. destruct (IH (h ++ r0)) with (h' := h2) (r := r1) as [q [lo [hi [-> [Lr [R D]]]]]]; auto; [rewrite app_length; lia|apply closed_app; auto; intros; lia|].
    exists (r0 ++ q), (fun i => match i with 0 => List.length h | S i => lo i end), (fun i => match i with 0 => List.length h + List.length r0 | S i => hi i end).
    split; [now rewrite app_assoc|]. split; [simpl; auto|]. split.
    + intros [|i] x H; simpl in H.
      * injection H as <-. unfold new_at in E2. unfold within. split; auto. split; [lia|]. split; [rewrite !app_length; lia|]. rewrite <- app_assoc. eapply added_closed; eauto.
      * destruct (R i x H) as [R1 [R2 [R3 R4]]]. rewrite app_length in R1. split; [lia|]. auto.
    + intros [|i] [|j] H; try lia; [|apply D; lia]. destruct (nth_error r1 j) as [y|] eqn:Ey; [|apply nth_error_None in Ey; lia]. destruct (R j y Ey) as [R1 _]. rewrite app_length in R1. lia.
Qed.
(** The elements of a new bundle list (of a class without bundle lists in it) are as many as asked for, new and all different, and
    binding one of them does not change what is seen through another. *)
Theorem C56_list_elements h c n h' a : sound h -> known h c -> listless c -> new_bundlelist c n h = (h', a) ->
  exists els, nth_error h' a = Some (OLst els) /\ List.length els = n /\ NoDup els /\ (forall x, In x els -> List.length h <= x < a) /\
    forall i j x y g, i <> j -> nth_error els i = Some x -> nth_error els j = Some y -> look (fill (S x) g [] h' x) y = look h' y.
Proof.
  intros So K Ll E. unfold new_bundlelist in E. destruct (inits n c h) as [h1 r] eqn:E1. unfold alloc in E. injection E as <- <-.
  destruct (inits_regions (List.length h) h c eq_refl K Ll n h (le_n _)) with (h' := h1) (r := r) as [q [lo [hi [-> [Lr [R D]]]]]]; auto; [intros x o b Hx Ho Hb; exact (So o b (nth_error_In _ _ Ho) Hb)|].
  exists r. split; [rewrite nth_error_app2, Nat.sub_diag by auto; reflexivity|]. split; auto.
  assert (Dis : forall i j z, i <> j -> i < n -> j < n -> within (lo i) (hi i) z -> within (lo j) (hi j) z -> False).
  { intros i j z Ne Hi Hj X Y. unfold within in *. destruct (lt_eq_lt_dec i j) as [[Z|Z]|Z]; [pose proof (D i j); lia|auto|pose proof (D j i); lia]. }
  assert (Bd : forall i x, nth_error r i = Some x -> i < n) by (intros i x H; rewrite <- Lr; apply nth_error_Some; congruence).
  split; [|split].
  - apply NoDup_nth_error. intros i j Hi Ej. destruct (nth_error r i) as [x|] eqn:Ei; [|apply nth_error_None in Ei; lia]. destruct (Nat.eq_dec i j) as [|Ne]; auto. exfalso. symmetry in Ej.
    apply (Dis i j x Ne (Bd _ _ Ei) (Bd _ _ Ej)); [apply (R i x Ei)|apply (R j x Ej)].
  - intros x Hx. apply In_nth_error in Hx as [i Hi]. destruct (R i x Hi) as [R1 [R2 [R3 _]]]. unfold within in R2. lia.
  - intros i j x y g Ne Hx Hy. destruct (R i x Hx) as [_ [X2 [X3 X4]]]. destruct (R j y Hy) as [_ [Y2 [Y3 Y4]]]. set (h2 := (h ++ q) ++ [OLst r]).
    assert (Cx : closed (within (lo i) (hi i)) h2) by (apply closed_app; auto; unfold within; intros; lia). assert (Cy : closed (within (lo j) (hi j)) h2) by (apply closed_app; auto; unfold within; intros; lia).
    apply (view_agree (within (lo j) (hi j))); auto. intros z Rz. destruct (fill_upd (fun _ => True) (within (lo i) (hi i)) (S x) g (any_slots g) [] h2 x X2 Cx) as [_ U]. apply (proj1 (U z)). intros X. exact (Dis i j z Ne (Bd _ _ Hx) (Bd _ _ Hy) X Rz).
Qed.
Print Assumptions C56_list_elements.

(** * Examples *)
Definition hs : heap := [OSig [SHolder; SHolder]].
Definition leafc : cls := Cls [SHolder] [] [0] [].
Definition topc : cls := Cls [SAbsent] [leafc; leafc] [0] [].
(** Binding everything to pin [q]; driving 5. *)
Definition wire (k q : nat) : act := Bind k (fun _ _ _ l => map (fun _ => SPin q) l).
Definition drive (k : nat) (z : Z) : act := Drive k (fun _ _ => z).
Definition prog1 : list act := [New topc; wire 0 10; New topc; New leafc; drive 0 3; wire 1 11; wire 2 12; drive 1 4; drive 2 5].
Example C56_ex : sound hs /\ (forall o, In o hs -> pinless (slots o)) /\
  Forall (fun x => creates (fun c => known hs c /\ listless c /\ blank c) x /\ binds_to (fun k q => q = 10 + k) x) prog1 /\
  seen (doall (start hs (fun _ => 0%Z)) prog1) 0 = Some (T [SPin 10] [T [SPin 10] [] [[SPin 10; SPin 10]] []; T [SPin 10] [] [[SPin 10; SPin 10]] []] [[SPin 10; SPin 10]] [], [3; 3; 3; 3; 3; 3; 3; 3; 3]%Z).
Proof.
  assert (Hl : known hs leafc /\ listless leafc /\ blank leafc). { split; [constructor; [constructor|repeat constructor]|]. split; [constructor; constructor|]. constructor; [|constructor]. intros p [X|[]]; discriminate. }
  assert (Ht : known hs topc /\ listless topc /\ blank topc). { destruct Hl as [A [B C]]. split; [constructor; [repeat constructor; auto|repeat constructor]|]. split; [constructor; auto|]. constructor; auto. intros p [X|[]]; discriminate. }
  split; [intros o a [<-|[]] []|]. split; [intros o [<-|[]] p [X|[X|[]]]; discriminate|]. split; [|reflexivity].
  repeat (apply Forall_cons); try apply Forall_nil; (split; [try exact Logic.I; auto|]); try exact Logic.I; intros t p o l q H; left; apply in_map_iff in H as [x [Hx _]]; injection Hx as <-; reflexivity.
Qed.
(** A class with a bundle list of two elements. *)
Definition hb : heap := fst (new_bundlelist leafc 2 hs).
Definition listc : cls := Cls [SHolder] [] [] [snd (new_bundlelist leafc 2 hs)].
Definition prog2 : list act := [New listc; New listc; wire 0 10; wire 1 11; drive 1 4].
(** Binding and driving the second instance changes what the first one shows: the elements of the bundle list are the same objects,
    connected to the DUT that was bound last. *)
Theorem C56_bundle_list_refuted : sound hb /\ (forall o, In o hb -> pinless (slots o)) /\ known hb listc /\
  (forall x, In x prog2 -> binds_to (fun k q => q = 10 + k) x) /\
  seen (doall (start hb (fun _ => 0%Z)) (filter (only 0) prog2)) 0 = Some (T [SPin 10] [] [] [[T [SPin 10] [] [[SPin 10; SPin 10]] []; T [SPin 10] [] [[SPin 10; SPin 10]] []]], [0; 0; 0; 0; 0; 0; 0]%Z) /\
  seen (doall (start hb (fun _ => 0%Z)) prog2) 0 = Some (T [SPin 10] [] [] [[T [SPin 11] [] [[SPin 11; SPin 11]] []; T [SPin 11] [] [[SPin 11; SPin 11]] []]], [0; 4; 4; 4; 4; 4; 4]%Z).
Proof.
  split; [intros o a H Ha; simpl in H; decompose [or] H; subst; simpl in Ha; try tauto; decompose [or] Ha; subst; simpl; try lia; tauto|].
  split; [intros o H p Hp; simpl in H; decompose [or] H; subst; simpl in Hp; decompose [or] Hp; try discriminate; tauto|].
  split; [repeat constructor|]. split; [|split; reflexivity].
  intros x H. destruct H as [<-|[<-|[<-|[<-|[<-|[]]]]]]; try exact Logic.I; intros t p o l q Hq; left; apply in_map_iff in Hq as [y [Hy _]]; injection Hy as <-; reflexivity.
Qed.
Print Assumptions C56_bundle_list_refuted.

(** A bundle list of two leaves: binding the first shows in the first only. *)
Example C56_list_elements_ex : sound hs /\ known hs leafc /\ listless leafc /\ nth_error hb 5 = Some (OLst [2; 4]) /\
  look (fill 3 (fun _ _ l => map (fun _ => SPin 7) l) [] hb 2) 2 = T [SPin 7] [] [[SPin 7; SPin 7]] [] /\ look (fill 3 (fun _ _ l => map (fun _ => SPin 7) l) [] hb 2) 4 = T [SHolder] [] [[SHolder; SHolder]] [].
Proof.
  split; [intros o a [<-|[]] []|]. split; [constructor; [constructor|repeat constructor]|]. split; [constructor; constructor|]. split; [reflexivity|]. split; reflexivity.
Qed.
