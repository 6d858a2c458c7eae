(** Invariants of the clock task; the calls of registered hooks. *)
From Coq Require Import List Bool Arith ZArith Lia.
From Verif Require Import Py Prio_Model Loop_Model Loop_Spec Loop_Proofs Loop2_Proofs Loop3_Proofs Loop4_Proofs Loop7_Proofs Loop8_Proofs Loop9_Proofs Loop10_Proofs Loop13_Proofs Loop14_Proofs Loop15_Proofs.
Import ListNotations.
Open Scope nat_scope.

Section Inv.
Context {mem : Type}.
Notation prog := (@prog mem). Notation state := (@state mem). Notation body := (@body mem). Notation task := (@task mem).
Notation fut := (@fut mem). Notation kind := (@kind mem).
Implicit Types (s : state).
Context (shuffle : list id -> list id) (dut delayers : mem -> mem).
Notation step := (step shuffle dut delayers). Notation steps := (steps shuffle dut delayers).

Lemma clock_of s t b : Clk1 s -> cur s = Some (t, b) -> ~ noclkb b -> clock s = Some t.
Proof.
  intros C Hc Hn. destruct (option_map (Nat.eqb t) (clock s)) as [[|]|] eqn:Q.
  - destruct (clock s) as [c|]; [|discriminate]. injection Q as Q. apply Nat.eqb_eq in Q. now subst.
  - exfalso. apply Hn. apply (C t); auto. intros Z. rewrite Z in Q. simpl in Q. rewrite Nat.eqb_refl in Q. discriminate.
  - exfalso. apply Hn. apply (C t); auto. intros Z. rewrite Z in Q. discriminate.
Qed.

Section Generic.
Context (Q : state -> body -> Prop).
Definition Qk s (k : res lval -> body) : Prop := forall r, Q s (k r).
Definition CInv s : Prop := linked (fun _ => Qk s) (coreof s) /\ forall t b, cur s = Some (t, b) -> Q s b.
Context (Hno : forall s b, noclkb b -> Q s b).
Context (Hev : forall s e f r k, Q s (BEv e f r k) <-> forall x, Q s (k x)).
Context (Hget : forall s e f r k, Q s (BGet e f r k) <-> forall x, Q s (k x)).
Definition stored s (b : body) : Prop :=
  match b with
  | BHook (Op o k) ev todo sb => forall r, Q s (BHook (k r) ev todo sb)
  | BClk CInit => Q s (BClk CInit)
  | BClk CRound => Q s (BClk CCheck)
  | BClk CCancel => Q s (BClk CGathered) /\ Q s (BClk (CStep true))
  | BClk CGathered => Q s (BClk (CStep true))
  | _ => True
  end.
Definition starts_clock s (b : body) : Prop := match b with BProg (Op OStartClock _) | BHook (Op OStartClock _) _ _ _ | BTest (Op OStartClock _) => clock s = None | _ => False end.
Lemma start_qk s b : Q s b -> Qk s (start b).
Proof. intros H [v|e]; simpl; auto. apply Hno. exact I. Qed.
Lemma stored_stores s s' t b : Clk1 s -> cur s = Some (t, b) -> ~ again s b -> Q s' b -> stored s' b -> (starts_clock s b -> Q s' (BClk CInit)) -> stores (fun _ => Qk s') b.
Proof.
  intros C Hc HA HB HS HSt.
  assert (O : forall o k, Qk s' k -> (o = OStartClock -> Q s' (BClk CInit)) -> opstores (fun _ => Qk s') o k).
  { intros o k HK HO. destruct o; simpl; auto.
    - apply start_qk. apply Hno. exact I.
    - intros f r. apply Hev. exact HK.
    - intros f r. apply Hget. exact HK.
    - apply start_qk. now apply HO. }
  destruct b as [[v|x|o kk]|[v|x|o kk] ev todo sb|c|x g r kk|q g [v|x] kk|test|[v|x|o kk]]; cbn [stores stored starts_clock again] in *; auto.
  - apply O; [intros r; apply Hno; exact I|]. intros ->. apply HSt. destruct (clock s); auto. contradiction HA. discriminate.
  - apply O; [exact HS|]. intros ->. apply HSt. destruct (clock s); auto. contradiction HA. discriminate.
  - destruct c; auto; try (apply start_qk; exact HS). split; [|split]; intros; apply start_qk; apply HS.
  - intros f r. apply Hget. rewrite Hget in HB. exact HB.
  - apply O; [intros r; apply Hno; exact I|discriminate].
  - apply O; [intros r; apply Hno; exact I|]. intros ->. apply HSt. destruct (clock s); auto. contradiction HA. discriminate.
Qed.
Lemma cinv_step fire s : Wf s -> Clk1 s -> CInv s -> (forall b, Q s b -> Q (step fire s) b) ->
  (forall t b, cur s = Some (t, b) -> clock s = Some t -> stored (step fire s) b) -> (forall t b, cur s = Some (t, b) -> starts_clock s b -> Q (step fire s) (BClk CInit)) ->
  (forall t b b', cur s = Some (t, b) -> clock s = Some t -> nextb s t b b' -> Q (step fire s) b') -> CInv (step fire s).
Proof.
  intros W C [L H] Hm Hst Hsp Hnx. pose proof W as [I K]. split.
  - assert (L0 : linked (fun _ => Qk (step fire s)) (coreof s)) by (eapply linked_imp; [|exact L]; intros t cbs k w m E Hb X r; apply Hm, X).
    destruct (cur s) as [[t b]|] eqn:Hc.
    2: { eapply mstar_linked; [|exact L0]. apply (step_core shuffle dut delayers (fun _ => Qk _)); auto. intros t b X. congruence. }
    assert (HA : again s b \/ ~ again s b).
    { destruct b as [[v|x|o kk]|[v|x|o kk] ev todo sb|c|x g r kk|q g r kk|test|[v|x|o kk]]; cbn [again]; auto; destruct o; auto; destruct (clock s); auto; left; discriminate. }
    destruct HA as [HA|HA].
    + intros t1 cbs k w m E Hb. cbn [coreof fst snd] in *. rewrite (again_futs shuffle dut delayers fire s t b Hc HA) in E.
      assert (Hb0 : forall b0, cur s <> Some (t1, b0)).
      { intros b0 X. rewrite Hc in X. injection X as <- <-. assert (Y : exists b', cur (step fire s) = Some (t, b')).
        { unfold Loop_Model.step. rewrite Hc. clear - HA. destruct b as [[v|x|o kk]|[v|x|o kk] ev todo sb|c|x g r kk|q g r kk|test|[v|x|o kk]]; cbn [again] in HA; try contradiction; destruct o; try contradiction; cbn [exec_body exec_op]; destruct (clock s); eexists; reflexivity. }
        destruct Y as [b' Y]. eapply Hb; eauto. }
      pose proof (L0 t1 cbs k w m E Hb0) as X. cbn [coreof fst snd] in X. now rewrite (again_futs shuffle dut delayers fire s t b Hc HA).
    + eapply mstar_linked; [|exact L0]. apply (step_core shuffle dut delayers (fun _ => Qk _)); auto. intros t1 b1 X. rewrite Hc in X. injection X as <- <-.
      apply (stored_stores s (step fire s) t b); auto.
      * apply Hm. eauto.
      * destruct b as [[v|x|o kk]|[v|x|o kk] ev todo sb|c|x g r kk|q g r kk|test|[v|x|o kk]]; try exact Logic.I; eapply Hst; eauto; eapply clock_of; eauto.
      * eauto.
  - intros t' b' Hc'. destruct (step_cur shuffle dut delayers fire s t' b' W Hc') as [[b [Hc Hn]]|[Hc [h [r [n [st [cbs [k [w [m [Hr [Hb [Ho [E ->]]]]]]]]]]]]]].
    + destruct (option_map (Nat.eqb t') (clock s)) as [[|]|] eqn:QQ.
      * destruct (clock s) as [c|] eqn:Cl; [|discriminate]. injection QQ as QQ. apply Nat.eqb_eq in QQ. subst c. eauto.
      * apply Hno. eapply nextb_noclk; [exact Hn|]. apply (C t'); auto. intros Z. rewrite Z in QQ. simpl in QQ. rewrite Nat.eqb_refl in QQ. discriminate.
      * apply Hno. eapply nextb_noclk; [exact Hn|]. apply (C t'); auto. intros Z. rewrite Z in QQ. discriminate.
    + assert (Hin : In h (ready s)) by (rewrite Hr; now left). destruct (handle_live _ I h t' Hin Ho) as [cbs' [k' [w' [m' E']]]]. cbn [snd coreof] in E'. rewrite E in E'. injection E' as -> <- <- <- <-.
      assert (Hcn : forall b, cur s <> Some (t', b)) by congruence. pose proof (L t' _ _ _ _ E Hcn) as X. apply Hm. destruct w as [f0|]; [destruct X as [kd [fu0 [_ [_ X]]]]|]; apply X.
Qed.
End Generic.

(** * The hook with the event [e] is the coroutine [p] *)
Section Hook.
Context (e : id) (p : prog) (s0 : state).
(** The clock task has come to the start of [p]. *)
Definition begins s : Prop := exists c todo sb, cur s = Some (c, BHook p (Some e) todo sb).
Definition begun s : Prop := exists s1, steps s0 s1 /\ steps s1 s /\ begins s1.
Definition okt (todo : list (prog * option id)) : Prop := forall x, In x todo -> snd x = Some e -> fst x = p.
Fixpoint J s (b : body) : Prop :=
  match b with
  | BHook q ev todo _ => (ev = Some e -> q = p \/ begun s) /\ okt todo
  | BClk (CPass todo _) => okt todo
  | BEv _ _ _ k | BGet _ _ _ k => forall r, J s (k r)
  | _ => True
  end.
Record Pend s : Prop := mk_pend
  { pe_inv : CInv J s; pe_prio : forall x, In x (prio s) -> pt_done x = Some e -> pt_coro x = p; pe_ran : In e (ran s) -> begun s; pe_lt : e < List.length (evs s) }.
Lemma begun_step fire s : begun s -> begun (step fire s).
Proof. intros [s1 [A [B C]]]. exists s1. split; auto. split; auto. now apply steps_step. Qed.
Lemma J_step fire s b : J s b -> J (step fire s) b.
Proof.
  induction b as [q|q ev todo sb|c|x f r k IH|q f r k IH|test|q]; cbn [J]; auto. intros [A B]. split; auto. intros X. destruct (A X); auto. right. now apply begun_step.
Qed.
Lemma J_noclk s b : noclkb b -> J s b.
Proof. induction b as [q|q ev todo sb|[]|x f r k IH|q f r k IH|test|q]; cbn [J noclkb]; auto; contradiction. Qed.
Lemma oeff_prio_in s t o x : In x (prio (oeff s t o)) -> In x (prio s) \/ pt_done x = None \/ pt_done x = Some (List.length (evs s)).
Proof. rewrite oeff_prio. destruct o as [f|m|fl| |p0|f|f| |e0|e0|e0| |q v|q|q| |h z [|]|l| |]; auto; intros H; apply in_app_iff in H as [H|[<-|[]]]; auto. Qed.
Lemma prio_in fire s x : In x (prio (step fire s)) -> In x (prio s) \/ pt_done x = None \/ pt_done x = Some (List.length (evs s)).
Proof.
  rewrite (fr_prio _ _ (step_fr shuffle dut delayers fire s)). unfold seff. destruct (cur s) as [[t b]|]; auto.
  destruct b as [[v|y|o kk]|[v|y|o kk] [ev|] todo sb|[| | |[]| | | |]|y g r kk|q g [v|y] kk|test|[v|y|o kk]]; auto; try apply oeff_prio_in. intros [].
Qed.
Lemma pend_step fire s : Wf s -> Clk1 s -> steps s0 s -> Pend s -> Pend (step fire s).
Proof.
  intros W C R [A B D L]. assert (HE : forall c q todo sb, cur s = Some (c, BHook q (Some e) todo sb) -> begun s).
  { intros c q todo sb Hc. destruct A as [_ A]. destruct (A _ _ Hc) as [X _]. destruct (X eq_refl) as [->|X1]; auto. exists s. split; auto. split; [apply steps_refl|]. exists c, todo, sb. exact Hc. }
  constructor.
  - apply (cinv_step J); auto.
    + exact J_noclk.
    + intros; reflexivity.
    + intros; reflexivity.
    + intros b. apply J_step.
    + intros t b Hc Cl. destruct A as [_ A]. pose proof (A _ _ Hc) as HB. destruct b as [q|[v|x|o kk] ev todo sb|[]|x g r kk|q g r kk|test|q]; cbn [stored J]; auto.
      intros r. split; [|apply HB]. intros ->. right. apply begun_step. eapply HE; eauto.
    + intros t b Hc _. exact Logic.I.
    + intros t b b' Hc Cl Hn. destruct A as [_ A]. pose proof (A _ _ Hc) as HB. destruct b as [[v|x|o kk]|[v|x|o kk] ev todo sb|c|x f r kk|q f [v|x] kk|test|[v|x|o kk]]; cbn [nextb J] in Hn, HB; try contradiction; try (subst b'; exact Logic.I);
        try (destruct Hn as [r [_ ->]]; try exact Logic.I; apply J_step, HB).
      * subst b'. cbn [J]. apply HB.
      * destruct Hn as [r [_ ->]]. cbn [J]. split; [|apply HB]. intros ->. right. apply begun_step. eapply HE; eauto.
      * destruct c as [| | |[|[h ev] todo] sb| | | |last]; try contradiction; try (subst b'; exact Logic.I).
        -- destruct Hn as [->|[_ [_ ->]]]; [exact Logic.I|]. cbn [J]. intros y Hy Hs. apply in_map_iff in Hy as [z [<- Hz]]. cbn [fst snd] in *. apply B; auto. now apply sorted_In.
        -- subst b'. destruct sb; exact Logic.I.
        -- subst b'. cbn [J]. split; [|intros y Hy; apply HB; now right]. intros ->. left. apply (HB (h, Some e)); [now left|reflexivity].
        -- subst b'. destruct (tdone s) as [[|]|]; exact Logic.I.
      * subst b'. apply J_step, HB.
      * subst b'. apply J_step, HB.
  - intros x Hx Hd. apply prio_in in Hx as [Hx|[Hx|Hx]]; auto; [congruence|]. rewrite Hd in Hx. injection Hx as Hx. lia.
  - rewrite ran_step. intros Hin. apply begun_step. apply in_app_iff in Hin as [Hin|Hin]; auto. destruct (cur s) as [[t b]|] eqn:Hc; [|contradiction].
    destruct b as [q|[v|x|o kk] [ev|] todo sb|c|x g r kk|q g r kk|test|q]; try contradiction. destruct Hin as [->|[]]. eapply HE; eauto.
  - pose proof (len_evs shuffle dut delayers fire s). lia.
Qed.
Lemma pend_steps s : All s0 -> Pend s0 -> steps s0 s -> Pend s.
Proof.
  intros A P R. assert (X : forall s, steps s0 s -> steps s0 s /\ Pend s); [|now apply X]. clear s R. intros s R. remember s0 as z eqn:Ez in R at 1. induction R as [y|y s1 fire R IH].
  - subst y. split; auto. apply steps_refl.
  - destruct (IH Ez) as [R1 P1]. split; [now apply steps_step|]. destruct (steps_all shuffle dut delayers s0 s1 A R1) as [E1 C1]. apply pend_step; auto. apply (v_wf _ E1).
Qed.
End Hook.
End Inv.
