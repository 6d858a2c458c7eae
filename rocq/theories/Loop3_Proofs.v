(** What one step does to the fields outside futures and ready queue; bodies stay within the given class of programs. *)
From Coq Require Import List Bool Arith ZArith Lia.
From Verif Require Import Py Prio_Model Loop_Model Loop_Spec Loop_Proofs Loop2_Proofs.
Import ListNotations.
Open Scope nat_scope.

Section Eff.
Context {mem : Type}.
Notation prog := (@prog mem). Notation state := (@state mem). Notation body := (@body mem). Notation task := (@task mem).
Notation fut := (@fut mem). Notation kind := (@kind mem).
Implicit Types (s : state) (F : list fut).
Context (shuffle : list id -> list id) (dut delayers : mem -> mem).
Notation step := (step shuffle dut delayers). Notation steps := (steps shuffle dut delayers).

Definition fr s : state := set_evs (set_qs (frame s) []) [].
Lemma fr_frame s s' : frame s = frame s' -> fr s = fr s'. Proof. unfold fr. now intros ->. Qed.
Lemma fr_rest s s' : rest s = rest s' -> fr s = fr s'. Proof. intros H. now apply fr_frame, frame_rest. Qed.
Lemma fr_flag s s' : fr s = fr s' -> flag s = flag s'. Proof. intros H. change (flag (fr s) = flag (fr s')). now rewrite H. Qed.
Lemma fr_tdone s s' : fr s = fr s' -> tdone s = tdone s'. Proof. intros H. change (tdone (fr s) = tdone (fr s')). now rewrite H. Qed.
Lemma fr_clock s s' : fr s = fr s' -> clock s = clock s'. Proof. intros H. change (clock (fr s) = clock (fr s')). now rewrite H. Qed.
Lemma fr_prio s s' : fr s = fr s' -> prio s = prio s'. Proof. intros H. change (prio (fr s) = prio (fr s')). now rewrite H. Qed.
Lemma fr_ran s s' : fr s = fr s' -> ran s = ran s'. Proof. intros H. change (ran (fr s) = ran (fr s')). now rewrite H. Qed.
Lemma fr_nstep s s' : fr s = fr s' -> nstep s = nstep s'. Proof. intros H. change (nstep (fr s) = nstep (fr s')). now rewrite H. Qed.
Lemma fr_marks s s' : fr s = fr s' -> marks s = marks s'. Proof. intros H. change (marks (fr s) = marks (fr s')). now rewrite H. Qed.
Lemma fr_mm s s' : fr s = fr s' -> mm s = mm s'. Proof. intros H. change (mm (fr s) = mm (fr s')). now rewrite H. Qed.

(** The effect of one operation on those fields. *)
Definition oeff s (t : id) (o : @op mem prog) : state :=
  match o with
  | OMem f => set_mm s (fst (f (mm s)))
  | OMark m => set_marks s (marks s ++ [(t, m, nstep s)])
  | OFlag b => set_flag s b
  | OPrio h z true => set_prio s (prio s ++ [mk_pt h z (Some (List.length (evs s)))])
  | OPrio h z false => set_prio s (prio s ++ [mk_pt h z None])
  | OStartClock => match clock s with None => set_clock s (Some (List.length (futs s))) | Some _ => s end
  | _ => s
  end.
Definition seff s : state :=
  match cur s with
  | Some (t, BProg (Op o _)) | Some (t, BHook (Op o _) _ _ _) | Some (t, BTest (Op o _)) => oeff s t o
  | Some (_, BMain _) => set_flag (set_tdone s (Some false)) false
  | Some (_, BTest (Ret _)) => set_tdone s (Some true)
  | Some (_, BHook (Ret _) (Some e) _ _) => set_ran s (ran s ++ [e])
  | Some (_, BClk CRound) => set_flag s false
  | Some (_, BClk (CPass [] _)) => set_mm (set_prio s []) (delayers (mm s))
  | Some (_, BClk (CStep _)) => set_mm (set_nstep s (S (nstep s))) (dut (mm s))
  | _ => s
  end.
Lemma fr_suspend s t f k : fr (suspend s t f k) = fr s. Proof. apply fr_frame, frame_suspend. Qed.
Lemma fr_suspend0 s t k : fr (suspend0 s t k) = fr s. Proof. apply fr_frame, frame_suspend0. Qed.
Lemma fr_go s t b : fr (go s t b) = fr s. Proof. reflexivity. Qed.
Lemma fr_ev_set s e : fr (ev_set s e) = fr s.
Proof. destruct (ev_set_rest s e) as [R|[ev [_ R]]]; rewrite (fr_rest _ _ R); reflexivity. Qed.
Lemma fr_ev_clear s e : fr (ev_clear s e) = fr s.
Proof. unfold ev_clear. now destruct (nth_error (evs s) e). Qed.
Lemma fr_q_wake s q : fr (q_wake s q) = fr s.
Proof.
  unfold q_wake. destruct (nth_error (qs s) q) as [qu|]; auto. pose proof (rest_wake (q_getters qu) s) as R. destruct (wake_next s (q_getters qu)) as [s1 l].
  simpl in R. rewrite <- (fr_rest _ _ R). reflexivity.
Qed.
Lemma fr_q_get s t q k : fr (q_get s t q k) = fr s.
Proof. unfold q_get. destruct (nth_error (qs s) q) as [qu|]; auto. destruct (q_items qu); [|reflexivity]. now rewrite fr_suspend. Qed.
Lemma fr_on_dones s g l : fr (fold_left (fun s f => on_done s f (CbCount g)) l s) = fr s.
Proof. apply fr_rest. apply (rest_fold (fun s f => on_done s f (CbCount g))). intros; apply rest_on_done. Qed.
Lemma fr_cancels s l : fr (fold_left cancel_top l s) = fr s.
Proof. apply fr_rest. apply rest_fold. intros; apply rest_cancel. Qed.
Lemma exec_op_fr s t o k : fr (exec_op s t o k) = fr (oeff s t o).
Proof.
  unfold exec_op, oeff. destruct o as [f|m|fl| |p|f|f| |e|e|e| |q v|q|q| |h z [|]|l| |]; try reflexivity.
  - destruct (f (mm s)) as [m r]. reflexivity.
  - apply fr_suspend0.
  - destruct (fget s f) as [fu|]; auto. destruct (nameable (f_kind fu)); auto. simpl. destruct (pending fu); auto. apply fr_suspend.
  - destruct (fget s f) as [fu|]; auto. destruct (nameable (f_kind fu)); auto. simpl. rewrite fr_go. apply fr_rest, rest_cancel.
  - destruct (nth_error (evs s) e) as [ev|]; auto. destruct (e_priv ev); auto. rewrite fr_go. apply fr_ev_set.
  - destruct (nth_error (evs s) e) as [ev|] eqn:E; auto. destruct (e_priv ev); auto. rewrite fr_go. apply fr_ev_clear.
  - destruct (nth_error (evs s) e) as [ev|]; auto. destruct (e_val ev); auto. now rewrite fr_suspend.
  - destruct (nth_error (qs s) q) as [qu|]; auto. rewrite fr_go, fr_q_wake. reflexivity.
  - apply fr_q_get.
  - destruct (nth_error (qs s) q); auto.
  - destruct (nodup _ _); auto. rewrite fr_go. rewrite fr_on_dones. reflexivity.
  - destruct (clock s); auto.
Qed.
Theorem step_fr fire s : fr (step fire s) = fr (seff s).
Proof.
  unfold Loop_Model.step, seff. destruct (cur s) as [[t b]|].
  - destruct b as [[v|e|o kk]|[v|e|o kk] ev todo sb|c|e f r kk|q f [v|e] kk|test|[v|e|o kk]]; cbn [exec_body].
    + unfold finish, conclude. destruct (fget s t) as [fu|]; [|reflexivity]. destruct (pending fu); reflexivity.
    + unfold finish, conclude. destruct (fget s t) as [fu|]; [|reflexivity]. destruct (pending fu); reflexivity.
    + apply exec_op_fr.
    + destruct ev as [e|]; [|reflexivity]. rewrite fr_go. apply fr_ev_set.
    + reflexivity.
    + apply exec_op_fr.
    + destruct c as [| | |todo sb| | | |last]; cbn [exec_clk].
      * destruct (tdone s); [reflexivity|]. apply fr_suspend0.
      * apply fr_suspend0.
      * destruct (has_unwait s t || flag s); reflexivity.
      * destruct todo as [|[h ev] todo]; reflexivity.
      * reflexivity.
      * set (l := shuffle _). destruct l as [|x l0].
        -- rewrite fr_suspend0. reflexivity.
        -- rewrite fr_suspend, fr_on_dones. transitivity (fr (fold_left cancel_top (x :: l0) s)); [reflexivity|]. apply fr_cancels.
      * apply fr_suspend0.
      * rewrite fr_go, fr_ev_clear, fr_ev_set. reflexivity.
    + destruct (nth_error (evs s) e); reflexivity.
    + apply fr_q_get.
    + set (s1 := settle s f Canc). assert (R1 : fr s1 = fr s) by (apply fr_rest, rest_settle).
      set (s2 := match nth_error (qs s1) q with Some qu => _ | None => s1 end).
      assert (R2 : fr s2 = fr s) by (unfold s2; destruct (nth_error (qs s1) q); rewrite <- R1; reflexivity).
      rewrite fr_go. destruct (nth_error (qs s2) q) as [qu|]; auto. destruct (fget s2 f) as [fu|]; auto. destruct (q_items qu); auto. destruct (f_st fu); auto.
      now rewrite fr_q_wake.
    + reflexivity.
    + destruct (clock s); [apply (exec_op_fr (set_tdone s (Some true)))|]. unfold finish, conclude. destruct (fget (set_tdone s (Some true)) t) as [fu|]; [|reflexivity]. destruct (pending fu); reflexivity.
    + unfold finish, conclude. destruct (fget s t) as [fu|]; [|reflexivity]. destruct (pending fu); reflexivity.
    + apply exec_op_fr.
  - destruct (batch s) as [|n].
    + destruct (stopping s); [reflexivity|]. transitivity (fr (fold_left fire1 fire s)); [reflexivity|]. apply fr_rest, rest_fold. intros; apply fire1_rest.
    + destruct (ready s) as [|h r]; [reflexivity|]. set (s0 := set_batch (set_ready s r) n).
      assert (Z : forall t x, fr (resume s0 t x) = fr s).
      { intros t x. unfold resume. destruct (tget s0 t) as [tk|]; [|reflexivity]. transitivity (fr (tput s0 t (mk_task (k_cont tk) None false))); [reflexivity|].
        rewrite (fr_rest _ _ (rest_tput s0 t _)). reflexivity. }
      destruct h as [t|t e|t f|g| |f]; cbn [run_handle]; [apply Z|apply Z|apply Z| | |].
      * destruct (fget s0 g) as [[st cbs []]|]; try reflexivity. destruct need as [|[|n']]; try reflexivity. rewrite (fr_rest _ _ (rest_settle _ _ _)). reflexivity.
      * reflexivity.
      * rewrite (fr_rest _ _ (rest_settle s0 f _)). reflexivity.
Qed.
Ltac fields L s := rewrite (L _ _ (step_fr _ s)); unfold seff, oeff; destruct (cur s) as [[? [[| |[]]|[| |[]] [] | [| | |[]| | | |]| |]]|]; try reflexivity.

(** What runs next. *)
Lemma cur_suspend s t f k : cur (suspend s t f k) = None.
Proof.
  unfold suspend. destruct (tget s t) as [tk|]; [|reflexivity]. destruct (Nat.eqb t f); [reflexivity|]. cbv zeta. destruct (k_must tk); [|reflexivity].
  set (s1 := set_cur _ _). pose proof (rest_cancel (List.length (futs s1)) s1 f) as R. destruct (cancel _ s1 f) as [s2 ok]. simpl in R. apply rest_cur in R.
  destruct ok; [|exact R]. destruct (tget s2 t); [|exact R]. rewrite (rest_cur _ _ (rest_tput s2 t _)). exact R.
Qed.
Lemma cur_suspend0 s t k : cur (suspend0 s t k) = None.
Proof. unfold suspend0. now destruct (tget s t). Qed.
Lemma cur_q_get s t q k : cur (q_get s t q k) = None \/ exists r, cur (q_get s t q k) = Some (t, k r).
Proof. unfold q_get. destruct (nth_error (qs s) q) as [qu|]; [destruct (q_items qu)|]; simpl; eauto. left. apply cur_suspend. Qed.
Lemma cur_exec_op s t o k : cur (exec_op s t o k) = None \/ exists r, cur (exec_op s t o k) = Some (t, k r).
Proof.
  unfold exec_op. destruct o as [f|m|fl| |p|f|f| |e|e|e| |q v|q|q| |h z [|]|l| |]; try (right; eexists; reflexivity).
  - destruct (f (mm s)) as [m r]. right; eexists; reflexivity.
  - left. apply cur_suspend0.
  - destruct (fget s f) as [fu|]; [|right; eexists; reflexivity]. destruct (nameable (f_kind fu)); simpl; [|right; eexists; reflexivity]. destruct (pending fu); [left; apply cur_suspend|right; eexists; reflexivity].
  - destruct (fget s f) as [fu|]; [|right; eexists; reflexivity]. destruct (nameable (f_kind fu)); right; eexists; reflexivity.
  - destruct (nth_error (evs s) e) as [ev|]; [destruct (e_priv ev)|]; right; eexists; reflexivity.
  - destruct (nth_error (evs s) e) as [ev|]; [destruct (e_priv ev)|]; right; eexists; reflexivity.
  - destruct (nth_error (evs s) e) as [ev|]; [destruct (e_val ev)|]; [right; eexists; reflexivity|left; apply cur_suspend|right; eexists; reflexivity].
  - destruct (nth_error (qs s) q) as [qu|]; right; eexists; reflexivity.
  - apply cur_q_get.
  - destruct (nth_error (qs s) q); right; eexists; reflexivity.
  - destruct (nodup _ _); right; eexists; reflexivity.
  - destruct (clock s); right; eexists; reflexivity.
Qed.

(** The results of operations that do not suspend. *)
Definition opres s (o : @op mem prog) (r : res lval) : Prop :=
  match o with
  | OMem f => r = snd (f (mm s))
  | OMark _ | OFlag _ | OPrio _ _ false => r = Ok VNone
  | OSleep0 => False
  | OCreate _ | OTimer | OGather _ => r = Ok (VId (List.length (futs s)))
  | OAwait f => match fget s f with Some fu => if nameable (f_kind fu) then pending fu = false /\ r = outcome (f_st fu) else r = Exn TypeError | None => r = Exn TypeError end
  | OCancel f => match fget s f with Some fu => if nameable (f_kind fu) then r = Ok (VBool (pending fu)) else r = Exn TypeError | None => r = Exn TypeError end
  | OEvNew | OPrio _ _ true => r = Ok (VId (List.length (evs s)))
  | OEvSet e | OEvClear e => match nth_error (evs s) e with Some ev => r = if e_priv ev then Exn TypeError else Ok VNone | None => r = Exn TypeError end
  | OEvWait e => match nth_error (evs s) e with Some ev => e_val ev = true /\ r = Ok (VBool true) | None => r = Exn TypeError end
  | OQNew => r = Ok (VId (List.length (qs s)))
  | OQPut q _ => match nth_error (qs s) q with Some _ => r = Ok VNone | None => r = Exn TypeError end
  | OQGet q => match nth_error (qs s) q with Some qu => exists v, hd_error (q_items qu) = Some v /\ r = Ok v | None => r = Exn TypeError end
  | OQSize q => match nth_error (qs s) q with Some qu => r = Ok (VInt (Z.of_nat (List.length (q_items qu)))) | None => r = Exn TypeError end
  | OStartClock => match clock s with None => r = Ok VNone | Some _ => r = Exn RuntimeError end
  | OHasClock => r = Ok (VBool (match clock s with Some _ => true | None => false end))
  end.
Lemma cur_q_get_res s t q k : cur (q_get s t q k) = None \/ exists r, opres s (OQGet q) r /\ cur (q_get s t q k) = Some (t, k r).
Proof. unfold q_get, opres. destruct (nth_error (qs s) q) as [qu|]; [destruct (q_items qu)|]; simpl; eauto 10. left. apply cur_suspend. Qed.
Lemma cur_op_res s t o k : cur (exec_op s t o k) = None \/ exists r, opres s o r /\ cur (exec_op s t o k) = Some (t, k r).
Proof.
  unfold exec_op. destruct o as [f|m|fl| |p|f|f| |e|e|e| |q v|q|q| |h z [|]|l| |]; try (right; eexists; split; reflexivity).
  - simpl. destruct (f (mm s)) as [m r]. right; eexists; split; reflexivity.
  - left. apply cur_suspend0.
  - simpl. destruct (fget s f) as [fu|]; [|right; eexists; split; reflexivity]. destruct (nameable (f_kind fu)); simpl; [|right; eexists; split; reflexivity].
    destruct (pending fu); [left; apply cur_suspend|right; eexists; split; auto].
  - simpl. destruct (fget s f) as [fu|]; [|right; eexists; split; reflexivity]. destruct (nameable (f_kind fu)); right; eexists; split; reflexivity.
  - simpl. destruct (nth_error (evs s) e) as [ev|]; [destruct (e_priv ev)|]; right; eexists; split; reflexivity.
  - simpl. destruct (nth_error (evs s) e) as [ev|]; [destruct (e_priv ev)|]; right; eexists; split; reflexivity.
  - simpl. destruct (nth_error (evs s) e) as [ev|]; [destruct (e_val ev)|]; [right; eexists; split; auto; reflexivity|left; apply cur_suspend|right; eexists; split; reflexivity].
  - simpl. destruct (nth_error (qs s) q) as [qu|]; right; eexists; split; reflexivity.
  - apply cur_q_get_res.
  - simpl. destruct (nth_error (qs s) q); right; eexists; split; reflexivity.
  - simpl. destruct (nodup _ _); right; eexists; split; reflexivity.
  - simpl. destruct (clock s); right; eexists; split; reflexivity.
Qed.

(** * What suspended tasks are suspended on *)
Definition linked (N : option (id * kind) -> (res lval -> body) -> Prop) (x : @core mem) : Prop :=
  forall t cbs k w m, nth_error (snd x) t = Some (mkt Pending cbs k w m) -> (forall b, fst (fst x) <> Some (t, b)) ->
  match w with None => N None k | Some f => exists kd fu, nth_error (snd x) f = Some fu /\ kindrel kd (f_kind fu) /\ N (Some (f, kd)) k end.
Lemma linked_ext N F F' w k : fext F F' -> match w with None => N None k | Some f => exists kd fu, nth_error F f = Some fu /\ kindrel kd (f_kind fu) /\ N (Some (f, kd)) k end ->
  match w with None => N None k | Some f => exists kd fu, nth_error F' f = Some fu /\ kindrel kd (f_kind fu) /\ N (Some (f, kd)) (k : res lval -> body) end.
Proof.
  intros X H. destruct w as [f|]; auto. destruct H as [kd [fu [E [K H]]]]. destruct (X f fu E) as [fu' [E' [K' _]]]. exists kd, fu'. split; [|split]; auto.
  eapply kindrel_trans; eauto.
Qed.
Lemma m1_linked N S (c c1 : @core mem) : m1 N S c c1 -> linked N c -> linked N c1.
Proof.
  intros H A. pose proof (m1_ext _ _ _ _ H) as X. intros x cbs0 k1 w0 m0 E Hb.
  assert (D : (exists cbs m, nth_error (snd c) x = Some (mkt Pending cbs k1 w0 m) /\ (forall b, fst (fst c) <> Some (x, b))) \/
              match w0 with None => N None k1 | Some f => exists kd fu, nth_error (snd c1) f = Some fu /\ kindrel kd (f_kind fu) /\ N (Some (f, kd)) k1 end).
  2: { destruct D as [[cbs [m [D1 D2]]]|D]; auto. eapply linked_ext; [exact X|]. eapply A; eauto. }
  clear A X. destruct H; cbn [fst snd] in *.
  - rewrite (put_nth_get _ _ _ _ x H) in E. destruct (Nat.eqb x f); [|eauto]. injection E as _ _ E. subst k. discriminate.
  - rewrite (put_nth_get _ _ _ _ x H) in E. destruct (Nat.eqb_spec x t) as [->|]; [|eauto]. injection E as -> <- <- <- <-. eauto.
  - rewrite (put_nth_get _ _ _ _ x H) in E. destruct (Nat.eqb_spec x f) as [->|]; [|eauto]. injection E as _ ->. left. eauto.
  - eauto.
  - rewrite (put_nth_get _ _ _ _ x H) in E. destruct (Nat.eqb x f); [|eauto]. injection E as -> <- ->. destruct k; simpl in *; contradiction.
  - rewrite nth_app_new in E. destruct (Nat.eqb x (List.length F)); [|eauto]. injection E as _ _ ->. discriminate.
  - rewrite nth_app_new in E. destruct (Nat.eqb x (List.length F)); [|eauto]. injection E as _ <- <- _. auto.
  - left. eexists _, _. split; [eassumption|]. intros c E1. injection E1 as -> ->. apply (Hb b'). reflexivity.
  - rewrite (put_nth_get _ _ _ _ x H) in E. destruct (Nat.eqb_spec x t) as [->|Hn].
    + injection E as _ _ <- <- _. auto.
    + left. eexists _, _. split; [eassumption|]. congruence.
  - assert (E1 : nth_error (put_nth t (mkt st cbs k (Some f) m) F) f = Some (mk_fut Pending cbs' kd)).
    { rewrite (put_nth_get _ _ _ _ f H). destruct (Nat.eqb_spec f t); [congruence|assumption]. }
    rewrite (put_nth_get _ _ _ _ x E1) in E. destruct (Nat.eqb_spec x f) as [->|].
    + injection E as _ ->. left. eexists _, _. split; [exact H0|]. congruence.
    + rewrite (put_nth_get _ _ _ _ x H) in E. destruct (Nat.eqb_spec x t) as [->|].
      * injection E as _ _ <- <- _. right. exists kd. eexists. rewrite (put_nth_get _ _ _ _ f E1), Nat.eqb_refl. split; [reflexivity|]. split; auto. apply kindrel_refl.
      * left. eexists _, _. split; [eassumption|]. congruence.
  - rewrite (put_nth_get _ _ _ _ x H) in E. destruct (Nat.eqb_spec x t) as [->|].
    + injection E as -> _ _ _ _. congruence.
    + left. eexists _, _. split; [eassumption|]. congruence.
  - rewrite (put_nth_get _ _ _ _ x H0) in E. destruct (Nat.eqb_spec x t) as [->|].
    + exfalso. eapply Hb. reflexivity.
    + left. eexists _, _. split; [eassumption|]. congruence.
  - eauto.
Qed.
Lemma mstar_linked N S (c c1 : @core mem) : mstar N S c c1 -> linked N c -> linked N c1.
Proof. intros H. apply (mstar_inv N S (linked N) c c1 (m1_linked N S) H). Qed.

(** The continuation of a suspended task fits the future it is suspended on. *)
Definition plainb (b : body) : bool := match b with BEv _ _ _ _ | BGet _ _ _ _ => false | _ => true end.
Definition fits (w : option (id * kind)) (k : res lval -> body) : Prop :=
  match w with
  | Some (f, KEv e) => exists kk, k = (fun r => BEv e f r kk) /\ forall r, plainb (kk r) = true
  | Some (f, KQueue q) => exists kk, k = (fun r => BGet q f r kk) /\ forall r, plainb (kk r) = true
  | _ => forall r, plainb (k r) = true
  end.
Definition curfits (b : body) : Prop := match b with BEv _ _ _ k | BGet _ _ _ k => forall r, plainb (k r) = true | _ => True end.
Definition Linked s : Prop := linked fits (coreof s) /\ forall t b, cur s = Some (t, b) -> curfits b.
Lemma start_plain b r : plainb b = true -> plainb (start b r) = true.
Proof. now destruct r. Qed.
Lemma fits_opstores o k : (forall r, plainb (k r) = true) -> opstores fits o k.
Proof.
  intros H. destruct o; simpl; auto; try (intros; now apply start_plain); try (intros; eexists; split; [reflexivity|assumption]).
  split; auto. intros [] Hn; simpl in *; auto; discriminate.
Qed.
Lemma fits_stores b : curfits b -> stores fits b.
Proof.
  destruct b as [[v|e|o kk]|[v|e|o kk] ev todo sb|[]|e f r kk|q f [v|e] kk|test|[v|e|o kk]]; simpl; intros H; auto; try (apply fits_opstores; reflexivity); try (intros; now apply start_plain).
  - split; [|split]; intros; now apply start_plain.
  - intros g. eexists. split; [reflexivity|assumption].
  - intros g. eexists. split; [reflexivity|reflexivity].
Qed.

(** * Classes of programs *)
Section Class.
Context (C : @op mem prog -> Prop) (Hk : bool -> prog -> Prop).
Context (HC : forall h z d, C (OPrio h z d) -> Hk d h) (Hcont : forall d o k r, Hk d (Op o k) -> Hk d (k r)).
Definition isSome {A} (o : option A) : bool := match o with Some _ => true | None => false end.
Definition goodh (he : prog * option id) : Prop := allp C (fst he) /\ Hk (isSome (snd he)) (fst he).
Fixpoint goodb (b : body) : Prop :=
  match b with
  | BProg p => allp C p
  | BHook p ev todo _ => goodh (p, ev) /\ Forall goodh todo
  | BClk (CPass todo _) => Forall goodh todo
  | BClk _ => True
  | BEv _ _ _ k => forall r, goodb (k r)
  | BGet _ _ _ k => forall r, goodb (k r)
  | BMain p | BTest p => allp C p
  end.
Definition goodk (k : res lval -> body) : Prop := forall r, goodb (k r).
(** All continuations stored in tasks satisfy [N]. *)
Definition conts (N : (res lval -> body) -> Prop) F : Prop := forall t st cbs k w m, nth_error F t = Some (mkt st cbs k w m) -> N k.
Lemma m1_conts N S (c c1 : @core mem) : m1 (fun _ => N) S c c1 -> conts N (snd c) -> conts N (snd c1).
Proof.
  intros H A. destruct H; cbn [snd] in *; auto; intros x st0 cbs0 k1 w0 m0 E.
  - rewrite (put_nth_get _ _ _ _ x H) in E. destruct (Nat.eqb x f); [|eauto]. injection E as <- _ E. subst k. discriminate.
  - rewrite (put_nth_get _ _ _ _ x H) in E. destruct (Nat.eqb x t); [|eauto]. injection E as <- <- <- <- <-. eauto.
  - rewrite (put_nth_get _ _ _ _ x H) in E. destruct (Nat.eqb_spec x f) as [->|]; [|eauto]. injection E as _ _ ->. eapply A. exact H.
  - rewrite (put_nth_get _ _ _ _ x H) in E. destruct (Nat.eqb x f); [|eauto]. injection E as <- <- ->. destruct k; simpl in *; contradiction.
  - rewrite nth_app_new in E. destruct (Nat.eqb x (List.length F)); [|eauto]. injection E as _ _ ->. discriminate.
  - rewrite nth_app_new in E. destruct (Nat.eqb x (List.length F)); [|eauto]. injection E as _ _ <- _ _. auto.
  - rewrite (put_nth_get _ _ _ _ x H) in E. destruct (Nat.eqb x t); [|eauto]. injection E as _ _ <- _ _. auto.
  - assert (E1 : nth_error (put_nth t (mkt st cbs k (Some f) m) F) f = Some (mk_fut Pending cbs' kd)).
    { rewrite (put_nth_get _ _ _ _ f H). destruct (Nat.eqb_spec f t); [congruence|assumption]. }
    rewrite (put_nth_get _ _ _ _ x E1) in E. destruct (Nat.eqb_spec x f) as [->|].
    + injection E as _ _ ->. eapply A. exact H0.
    + rewrite (put_nth_get _ _ _ _ x H) in E. destruct (Nat.eqb x t); [|eauto]. injection E as _ _ <- _ _. auto.
  - rewrite (put_nth_get _ _ _ _ x H) in E. destruct (Nat.eqb x t); [|eauto]. injection E as _ _ <- _ _. eauto.
  - rewrite (put_nth_get _ _ _ _ x H0) in E. destruct (Nat.eqb x t); [|eauto]. injection E as _ _ <- _ _. eauto.
Qed.
Lemma mstar_conts N S (c c1 : @core mem) : mstar (fun _ => N) S c c1 -> conts N (snd c) -> conts N (snd c1).
Proof. intros H. apply (mstar_inv (fun _ => N) S (fun c => conts N (snd c)) c c1 (m1_conts N S) H). Qed.

Record Good s : Prop := mk_good
  { g_cur : forall t b, cur s = Some (t, b) -> goodb b;
    g_conts : conts goodk (futs s);
    g_prio : Forall (fun p => goodh (pt_coro p, pt_done p)) (prio s) }.
Lemma allp_op o k : allp C (Op o k) -> C o /\ (forall p, part o p -> allp C p) /\ (forall r, allp C (k r)).
Proof. intros H. inversion H; subst. auto. Qed.
Lemma start_good b : goodb b -> goodk (start b).
Proof. intros H [v|e]; simpl; auto. constructor. Qed.
Lemma good_opstores o k kk : allp C (Op o k) -> (forall r, goodb (kk r)) -> opstores (fun _ => goodk) o kk.
Proof.
  intros H1 H2. apply allp_op in H1 as [H1 [H3 H4]]. destruct o; simpl; auto.
  - apply start_good. simpl. apply H3. constructor.
  - intros f r. simpl. auto.
  - intros f r. simpl. auto.
  - apply start_good. exact I.
Qed.
Lemma good_stores b : goodb b -> stores (fun _ => goodk) b.
Proof.
  destruct b as [[v|e|o kk]|[v|e|o kk] ev todo sb|[]|e f r kk|q f [v|e] kk|test|[v|e|o kk]]; simpl; intros H; auto; try (apply start_good; exact I).
  - eapply good_opstores; eauto. intros r. simpl. apply allp_op in H. apply H.
  - destruct H as [[H1 H3] H2]. simpl in *. eapply good_opstores; eauto. intros r. simpl. split; auto. split; simpl; [apply allp_op in H1; apply H1|eapply Hcont; eauto].
  - split; [|split]; intros; apply start_good; exact I.
  - intros g r. exact H.
  - intros f r. simpl. intros [|]; constructor.
  - eapply good_opstores; eauto. intros r. simpl. apply allp_op in H. apply H.
Qed.
Lemma sorted_In {A} (l : list (ptask A)) p : In p (pt_sorted l) -> In p l.
Proof.
  assert (Hi : forall x l, In p (pt_insert x l) -> p = x \/ In p l).
  { intros x l0. induction l0 as [|y l0 IH]; simpl; [intuition auto|]. destruct (_ <=? _)%Z; simpl; intuition auto. }
  induction l as [|x l IH]; simpl; auto. intros H. apply Hi in H as [->|H]; auto.
Qed.
Lemma step_good fire s : Wf s -> Good s -> Good (step fire s).
Proof.
  intros [I K] [G1 G2 G3].
  assert (M : mstar (fun _ => goodk) (Sof s) (coreof s) (coreof (step fire s))).
  { apply step_core; auto. intros t b Hc. apply good_stores. eauto. }
  constructor.
  - intros t' b' H. unfold Loop_Model.step in H. destruct (cur s) as [[t b]|] eqn:Hc.
    + specialize (G1 t b eq_refl). destruct b as [[v|e|o kk]|[v|e|o kk] ev todo sb|c|e f r kk|q f [v|e] kk|test|[v|e|o kk]]; cbn [exec_body goodb] in *; try (unfold finish in H; discriminate H).
      * destruct (cur_exec_op s t o (fun r => BProg (kk r))) as [E|[r E]]; rewrite E in H; [discriminate|]. injection H as <- <-. simpl. apply allp_op in G1. apply G1.
      * destruct G1 as [_ G1]. destruct ev; injection H as <- <-; exact G1.
      * injection H as <- <-. constructor.
      * destruct G1 as [[G0 G4] G1]. destruct (cur_exec_op s t o (fun r => BHook (kk r) ev todo sb)) as [E|[r E]]; rewrite E in H; [discriminate|]. injection H as <- <-.
        simpl in *. split; auto. split; simpl; [apply allp_op in G0; apply G0|eapply Hcont; eauto].
      * destruct c as [| | |todo sb| | | |last]; cbn [exec_clk] in H.
        -- destruct (tdone s); [injection H as <- <-; exact Logic.I|]. rewrite cur_suspend0 in H. discriminate.
        -- rewrite cur_suspend0 in H. discriminate.
        -- destruct (has_unwait s t || flag s); injection H as <- <-; [exact Logic.I|]. simpl. apply Forall_forall. intros x Hx. apply in_map_iff in Hx as [p [<- Hp]].
           apply sorted_In in Hp. revert p Hp. apply Forall_forall. exact G3.
        -- destruct todo as [|[h ev] todo]; injection H as <- <-; [destruct sb; exact Logic.I|]. inversion G1; subst. simpl. auto.
        -- injection H as <- <-. now destruct (tdone s) as [[|]|].
        -- set (l := shuffle _) in H. destruct l; [rewrite cur_suspend0 in H|rewrite cur_suspend in H]; discriminate.
        -- rewrite cur_suspend0 in H. discriminate.
        -- injection H as <- <-. exact Logic.I.
      * destruct (nth_error (evs s) e); injection H as <- <-; apply G1.
      * destruct (cur_q_get s t q kk) as [E|[r E]]; rewrite E in H; [discriminate|]. injection H as <- <-. apply G1.
      * injection H as <- <-. apply G1.
      * injection H as <- <-. exact G1.
      * destruct (clock s); [|discriminate H]. destruct (cur_exec_op (set_tdone s (Some true)) t (OEvWait 0) (fun r => BProg (match r with Ok _ => Ret v | Exn e => Raise e end))) as [E|[r E]]; rewrite E in H; [discriminate|]. injection H as <- <-. simpl. destruct r; constructor.
      * destruct (cur_exec_op s t o (fun r => BTest (kk r))) as [E|[r E]]; rewrite E in H; [discriminate|]. injection H as <- <-. simpl. apply allp_op in G1. apply G1.
    + destruct (batch s) as [|n].
      * destruct (stopping s); [congruence|]. simpl in H. rewrite (rest_cur _ _ (rest_fold fire1 fire s fire1_rest)) in H. congruence.
      * destruct (ready s) as [|h r] eqn:Hr; [simpl in H; congruence|].
        assert (Z : forall x y, cur (resume (set_batch (set_ready s r) n) x y) = Some (t', b') -> goodb b').
        { intros x y E. unfold resume in E. destruct (tget (set_batch (set_ready s r) n) x) as [tk|] eqn:T; [|simpl in E; congruence]. injection E as <- <-.
          destruct (tget_fut _ _ _ T) as [st [cbs E]]. destruct tk as [kk w m]. simpl. apply (G2 x st cbs kk w m E). }
        destruct h as [x|x e|x f|g| |f]; cbn [run_handle] in H; eauto.
        -- exfalso. revert H. set (s0 := set_batch _ _). destruct (fget s0 g) as [[st cbs []]|]; try (simpl; congruence). destruct need as [|[|n']]; try (simpl; congruence).
           rewrite (rest_cur _ _ (rest_settle _ _ _)). simpl. congruence.
        -- simpl in H. congruence.
        -- rewrite (rest_cur _ _ (rest_settle _ _ _)) in H. simpl in H. congruence.
  - exact (mstar_conts _ _ _ _ M G2).
  - rewrite (fr_prio _ _ (step_fr fire s)). unfold seff. destruct (cur s) as [[t b]|] eqn:Hc; auto. specialize (G1 t b eq_refl).
    assert (O : forall o k, allp C (Op o k) -> Forall (fun p => goodh (pt_coro p, pt_done p)) (prio (oeff s t o))).
    { intros o k A. apply allp_op in A as [A1 [A2 A3]]. destruct o as [f|m|fl| |p|f|f| |e|e|e| |q v|q|q| |h z d|l| |]; auto.
      - destruct d; simpl; apply Forall_app; split; auto; constructor; auto; (split; simpl; [apply A2; constructor|apply (HC _ _ _ A1)]).
      - simpl. destruct (clock s); auto. }
    destruct b as [[v|e|o kk]|[v|e|o kk] ev todo sb|c|e f r kk|q f [v|e] kk|test|[v|e|o kk]]; auto.
    + eapply O; eauto.
    + destruct ev; auto.
    + eapply O. apply G1.
    + destruct c as [| | |[]| | | |]; auto. constructor.
    + eapply O; eauto.
Qed.
Lemma bindr_unfold (p : prog) k : bindr p k = match p with Ret v => k (Ok v) | Raise e => k (Exn e) | Op o c => Op o (fun r => bindr (c r) k) end.
Proof.
  assert (U : forall q : prog, q = match q with Ret v => Ret v | Raise e => Raise e | Op o c => Op o c end) by (intros []; reflexivity).
  rewrite (U (bindr p k)). destruct p; simpl; try reflexivity; now destruct (k _).
Qed.
Lemma allp_bindr : forall p k, allp C p -> (forall r, allp C (k r)) -> allp C (bindr p k).
Proof.
  cofix IH. intros p k Hp H. rewrite bindr_unfold. destruct Hp as [v|e|o c H1 H2 H3]; auto. constructor; auto.
Qed.
Lemma init_good test m : allp C test -> Good (init test m).
Proof.
  intros H. constructor; simpl.
  - discriminate.
  - intros [|[|t]] st cbs k w mu E; simpl in E; try discriminate. injection E as _ _ <- _ _. apply start_good. exact H.
  - constructor.
Qed.
Lemma reach_good test m s : allp C test -> steps (init test m) s -> Good s.
Proof.
  intros H R. assert (X : Wf s /\ Good s); [|apply X]. revert R. pose proof (init_wf test m) as W. pose proof (init_good test m H) as G. intros R.
  apply (steps_ind_inv shuffle dut delayers (fun s => Wf s /\ Good s) _ _) in R; auto. intros fire s0 [W0 G0]. split; [now apply step_wf|now apply step_good].
Qed.
End Class.
End Eff.
