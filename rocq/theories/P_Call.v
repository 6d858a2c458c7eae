(** C30 and C32: comparison of the results of a driver call; arguments delivered to ports. *)
From Coq Require Import List String Bool Arith ZArith Lia.
From Verif Require Import Py Dict_Proofs Port_Model Port_Spec Call_Model Call_Spec Call_Proofs.
Import ListNotations.
Open Scope string_scope.
Open Scope list_scope.
Open Scope nat_scope.

Section Thms.
Context {V : Type}.
Notation param := (param V). Notation pv := (pv V). Notation signature := (signature V).
Implicit Types (args : list V) (kw : dict V).

(** A method: its first parameter is called self. *)
Definition method_sig (sg : signature) : Prop := proper sg /\ exists self rest, sg = self :: rest /\ p_name self = "self" /\ positional self = true.

Lemma denotes_swap sg rest self a b args kw p : sg = self :: rest -> positional self = true -> NoDup (map p_name sg) -> In p rest -> denotes sg (a :: args) kw p = denotes sg (b :: args) kw p.
Proof.
  intros -> PS ND Hp. cbn in ND. inversion ND as [|? ? N1 N2]; subst. assert (NE : p_name p <> p_name self) by (intros E; apply N1; rewrite <- E; now apply in_map).
  assert (PO : positions (self :: rest) = p_name self :: positions rest) by (unfold positions; cbn; rewrite PS; reflexivity).
  unfold denotes. rewrite PO. cbn [place List.length skipn]. destruct (String.eqb_spec (p_name p) (p_name self)); [contradiction|]. reflexivity.
Qed.
Lemma accepted_swap sg rest self a b args kw : sg = self :: rest -> positional self = true -> NoDup (map p_name sg) -> accepted_call sg (a :: args) kw -> accepted_call sg (b :: args) kw.
Proof.
  intros E PS ND [A [B [C D]]]. split; auto. split; auto. split; auto. intros p Hp X. apply (C p Hp). pose proof Hp as Hp2. rewrite E in Hp2. destruct Hp2 as [->|Hp2]; [|rewrite <- X; eapply denotes_swap; eauto].
  exfalso. assert (PO : positions sg = p_name p :: positions rest) by (rewrite E; unfold positions; cbn; rewrite PS; reflexivity). unfold denotes in X. rewrite PO in X. cbn [place] in X. rewrite String.eqb_refl in X. unfold positional in PS. destruct (p_kind p); discriminate.
Qed.
Lemma Forall2_ext_in {A B} (R R' : A -> B -> Prop) l l' : (forall a b, In a l -> R a b -> R' a b) -> Forall2 R l l' -> Forall2 R' l l'.
Proof. intros H F. induction F; constructor; [apply H; auto; now left|]. apply IHF. intros; apply H; auto. now right. Qed.

(** For every method, positional and keyword arguments: if Python accepts the call method(agent, *args, **kw), the dictionary is that of
    the values of all parameters except self in this call (given arguments, defaults, tuple and dictionary of starred parameters),
    in the order of the parameters; otherwise TypeError is raised. *)
Theorem C32_arguments (sg : signature) none agent args kw : method_sig sg -> proper_kw sg kw ->
  (accepted_call sg (agent :: args) kw /\ exists d, args_dict sg none args kw = Ok d /\
     Forall2 (fun p x => fst x = p_name p /\ denotes sg (agent :: args) kw p = Some (snd x)) (tl sg) d) \/
  (~ accepted_call sg (agent :: args) kw /\ args_dict sg none args kw = Exn TypeError).
Proof.
  intros [PR [self [rest [E [NS PS]]]]] PK. destruct (proper_facts sg PR) as [ND _]. unfold args_dict. destruct (bind_call sg (none :: args) kw PR PK) as [[AC [d [-> CD]]]|[NA ->]].
  - left. split; [eapply accepted_swap; eauto|]. cbn [rbind]. unfold call_dict in CD. remember (apply_defaults sg d) as ad. rewrite E. cbn [tl]. rewrite <- E.
    assert (CD2 : Forall2 (fun p (x : string * pv) => fst x = p_name p /\ denotes sg (none :: args) kw p = Some (snd x)) (self :: rest) ad) by (rewrite <- E; exact CD). clear Heqad CD.
    destruct ad as [|[n x] l]; [inversion CD2|]. inversion CD2 as [|x0 y0 l0 l1 F12 F3 E1 E2]. destruct F12 as [F1 F2]. cbn [fst] in F1. rewrite F1, NS. unfold dmem. cbn [dget]. rewrite String.eqb_refl. cbn [ddel]. rewrite String.eqb_refl.
    exists l. split; auto. eapply Forall2_ext_in; [|exact F3]. intros p y Hp [Y1 Y2]. split; auto. rewrite <- Y2. eapply denotes_swap; eauto.
  - right. split; auto. intros AC. apply NA. eapply accepted_swap; eauto.
Qed.

(** * Ports *)
Context (sg : signature) (none : V) (path : string) (order_of : nat -> order) (o : option order).
Notation setup args kw := (call_setup sg none path args kw order_of o).
Definition put_all (p : port (msg V)) (ms : list (msg V)) : port (msg V) := fold_left (fun p m => fst (port_put p m)) ms p.
Lemma put_all_app p a b : put_all p (a ++ b) = put_all (put_all p a) b.
Proof. apply fold_left_app. Qed.
Lemma drive_aports_ok args kw d l : bound sg none args kw = Ok d -> forall P, exists P', drive_aports sg none path args kw l P = (Ok tt, P') /\ forall q, P' q = put_all (P q) (map (fun _ => Tagged path d) (filter (Nat.eqb q) l)).
Proof.
  intros B. induction l as [|x l IH]; intros P; cbn [drive_aports]; [exists P; auto|]. rewrite B. destruct (IH (deliver P x (Tagged path d))) as [P' [-> H]]. exists P'. split; auto. intros q. rewrite H. unfold deliver. cbn [filter]. destruct (Nat.eqb_spec q x) as [->|]; reflexivity.
Qed.
Lemma drive_ports_ok args kw d i : bound sg none args kw = Ok d -> forall P, exists P', drive_ports sg none path args kw i P = (Ok tt, P') /\ forall q, P' q = put_all (P q) (expected path d q [i]).
Proof.
  intros B P. unfold drive_ports. destruct (drive_aports_ok args kw d (i_aports i) B P) as [P1 [-> H]]. unfold expected. cbn [flat_map]. destruct (i_dport i) as [x|].
  - rewrite B. eexists. split; [reflexivity|]. intros q. unfold deliver. rewrite app_nil_r, put_all_app. destruct (Nat.eqb_spec q x) as [->|]; rewrite <- H; reflexivity.
  - exists P1. split; auto. intros q. rewrite !app_nil_r. auto.
Qed.
Lemma expected_cons (d : dict pv) q i l : expected path d q (i :: l) = expected path d q [i] ++ expected path d q l.
Proof. unfold expected. cbn [flat_map]. now rewrite app_nil_r. Qed.
Lemma expected_none (d : dict pv) q i : has_port i = false -> expected path d q [i] = [].
Proof. unfold has_port, expected. cbn [flat_map]. destruct (i_dport i); [discriminate|]. destruct (i_aports i); [reflexivity|discriminate]. Qed.
Lemma prepare_split args kw i t pl P : prepare sg none path args kw order_of o (i :: t) pl P =
  if has_port i then match drive_ports sg none path args kw i P with (Ok _, P1) => prepare sg none path args kw order_of o t pl P1 | (Exn e, P1) => (Exn e, P1) end
  else prepare sg none path args kw order_of o t (fold_left (add_a order_of o) (i_ahooks i) (match i_dhook i with Some h => add_d order_of o pl h | None => pl end)) P.
Proof. cbn [prepare]. unfold has_port. destruct (i_dport i); auto. destruct (i_aports i); auto. Qed.
Lemma prepare_ports args kw d l : bound sg none args kw = Ok d -> forall pl P, exists pl' P', prepare sg none path args kw order_of o l pl P = (Ok pl', P') /\ forall q, P' q = put_all (P q) (expected path d q l).
Proof.
  intros B. induction l as [|i t IH]; intros pl P; [exists pl, P; auto|]. rewrite prepare_split. destruct (has_port i) eqn:HP.
  - destruct (drive_ports_ok args kw d i B P) as [P1 [-> H1]]. destruct (IH pl P1) as [pl' [P' [-> H]]]. exists pl', P'. split; auto. intros q. rewrite H, H1, (expected_cons d q i t), put_all_app. reflexivity.
  - destruct (IH (fold_left (add_a order_of o) (i_ahooks i) (match i_dhook i with Some h => add_d order_of o pl h | None => pl end)) P) as [pl' [P' [-> H]]]. exists pl', P'. split; auto. intros q. rewrite H, (expected_cons d q i t), (expected_none d q i HP). reflexivity.
Qed.
Lemma prepare_fails args kw e l : bound sg none args kw = Exn e -> forall pl P, existsb has_port l = true -> prepare sg none path args kw order_of o l pl P = (Exn e, P).
Proof.
  intros B. induction l as [|i t IH]; intros pl P H; [discriminate|]. rewrite prepare_split. cbn [existsb] in H. destruct (has_port i) eqn:HP; [|apply IH; exact H].
  unfold drive_ports. unfold has_port in HP. destruct (i_aports i) as [|x l] eqn:A; cbn [drive_aports]; rewrite ?B; auto. destruct (i_dport i); [reflexivity|discriminate].
Qed.
Lemma put_all_room p ms : (p_maxsize p = -1 \/ Z.of_nat (List.length (p_items p) + List.length ms) <= p_maxsize p)%Z -> p_items (put_all p ms) = p_items p ++ ms.
Proof.
  revert p. induction ms as [|m ms IH]; intros p H; cbn; [now rewrite app_nil_r|]. unfold port_put. cbn [List.length] in H.
  destruct ((p_maxsize p <=? Z.of_nat (List.length (p_items p)))%Z && negb (p_maxsize p =? -1)%Z) eqn:F.
  - exfalso. apply andb_true_iff in F as [F1 F2]. apply Z.leb_le in F1. apply negb_true_iff, Z.eqb_neq in F2. destruct H; [contradiction|lia].
  - cbn [fst]. change (fold_left _ ms ?x) with (put_all x ms). rewrite IH; [cbn [p_items]; now rewrite <- app_assoc|]. cbn [p_maxsize p_items]. rewrite app_length. cbn [List.length]. destruct H; [now left|right; lia].
Qed.

(** For every set of attached models: the call offers to every port exactly the messages for it (for every model in order: the path with the dictionary
    of the arguments if it is an agent port; the bare value of the only parameter, or the dictionary, if it is the driver port), and with room
    for them the port then contains them after what it contained before; a port that is not one of the method's is not touched. If Python does not
    accept the call, TypeError is raised before anything is delivered (if there is a port at all). *)
Theorem C32_ports agent args kw l P : method_sig sg -> proper_kw sg kw ->
  (exists d pl P', accepted_call sg (agent :: args) kw /\ args_dict sg none args kw = Ok d /\ setup args kw l P = (Ok pl, P') /\
     forall q, (p_maxsize (P q) = -1 \/ Z.of_nat (List.length (p_items (P q)) + List.length (expected path d q l)) <= p_maxsize (P q))%Z -> p_items (P' q) = p_items (P q) ++ expected path d q l) \/
  (~ accepted_call sg (agent :: args) kw /\ (existsb has_port l = true -> setup args kw l P = (Exn TypeError, P))).
Proof.
  intros MS PK. destruct (C32_arguments sg none agent args kw MS PK) as [[AC [d [E _]]]|[NA E]].
  - left. destruct (prepare_ports args kw d l E (mk_plan [] [] []) P) as [pl [P' [H1 H2]]]. exists d, pl, P'. split; auto. split; auto. split; auto. intros q Hq. rewrite H2. now apply put_all_room.
  - right. split; auto. intros H. now apply prepare_fails.
Qed.

(** * Hooks *)
Notation firsts := (fun h : hook => model_first order_of o (num h)).
Lemma model_first_goes h : model_first order_of o (num h) = true <-> goes_first order_of o h.
Proof. unfold model_first, goes_first. destruct o as [[]|]; [split; auto|split; discriminate|]. destruct (order_of (num h)); split; auto; discriminate. Qed.
Definition keeps (pl pl' : plan) (l : list hook) : Prop :=
  first pl' = first pl ++ filter firsts l /\
  later_d pl' = later_d pl ++ map num (filter (fun h => negb (firsts h) && is_d h) l) /\
  later_a pl' = later_a pl ++ map num (filter (fun h => negb (firsts h) && negb (is_d h)) l).
Lemma keeps_nil pl : keeps pl pl []. Proof. unfold keeps. cbn. rewrite !app_nil_r. auto. Qed.
Lemma keeps_app pl pl1 pl2 a b : keeps pl pl1 a -> keeps pl1 pl2 b -> keeps pl pl2 (a ++ b).
Proof. intros [A [B C]] [D [E F]]. unfold keeps. rewrite D, E, F, A, B, C, !filter_app, !map_app, !app_assoc. auto. Qed.
Lemma keeps_d pl h : keeps pl (add_d order_of o pl h) [HD h].
Proof. unfold keeps, add_d. cbn [filter num is_d]. destruct (model_first order_of o h); cbn; rewrite ?app_nil_r; auto. Qed.
Lemma keeps_a pl h : keeps pl (add_a order_of o pl h) [HA h].
Proof. unfold keeps, add_a. cbn [filter num is_d]. destruct (model_first order_of o h); cbn; rewrite ?app_nil_r; auto. Qed.
Lemma keeps_as l : forall pl, keeps pl (fold_left (add_a order_of o) l pl) (map HA l).
Proof. induction l as [|h l IH]; intros pl; [apply keeps_nil|]. cbn [fold_left map]. change (HA h :: map HA l) with ([HA h] ++ map HA l). eapply keeps_app; [apply keeps_a|apply IH]. Qed.
Lemma prepare_hooks args kw l : forall pl P pl' P', prepare sg none path args kw order_of o l pl P = (Ok pl', P') -> keeps pl pl' (flat_map hooks_of l).
Proof.
  induction l as [|i t IH]; intros pl P pl' P' H; [injection H as -> ->; apply keeps_nil|]. rewrite prepare_split in H. cbn [flat_map]. unfold hooks_of at 1. destruct (has_port i).
  - destruct (drive_ports sg none path args kw i P) as [[u|e] P1]; [|discriminate]. eapply IH; eauto.
  - eapply keeps_app; [|eapply IH; eauto]. eapply keeps_app; [|apply keeps_as]. destruct (i_dhook i); [apply keeps_d|apply keeps_nil].
Qed.
(** The hooks of the call are those of the models without a port for the method, each exactly once: [first] are the ones that go first (by the
    order given for the call, otherwise their own), model after model, [later] the others, driver hooks before agent hooks. *)
Theorem C32_hooks args kw l P pl P' : setup args kw l P = (Ok pl, P') -> exists b : hook -> bool, (forall h, b h = true <-> goes_first order_of o h) /\
  first pl = filter b (flat_map hooks_of l) /\
  later pl = filter (fun h => negb (b h) && is_d h) (flat_map hooks_of l) ++ filter (fun h => negb (b h) && negb (is_d h)) (flat_map hooks_of l).
Proof.
  intros H. exists firsts. split; [intros h; apply model_first_goes|]. apply prepare_hooks in H as [A [B C]]. cbn [first later_d later_a app] in A, B, C. split; auto. unfold later. rewrite B, C. clear.
  assert (X : forall l : list hook, map HD (map num (filter (fun h => negb (firsts h) && is_d h) l)) = filter (fun h => negb (firsts h) && is_d h) l).
  { clear. intros l. induction l as [|[h|h] l IH]; cbn; auto; destruct (model_first order_of o h); cbn; congruence. }
  assert (Y : forall l : list hook, map HA (map num (filter (fun h => negb (firsts h) && negb (is_d h)) l)) = filter (fun h => negb (firsts h) && negb (is_d h)) l).
  { clear. intros l. induction l as [|[h|h] l IH]; cbn; auto; destruct (model_first order_of o h); cbn; congruence. }
  now rewrite X, Y.
Qed.

(** What the hooks of a call are called with: a driver hook with the positional and keyword arguments of the call as they are, an agent hook with the path of
    the method and the dictionary of the values of its parameters; if Python does not accept the call, making this dictionary raises TypeError. *)
Theorem C32_received agent args kw h : method_sig sg -> proper_kw sg kw ->
  (is_d h = true /\ receives sg none path args kw h = Raw args kw) \/
  (is_d h = false /\ accepted_call sg (agent :: args) kw /\ exists d, receives sg none path args kw h = Path path (Ok d) /\ Forall2 (fun p x => fst x = p_name p /\ denotes sg (agent :: args) kw p = Some (snd x)) (tl sg) d) \/
  (is_d h = false /\ ~ accepted_call sg (agent :: args) kw /\ receives sg none path args kw h = Path path (Exn TypeError)).
Proof.
  intros MS PK. destruct h as [h|h]; [left; split; reflexivity|right]. cbn [receives is_d]. unfold bound. destruct (C32_arguments sg none agent args kw MS PK) as [[AC [d [-> F]]]|[NA ->]]; [left|right]; eauto 10.
Qed.

(** * Comparisons *)
(** The results that are not None are compared with the DUT result in the order of the list, up to and including the first that does not agree; then
    AssertionError is raised (or what == raised); if all agree no exception is raised; nothing is compared with None. *)
Theorem C30_comparisons (eq : V -> V -> res bool) dut results :
  (Forall (agrees eq dut) (given results) /\ compare_all eq dut results = (given results, Ok tt)) \/
  (exists a x b, given results = a ++ x :: b /\ Forall (agrees eq dut) a /\ ~ agrees eq dut x /\
     compare_all eq dut results = (a ++ [x], Exn (match eq dut (snd x) with Exn e => e | Ok _ => AssertionError end))).
Proof.
  induction results as [|[h [v|]] t IH]; cbn [compare_all given flat_map]; [left; split; [constructor|reflexivity]| |exact IH].
  cbn [snd fst app]. fold (given t). unfold compare_once. destruct (eq dut v) as [[]|e] eqn:E.
  - destruct IH as [[A ->]|[a [x [b [A [B [C ->]]]]]]].
    + left. split; auto.
    + right. exists ((h, v) :: a), x, b. rewrite A. split; [reflexivity|]. split; [constructor; [exact E|exact B]|]. split; [exact C|reflexivity].
  - right. exists [], (h, v), (given t). split; auto. split; [constructor|]. split; [unfold agrees; cbn; congruence|]. cbn [snd app]. now rewrite E.
  - right. exists [], (h, v), (given t). split; auto. split; [constructor|]. split; [unfold agrees; cbn; congruence|]. cbn [snd app]. now rewrite E.
Qed.
End Thms.
Print Assumptions C32_arguments.
Print Assumptions C32_ports.
Print Assumptions C32_hooks.
Print Assumptions C32_received.
Print Assumptions C30_comparisons.

(** async def f(self, a, b=2, *rest, c, d=4, **more), called as f(agent, 1, c=3, x=5). *)
Definition ex_sig : signature nat := [mk_param "self" PosKw None; mk_param "a" PosKw None; mk_param "b" PosKw (Some 2); mk_param "rest" VarPos None; mk_param "c" KwOnly None; mk_param "d" KwOnly (Some 4); mk_param "more" VarKw None].
Ltac dist := repeat constructor; cbn; intuition discriminate.
Lemma ex_method : method_sig ex_sig.
Proof.
  split; [|exists (mk_param "self" PosKw None), (tl ex_sig); split; [reflexivity|auto]]. exists [], (firstn 3 ex_sig), [nth 3 ex_sig (mk_param "" PosKw None)], (firstn 2 (skipn 4 ex_sig)), (skipn 6 ex_sig).
  split; [reflexivity|]. do 5 (split; [repeat constructor|]). split; [cbn; lia|]. split; [cbn; lia|]. split; [repeat constructor|]. cbn. dist.
Qed.
Definition ex_kw : dict nat := [("c", 3); ("x", 5)].
Lemma ex_proper_kw : proper_kw ex_sig ex_kw.
Proof. split; [cbn; dist|]. intros p Hp K. cbn in Hp. intuition subst; discriminate. Qed.
Definition ex_dict : dict (pv nat) := [("a", One 1); ("b", One 2); ("rest", Tup []); ("c", One 3); ("d", One 4); ("more", Dct [("x", 5)])].
Example C32_ex : method_sig ex_sig /\ proper_kw ex_sig ex_kw /\ accepted_call ex_sig [9; 1] ex_kw /\ args_dict ex_sig 0 [1] ex_kw = Ok ex_dict.
Proof.
  split; [apply ex_method|]. split; [apply ex_proper_kw|]. split; [|reflexivity]. split; [right; reflexivity|]. split; [|split].
  - intros p Hp K. cbn in Hp. intuition subst; cbn in *; try discriminate; intuition discriminate.
  - intros p Hp. cbn in Hp. intuition subst; discriminate.
  - intros k Hk. right. reflexivity.
Qed.
(** An agent port 0 and a driver port 1 in the first model, a hook in the second, another driver port in the third. *)
Definition ex_infos : list minfo := [mk_minfo [7] [0] (Some 8) (Some 1); mk_minfo [5] [] (Some 6) None; mk_minfo [] [] None (Some 2)].
Definition ex_ports : @ports nat := fun _ => mk_port 4 [].
Example C32_ex_setup : exists pl P', call_setup ex_sig 0 "a.f" [1] ex_kw (fun h => if Nat.eqb h 5 then DutFirst else ModelFirst) None ex_infos ex_ports = (Ok pl, P') /\
  p_items (P' 0) = [Tagged "a.f" ex_dict] /\ p_items (P' 1) = [Named ex_dict] /\ p_items (P' 2) = [Named ex_dict] /\ first pl = [HD 6] /\ later pl = [HA 5].
Proof. eexists _, _. split; [reflexivity|]. repeat split; reflexivity. Qed.
(** One parameter: the bare value; the wrong number of arguments: TypeError and nothing delivered. *)
Definition ex_one : signature nat := [mk_param "self" PosKw None; mk_param "a" PosKw None].
Example C32_ex_one : p_items (snd (call_setup ex_one 0 "a.g" [7] [] (fun _ => ModelFirst) None ex_infos ex_ports) 1) = [Bare (One 7)] /\
  call_setup ex_one 0 "a.g" [7; 8] [] (fun _ => ModelFirst) None ex_infos ex_ports = (Exn TypeError, ex_ports) /\ ~ accepted_call ex_one [9; 7; 8] [].
Proof. split; [reflexivity|]. split; [reflexivity|]. intros [[X|X] _]; cbn in X; [lia|discriminate]. Qed.
Example C30_ex : compare_all (fun a b => Ok (Nat.eqb a b)) 3 [(HD 1, Some 3); (HA 2, None); (HA 4, Some 3); (HA 5, Some 4); (HD 6, Some 3)] = ([(HD 1, 3); (HA 4, 3); (HA 5, 4)], Exn AssertionError).
Proof. reflexivity. Qed.
(** The two hooks of [C32_ex_setup]. *)
Example C32_received_ex : receives ex_sig 0 "a.f" [1] ex_kw (HD 6) = Raw [1] ex_kw /\ receives ex_sig 0 "a.f" [1] ex_kw (HA 5) = Path "a.f" (Ok ex_dict).
Proof. split; reflexivity. Qed.
