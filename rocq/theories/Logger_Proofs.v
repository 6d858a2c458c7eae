(** Lemmas about the logger. *)
From Coq Require Import List String ZArith Bool Lia.
From Verif Require Import Py Dict_Proofs Logger_Model.
Import ListNotations.
Open Scope list_scope.

(** number of elements of a list with a property *)
Definition count {A} (f : A -> bool) (l : list A) : nat := List.length (filter f l).
(** a counter dictionary read with default 0 *)
Definition cnt (d : dict nat) (k : string) : nat := match dget d k with Some n => n | None => 0 end.
(** the id a record is counted under *)
Definition id_key (r : record) : string :=
  match r_id r with None => "default_id" | Some "" => "default" | Some x => x end%string.

Lemma bump_cnt d k k' : cnt (bump d k) k' = (cnt d k' + if String.eqb k k' then 1 else 0)%nat.
Proof.
  unfold cnt, bump. destruct (String.eqb_spec k k') as [->|Hne].
  - destruct (dget d k') as [n|] eqn:E; rewrite dget_set_same; lia.
  - destruct (dget d k); rewrite dget_set_other by congruence; lia.
Qed.

Lemma emit_cnt s r k :
  cnt (s_sev (emit_stats s r)) k = (cnt (s_sev s) k + if String.eqb (r_levelname r) k then 1 else 0)%nat /\
  cnt (s_id (emit_stats s r)) k = (cnt (s_id s) k + if String.eqb (id_key r) k then 1 else 0)%nat.
Proof.
  unfold emit_stats. cbn [s_sev s_id]. rewrite !bump_cnt. split; [reflexivity|]. do 2 f_equal.
  unfold id_key. destruct (r_id r) as [[|c x]|]; reflexivity.
Qed.

Fixpoint nfmt (hs : list handler) (lvl : Z) : nat :=
  match hs with [] => 0 | HStats :: t => nfmt t lvl | HFormat l :: t => (if Z.leb l lvl then 1 else 0) + nfmt t lvl end.

(** [k]-fold rendering of an id *)
Definition render (x : option string) : string :=
  match x with None => "" | Some x => if String.eqb x "" then "" else "(id: " ++ x ++ ")" end%string.

Fixpoint renders (n : nat) (x : option string) : list string :=
  match n with O => [] | S m => render x :: renders m (Some (render x)) end.

Lemma call_handlers_fmt hs : forall s r, (forall h, In h hs -> h <> HStats) ->
  call_handlers hs s r = (s, renders (nfmt hs (r_level r)) (r_id r)).
Proof.
  induction hs as [|[|l] hs IH]; intros s r H; [reflexivity|exfalso; apply (H HStats); [left; reflexivity|reflexivity]|].
  cbn [call_handlers nfmt]. assert (forall h, In h hs -> h <> HStats) as H' by (intros h Hh; apply H; right; exact Hh).
  destruct (Z.leb l (r_level r)).
  - cbn [format]. rewrite IH by exact H'. cbn [r_level r_id]. reflexivity.
  - rewrite IH by exact H'. reflexivity.
Qed.

Lemma setup_one level console file s r :
  log_one (setup_logging level console file) s r =
  if Z.leb level (r_level r)
  then (emit_stats s r, renders ((if console then 1 else 0) + (if file then 1 else 0)) (r_id r))
  else (s, []).
Proof.
  unfold log_one, setup_logging. cbn [fst snd]. destruct (Z.leb level (r_level r)) eqn:El; [|reflexivity].
  cbn [call_handlers]. rewrite call_handlers_fmt.
  - f_equal. f_equal. destruct console, file; cbn [app nfmt]; rewrite ?El; reflexivity.
  - intros h Hh. destruct console, file; cbn in Hh; intuition; subst; discriminate.
Qed.

Lemma log_all_counts level console file k : forall rs s,
  let s' := fst (log_all (setup_logging level console file) s rs) in
  cnt (s_sev s') k = (cnt (s_sev s) k + count (fun r => Z.leb level (r_level r) && String.eqb (r_levelname r) k) rs)%nat /\
  cnt (s_id s') k = (cnt (s_id s) k + count (fun r => Z.leb level (r_level r) && String.eqb (id_key r) k) rs)%nat.
Proof.
  cbv zeta. induction rs as [|r rs IH]; intros s; [cbn; lia|].
  cbn [log_all]. rewrite setup_one.
  destruct (Z.leb level (r_level r)) eqn:El.
  - specialize (IH (emit_stats s r)). destruct (log_all _ (emit_stats s r) rs) as [s2 os]. cbn [fst] in *.
    destruct (emit_cnt s r k) as [E1 E2]. destruct IH as [I1 I2]. rewrite I1, I2, E1, E2.
    unfold count. cbn [filter]. rewrite El. cbn [andb].
    destruct (String.eqb (r_levelname r) k), (String.eqb (id_key r) k); cbn [List.length]; lia.
  - specialize (IH s). destruct (log_all _ s rs) as [s2 os]. cbn [fst] in *.
    unfold count in *. cbn [filter]. rewrite El. cbn [andb]. exact IH.
Qed.

(** the total over all severities *)
Fixpoint total (d : dict nat) : nat := match d with [] => 0 | (_, n) :: t => n + total t end.

Lemma total_dset d k : total (bump d k) = S (total d).
Proof.
  assert (forall d v n, dget d k = Some n -> total (dset d k v) + n = total d + v)%nat as Hs.
  { clear d. induction d as [|[k' v'] d IH]; intros v n H; cbn in *; [discriminate|].
    destruct (String.eqb k k'); cbn; [injection H as <-; lia|]. specialize (IH v n H). lia. }
  assert (forall d v, dget d k = None -> total (dset d k v) = total d + v)%nat as Hn.
  { clear. induction d as [|[k' v'] d IH]; intros v H; cbn in *; [lia|].
    destruct (String.eqb k k'); [discriminate|]. cbn. rewrite IH by exact H. lia. }
  unfold bump. destruct (dget d k) as [n|] eqn:E; [specialize (Hs d (S n) n E); lia|rewrite (Hn d 1%nat E); lia].
Qed.

Lemma log_all_total level console file : forall rs s,
  let s' := fst (log_all (setup_logging level console file) s rs) in
  total (s_sev s') = (total (s_sev s) + count (fun r => Z.leb level (r_level r)) rs)%nat /\
  total (s_id s') = (total (s_id s) + count (fun r => Z.leb level (r_level r)) rs)%nat.
Proof.
  cbv zeta. induction rs as [|r rs IH]; intros s; [cbn; lia|].
  cbn [log_all]. rewrite setup_one. unfold count. cbn [filter].
  destruct (Z.leb level (r_level r)) eqn:El.
  - specialize (IH (emit_stats s r)). destruct (log_all _ (emit_stats s r) rs) as [s2 os]. cbn [fst List.length] in *.
    unfold count in IH. destruct IH as [I1 I2]. rewrite I1, I2. unfold emit_stats. cbn [s_sev s_id].
    rewrite !total_dset. lia.
  - specialize (IH s). destruct (log_all _ s rs) as [s2 os]. cbn [fst] in *. exact IH.
Qed.

(** what is rendered *)
Lemma render_once level console file s r x : r_id r = Some x -> x <> ""%string -> (level <= r_level r)%Z ->
  console && file = false ->
  snd (log_one (setup_logging level console file) s r) =
  if console || file then ["(id: " ++ x ++ ")"]%string else [].
Proof.
  intros Hr Hx Hl Hc. rewrite setup_one. apply Z.leb_le in Hl. rewrite Hl. cbn [snd]. rewrite Hr.
  apply String.eqb_neq in Hx. destruct console, file; try discriminate; cbn [Nat.add renders render orb]; rewrite ?Hx; reflexivity.
Qed.

Lemma app_str_assoc a b c : ((a ++ b) ++ c = a ++ (b ++ c))%string.
Proof. induction a as [|x a IH]; cbn; [reflexivity|]. rewrite IH. reflexivity. Qed.

Lemma render_twice level s r x : r_id r = Some x -> x <> ""%string -> (level <= r_level r)%Z ->
  snd (log_one (setup_logging level true true) s r) = ["(id: " ++ x ++ ")"; "(id: (id: " ++ x ++ "))"]%string.
Proof.
  intros Hr Hx Hl. rewrite setup_one. apply Z.leb_le in Hl. rewrite Hl. cbn [snd]. rewrite Hr.
  apply String.eqb_neq in Hx. cbn [Nat.add renders render]. rewrite Hx. cbn. rewrite app_str_assoc. reflexivity.
Qed.

Lemma render_noid level console file s r : r_id r = None \/ r_id r = Some ""%string -> 
  Forall (fun t => t = ""%string) (snd (log_one (setup_logging level console file) s r)).
Proof.
  intros Hr. rewrite setup_one. destruct (Z.leb level (r_level r)); cbn [snd]; [|constructor].
  destruct Hr as [-> | ->]; destruct console, file; cbn; repeat constructor.
Qed.
