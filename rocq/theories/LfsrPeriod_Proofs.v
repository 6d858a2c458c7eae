(** The LFSR step is linear over GF(2) and its order on every non-zero state is 2^64 - 1. *)
From Coq Require Import ZArith List Bool Lia Znumtheory Permutation.
From Verif Require Import Lfsr_Model Lfsr_Proofs.
Import ListNotations.
Open Scope Z_scope.

(** ** Matrices over GF(2): list of columns, bit i of the argument selects column i *)
Fixpoint mapply (M : list Z) (s : Z) : Z :=
  match M with
  | [] => 0
  | c :: M' => Z.lxor (if Z.odd s then c else 0) (mapply M' (Z.div2 s))
  end.

Lemma odd_lxor a b : Z.odd (Z.lxor a b) = xorb (Z.odd a) (Z.odd b).
Proof. rewrite <- !Z.bit0_odd. apply Z.lxor_spec. Qed.

Lemma div2_lxor a b : Z.div2 (Z.lxor a b) = Z.lxor (Z.div2 a) (Z.div2 b).
Proof. rewrite !Z.div2_spec. apply Z.shiftr_lxor. Qed.

Lemma lxor_swap a b c d : Z.lxor (Z.lxor a b) (Z.lxor c d) = Z.lxor (Z.lxor a c) (Z.lxor b d).
Proof. rewrite !Z.lxor_assoc. f_equal. rewrite <- !Z.lxor_assoc. f_equal. apply Z.lxor_comm. Qed.

Lemma mapply_lxor M : forall a b, mapply M (Z.lxor a b) = Z.lxor (mapply M a) (mapply M b).
Proof.
  induction M as [|c M IH]; intros a b; cbn [mapply]; [reflexivity|].
  rewrite odd_lxor, div2_lxor, IH.
  rewrite (lxor_swap (if Z.odd a then c else 0)). f_equal.
  destruct (Z.odd a), (Z.odd b); cbn [xorb]; rewrite ?Z.lxor_nilpotent, ?Z.lxor_0_l, ?Z.lxor_0_r; reflexivity.
Qed.

Lemma mapply_0 M : mapply M 0 = 0.
Proof. induction M as [|c M IH]; cbn; [reflexivity|]. exact IH. Qed.

Definition mmul (A B : list Z) : list Z := map (mapply A) B.

Lemma mmul_apply A B : forall s, mapply (mmul A B) s = mapply A (mapply B s).
Proof.
  induction B as [|c B IH]; intros s; cbn [mmul map mapply]; [symmetry; apply mapply_0|].
  rewrite mapply_lxor. fold (mmul A B). rewrite IH. f_equal.
  destruct (Z.odd s); [reflexivity|]. symmetry; apply mapply_0.
Qed.

(** columns of a linear map *)
Fixpoint powers (k : Z) (n : nat) : list Z :=
  match n with O => [] | S n' => 2 ^ k :: powers (k + 1) n' end.

Lemma linear_columns (f : Z -> Z) : f 0 = 0 -> 
  (forall a b, 0 <= a -> 0 <= b -> f (Z.lxor a b) = Z.lxor (f a) (f b)) ->
  forall n k s, 0 <= k -> 0 <= s < 2 ^ Z.of_nat n -> mapply (map f (powers k n)) s = f (s * 2 ^ k).
Proof.
  intros F0 FL. induction n as [|n IH]; intros k s Hk Hs.
  - cbn in Hs. assert (s = 0) as -> by lia. cbn. auto.
  - cbn [powers map mapply].
    rewrite Nat2Z.inj_succ, Z.pow_succ_r in Hs by lia.
    pose proof (Z.div2_odd s) as Hd.
    assert (0 <= Z.div2 s) as Hd0 by (apply Z.div2_nonneg; lia).
    rewrite IH; [|lia|destruct (Z.odd s); cbn [Z.b2z] in Hd; lia].
    assert (s * 2 ^ k = Z.lxor (if Z.odd s then 2 ^ k else 0) (Z.div2 s * 2 ^ (k + 1))) as E.
    { apply Z.bits_inj'. intros i Hi. rewrite Z.lxor_spec.
      rewrite !Z.mul_pow2_bits by lia.
      rewrite Z.div2_spec.
      assert (Z.testbit (if Z.odd s then 2 ^ k else 0) i = (Z.odd s && (i =? k))) as ->.
      { destruct (Z.odd s); [|apply Z.bits_0].
        destruct (Z.eqb_spec i k) as [->|]; [apply Z.pow2_bits_true; lia|apply Z.pow2_bits_false; lia]. }
      destruct (Z.eqb_spec i k) as [->|Hne].
      - rewrite Z.sub_diag, Z.bit0_odd. rewrite Z.testbit_neg_r with (n := k - (k + 1)) by lia.
        rewrite andb_true_r, xorb_false_r. reflexivity.
      - rewrite andb_false_r, xorb_false_l.
        destruct (Z.ltb_spec i k).
        + rewrite !Z.testbit_neg_r by lia. reflexivity.
        + rewrite Z.shiftr_spec by lia. f_equal. lia. }
    rewrite E, FL.
    + f_equal. destruct (Z.odd s); [reflexivity|symmetry; exact F0].
    + destruct (Z.odd s); [apply Z.pow_nonneg; lia|lia].
    + apply Z.mul_nonneg_nonneg; [lia|apply Z.pow_nonneg; lia].
Qed.

(** ** The step function *)
Definition lstep (s : Z) : Z := Z.lxor (Z.shiftr s 1) (Z.shiftl (Z.b2z (fb s)) 63).

Lemma lstep_step s : 0 <= s < 2 ^ 64 -> lfsr_step s = lstep s.
Proof.
  intros Hs. rewrite step_unfold. unfold lstep.
  apply Z.bits_inj'. intros i Hi. rewrite Z.lor_spec, Z.lxor_spec.
  rewrite Z.shiftr_spec, Z.shiftl_spec by lia.
  destruct (Z.ltb_spec i 63).
  - rewrite (Z.testbit_neg_r _ (i - 63)) by lia. rewrite orb_false_r, xorb_false_r. reflexivity.
  - rewrite (testbit_high s (i + 1)) by lia. rewrite orb_false_l, xorb_false_l. reflexivity.
Qed.

Lemma fb_lxor a b : fb (Z.lxor a b) = xorb (fb a) (fb b).
Proof.
  unfold fb. rewrite !Z.lxor_spec.
  destruct (Z.testbit a 0), (Z.testbit a 1), (Z.testbit a 3), (Z.testbit a 4),
    (Z.testbit b 0), (Z.testbit b 1), (Z.testbit b 3), (Z.testbit b 4); reflexivity.
Qed.

Lemma lstep_lxor a b : lstep (Z.lxor a b) = Z.lxor (lstep a) (lstep b).
Proof.
  unfold lstep. rewrite fb_lxor, <- lxor_b2z, Z.shiftr_lxor, Z.shiftl_lxor. apply lxor_swap.
Qed.

Definition Mstep : list Z := Eval vm_compute in map lstep (powers 0 64).
Definition Mid : list Z := Eval vm_compute in powers 0 64.

Lemma Mstep_apply s : 0 <= s < 2 ^ 64 -> mapply Mstep s = lfsr_step s.
Proof.
  intros Hs. rewrite lstep_step by exact Hs.
  change Mstep with (map lstep (powers 0 64)).
  rewrite (linear_columns lstep eq_refl (fun a b _ _ => lstep_lxor a b)) by (auto; lia).
  rewrite Z.mul_1_r. reflexivity.
Qed.

Lemma Mid_apply s : 0 <= s < 2 ^ 64 -> mapply Mid s = s.
Proof.
  intros Hs. change Mid with (powers 0 64). rewrite <- (map_id (powers 0 64)).
  rewrite (linear_columns (fun x => x) eq_refl (fun a b _ _ => eq_refl)) by (auto; lia).
  rewrite Z.mul_1_r. reflexivity.
Qed.

(** ** Powers *)
Fixpoint mpow (M : list Z) (p : positive) : list Z :=
  match p with
  | xH => M
  | xO q => let R := mpow M q in mmul R R
  | xI q => let R := mpow M q in mmul M (mmul R R)
  end.

Lemma mpow_apply M p : forall s, mapply (mpow M p) s = Pos.iter (mapply M) s p.
Proof.
  induction p as [p IH|p IH|]; intros s; cbn [mpow Pos.iter]; rewrite ?mmul_apply, ?IH; reflexivity.
Qed.

Lemma pos_iter_nat {A} (f : A -> A) p x : Pos.iter f x p = Nat.iter (Pos.to_nat p) f x.
Proof. rewrite Pos2Nat.inj_iter. reflexivity. Qed.

Lemma iter_S {A} n (f : A -> A) x : Nat.iter (S n) f x = f (Nat.iter n f x).
Proof. reflexivity. Qed.

Lemma iter_succ_r {A} n (f : A -> A) x : Nat.iter (S n) f x = Nat.iter n f (f x).
Proof. induction n as [|n IH]; [reflexivity|]. rewrite iter_S, IH. reflexivity. Qed.

Lemma iter_Mstep n s : 0 <= s < 2 ^ 64 -> Nat.iter n (mapply Mstep) s = Nat.iter n lfsr_step s.
Proof.
  intros Hs. induction n as [|n IH]; [reflexivity|].
  rewrite !iter_S, IH. apply Mstep_apply. apply iter_range. exact Hs.
Qed.

Lemma mpow_step p s : 0 <= s < 2 ^ 64 -> mapply (mpow Mstep p) s = Nat.iter (Pos.to_nat p) lfsr_step s.
Proof. intros Hs. rewrite mpow_apply, pos_iter_nat. apply iter_Mstep. exact Hs. Qed.

Definition Pfull : positive := 18446744073709551615.

Lemma mpow_full : mpow Mstep Pfull = Mid.
Proof. vm_compute. reflexivity. Qed.

Fixpoint madd (A B : list Z) : list Z :=
  match A, B with a :: A', b :: B' => Z.lxor a b :: madd A' B' | _, _ => [] end.

Lemma madd_apply A : forall B s, length A = length B -> mapply (madd A B) s = Z.lxor (mapply A s) (mapply B s).
Proof.
  induction A as [|a A IH]; intros [|b B] s Hl; cbn in Hl; try lia; cbn [madd mapply]; [reflexivity|].
  rewrite IH by lia. rewrite (lxor_swap (if Z.odd s then a else 0)). f_equal.
  destruct (Z.odd s); [reflexivity|reflexivity].
Qed.

Fixpoint leqb (a b : list Z) : bool :=
  match a, b with
  | [], [] => true
  | x :: a', y :: b' => (x =? y) && leqb a' b'
  | _, _ => false
  end.
Lemma leqb_eq a : forall b, leqb a b = true -> a = b.
Proof.
  induction a as [|x a IH]; intros [|y b] H; cbn in H; try discriminate; [reflexivity|].
  apply andb_prop in H as [H1 H2]. apply Z.eqb_eq in H1. f_equal; auto.
Qed.

(** (M^e + I)^(2^64-1) = I: M^e + I is invertible, hence M^e fixes only 0. *)
Definition no_fix (e : positive) : bool :=
  let Me := mpow Mstep e in
  (length Me =? 64)%nat && leqb (mpow (madd Me Mid) Pfull) Mid.

Lemma no_fix_sound e s : no_fix e = true -> 0 <= s < 2 ^ 64 ->
  Nat.iter (Pos.to_nat e) lfsr_step s = s -> s = 0.
Proof.
  intros H Hs Hfix. unfold no_fix in H. apply andb_prop in H as [Hl He].
  apply Nat.eqb_eq in Hl. apply leqb_eq in He.
  rewrite <- mpow_step in Hfix by exact Hs.
  assert (mapply (madd (mpow Mstep e) Mid) s = 0) as Hz.
  { rewrite madd_apply by (rewrite Hl; reflexivity). rewrite Hfix, Mid_apply by exact Hs. apply Z.lxor_nilpotent. }
  rewrite <- (Mid_apply s Hs), <- He, mpow_apply, pos_iter_nat.
  destruct (Pos2Nat.is_succ Pfull) as [n ->].
  rewrite iter_succ_r, Hz. clear. generalize (madd (mpow Mstep e) Mid). intros A.
  induction n as [|n IH]; [reflexivity|]. rewrite iter_S, IH. apply mapply_0.
Qed.

(** cofactors (2^64-1)/p for the primes p of 2^64-1 *)
Definition primes64 : list Z := [3; 5; 17; 257; 641; 65537; 6700417].

Lemma cofactors_no_fix :
  forallb (fun p => no_fix (Z.to_pos (Z.pos Pfull / p))) primes64 = true.
Proof. vm_compute. reflexivity. Qed.

(** ** Primality of the factors by trial division *)
Definition trial (n : Z) (B : nat) : bool :=
  forallb (fun d => negb (n mod Z.of_nat d =? 0)) (seq 2 B).

Lemma trial_prime n B : 1 < n -> n < (Z.of_nat B + 2) * (Z.of_nat B + 2) -> trial n B = true -> prime n.
Proof.
  intros Hn Hb Ht. apply prime_alt. split; [exact Hn|]. intros d Hd [q Hq].
  unfold trial in Ht. rewrite forallb_forall in Ht.
  assert (forall e, 2 <= e < Z.of_nat B + 2 -> n mod e <> 0) as Hne.
  { intros e He. specialize (Ht (Z.to_nat e)). rewrite in_seq, Z2Nat.id in Ht by lia.
    specialize (Ht ltac:(lia)). destruct (Z.eqb_spec (n mod e) 0); [discriminate|assumption]. }
  assert (1 < q) by nia.
  destruct (Z.ltb_spec d (Z.of_nat B + 2)).
  - apply (Hne d ltac:(lia)). rewrite Hq. apply Z.mod_mul. lia.
  - apply (Hne q); [nia|]. rewrite Hq, Z.mul_comm. apply Z.mod_mul. lia.
Qed.

Lemma primes64_prime : Forall prime primes64.
Proof.
  unfold primes64.
  apply Forall_cons; [apply (trial_prime _ 0); [lia|lia|vm_compute; reflexivity]|].
  apply Forall_cons; [apply (trial_prime _ 1); [lia|lia|vm_compute; reflexivity]|].
  apply Forall_cons; [apply (trial_prime _ 3); [lia|lia|vm_compute; reflexivity]|].
  apply Forall_cons; [apply (trial_prime _ 15); [lia|lia|vm_compute; reflexivity]|].
  apply Forall_cons; [apply (trial_prime _ 24); [lia|lia|vm_compute; reflexivity]|].
  apply Forall_cons; [apply (trial_prime _ 255); [lia|lia|vm_compute; reflexivity]|].
  apply Forall_cons; [apply (trial_prime _ 2588); [lia|lia|vm_compute; reflexivity]|].
  apply Forall_nil.
Qed.

(** ** Order argument *)
Definition N64 : Z := Z.pos Pfull.

Lemma mul_divide a b c : rel_prime a b -> (a | c) -> (b | c) -> (a * b | c).
Proof.
  intros Hr [k ->] Hb. destruct (Gauss b a k) as [m ->].
  - rewrite Z.mul_comm. exact Hb.
  - apply rel_prime_sym. exact Hr.
  - exists m. lia.
Qed.

Lemma rel_prime_gcd a b : Z.gcd a b = 1 -> rel_prime a b.
Proof. intros H. apply Zgcd_1_rel_prime. exact H. Qed.

Lemma missing_prime g : (g | N64) -> (forall p, In p primes64 -> (p | g)) \/
  exists p, In p primes64 /\ (g | N64 / p).
Proof.
  intros Hg.
  assert (forall l, (forall p, In p l -> In p primes64) ->
     (forall p, In p l -> (p | g)) \/ exists p, In p primes64 /\ ~ (p | g)) as H.
  { induction l as [|p l IH]; intros Hin; [left; intros p []|].
    destruct (Zdivide_dec p g) as [Hd|Hd].
    - destruct IH as [H|H]; [intros q Hq; apply Hin; right; exact Hq| |right; exact H].
      left. intros q [<-|Hq]; auto.
    - right. exists p. split; [apply Hin; left; reflexivity|exact Hd]. }
  destruct (H primes64 (fun p Hp => Hp)) as [Hall|(p & Hp & Hnd)]; [left; exact Hall|].
  right. exists p. split; [exact Hp|].
  pose proof primes64_prime as Hpr. rewrite Forall_forall in Hpr. specialize (Hpr p Hp).
  apply (Gauss g p).
  - assert (p * (N64 / p) = N64) as ->; [|exact Hg].
    unfold primes64 in Hp. cbn [In] in Hp.
    destruct Hp as [<-|[<-|[<-|[<-|[<-|[<-|[<-|[]]]]]]]]; vm_compute; reflexivity.
  - apply rel_prime_sym. apply prime_rel_prime; assumption.
Qed.

Lemma all_primes_full g : (forall p, In p primes64 -> (p | g)) -> (N64 | g).
Proof.
  intros H.
  assert (forall p, In p primes64 -> (p | g)) as H' by exact H. unfold primes64 in H'.
  change N64 with (3 * 5 * 17 * 257 * 641 * 65537 * 6700417).
  repeat (apply mul_divide; [apply rel_prime_gcd; vm_compute; reflexivity| |apply H'; cbn; tauto]).
  apply H'; cbn; tauto.
Qed.

Definition itz (z : Z) (s : Z) : Z := Nat.iter (Z.to_nat z) lfsr_step s.

Lemma itz_nat n s : Nat.iter n lfsr_step s = itz (Z.of_nat n) s.
Proof. unfold itz. rewrite Nat2Z.id. reflexivity. Qed.

Lemma itz_add a b s : 0 <= a -> 0 <= b -> itz (a + b) s = itz a (itz b s).
Proof.
  intros Ha Hb. unfold itz. rewrite Z2Nat.inj_add by lia.
  generalize (Z.to_nat a) (Z.to_nat b). intros n m.
  induction n as [|n IH]; [reflexivity|]. cbn [Nat.add]. rewrite !iter_S, IH. reflexivity.
Qed.

Lemma itz_mul u a s : 0 <= u -> 0 <= a -> itz a s = s -> itz (u * a) s = s.
Proof.
  intros Hu Ha Hs. rewrite <- (Z2Nat.id u Hu). generalize (Z.to_nat u). intros n.
  induction n as [|n IH]; [reflexivity|].
  replace (Z.of_nat (S n) * a) with (a + Z.of_nat n * a) by lia.
  rewrite itz_add, IH by nia. exact Hs.
Qed.

Lemma itz_full s : 0 <= s < 2 ^ 64 -> itz N64 s = s.
Proof.
  intros Hs. unfold itz, N64. change (Z.to_nat (Z.pos Pfull)) with (Pos.to_nat Pfull).
  rewrite <- mpow_step, mpow_full, Mid_apply by exact Hs. reflexivity.
Qed.

Lemma itz_gcd n s : 0 <= s < 2 ^ 64 -> 0 < n -> itz n s = s -> itz (Z.gcd n N64) s = s.
Proof.
  intros Hs Hn Hfix.
  destruct (Z.gcd_bezout n N64 (Z.gcd n N64) eq_refl) as (u & v & Huv).
  set (g := Z.gcd n N64) in *.
  assert (0 <= g) by apply Z.gcd_nonneg.
  set (k := Z.abs u + Z.abs v + 1).
  assert (0 < N64) by reflexivity.
  assert ((u + k * N64) * n = (k * n - v) * N64 + g) as E by lia.
  assert (0 <= u + k * N64) by nia. assert (0 <= k * n - v) by nia.
  pose proof (itz_mul (u + k * N64) n s ltac:(lia) ltac:(lia) Hfix) as Hit.
  rewrite E in Hit. rewrite Z.add_comm, itz_add in Hit by nia.
  rewrite (itz_mul (k * n - v) N64 s) in Hit by (try lia; apply itz_full; exact Hs).
  exact Hit.
Qed.

Lemma period_divides n s : 0 < s < 2 ^ 64 -> 0 <= n -> (itz n s = s <-> (N64 | n)).
Proof.
  intros Hs Hn. split.
  - intros Hfix. destruct (Z.eq_dec n 0) as [->|Hn0]; [apply Z.divide_0_r|].
    pose proof (itz_gcd n s ltac:(lia) ltac:(lia) Hfix) as Hg.
    assert (Z.gcd n N64 | N64) as Hd by apply Z.gcd_divide_r.
    destruct (missing_prime _ Hd) as [Hall|(p & Hp & [q Hq])].
    + apply Z.divide_trans with (Z.gcd n N64); [apply all_primes_full; exact Hall|apply Z.gcd_divide_l].
    + exfalso.
      assert (0 <= q /\ 0 < N64 / p) as [Hq0 Hpos].
      { assert (0 < N64 / p) as Hpos.
        { unfold primes64 in Hp; cbn [In] in Hp. destruct Hp as [<-|[<-|[<-|[<-|[<-|[<-|[<-|[]]]]]]]]; vm_compute; reflexivity. }
        pose proof (Z.gcd_nonneg n N64). nia. }
      pose proof (itz_mul q (Z.gcd n N64) s Hq0 (Z.gcd_nonneg _ _) Hg) as Hf. rewrite <- Hq in Hf.
      pose proof cofactors_no_fix as Hc. rewrite forallb_forall in Hc. specialize (Hc p Hp).
      assert (s = 0); [|lia].
      eapply no_fix_sound; [exact Hc|lia|].
      unfold itz in Hf. fold N64. 
      replace (Pos.to_nat (Z.to_pos (N64 / p))) with (Z.to_nat (N64 / p)); [exact Hf|].
      destruct (N64 / p); lia.
  - intros [q ->]. destruct (Z.eq_dec q 0) as [->|]; [reflexivity|].
    assert (0 < N64) by reflexivity.
    apply itz_mul; [nia|lia|apply itz_full; lia].
Qed.

Lemma rand_period seed n : seed mod 2 ^ 64 <> 0 ->
  (lfsr_rand seed n = lfsr_rand seed 0 <-> (2 ^ 64 - 1 | Z.of_nat n)).
Proof.
  intros H. unfold lfsr_rand. rewrite init_mod. change (2 ^ 64 - 1) with N64.
  rewrite <- (period_divides (Z.of_nat n) (seed mod 2 ^ 64)); [|pose proof (Z.mod_pos_bound seed (2 ^ 64)); lia|lia].
  unfold itz. rewrite Nat2Z.id. reflexivity.
Qed.

Lemma itz_inj a : forall s t, 0 <= s < 2 ^ 64 -> 0 <= t < 2 ^ 64 -> itz a s = itz a t -> s = t.
Proof.
  unfold itz. generalize (Z.to_nat a). intros n. induction n as [|n IH]; intros s t Hs Ht H; [exact H|].
  rewrite !iter_S in H. apply step_inj in H; auto using iter_range.
Qed.

Lemma rand_distinct seed i j : seed mod 2 ^ 64 <> 0 ->
  (lfsr_rand seed i = lfsr_rand seed j <-> (2 ^ 64 - 1 | Z.of_nat i - Z.of_nat j)).
Proof.
  intros H.
  assert (forall i j, (j <= i)%nat -> (lfsr_rand seed i = lfsr_rand seed j <-> (2 ^ 64 - 1 | Z.of_nat i - Z.of_nat j))) as W.
  { clear i j. intros i j Hle.
    rewrite <- Nat2Z.inj_sub by exact Hle. rewrite <- rand_period by exact H.
    unfold lfsr_rand at 1 2. change (lfsr_rand seed 0) with (lfsr_init seed).
    unfold lfsr_rand. set (s := lfsr_init seed). assert (0 <= s < 2 ^ 64) as Hs by apply init_range.
    assert (Nat.iter i lfsr_step s = itz (Z.of_nat j) (Nat.iter (i - j) lfsr_step s)) as ->.
    { rewrite (itz_nat (i - j)), <- itz_add by lia. rewrite (itz_nat i). f_equal. lia. }
    assert (Nat.iter j lfsr_step s = itz (Z.of_nat j) s) as -> by (unfold itz; rewrite Nat2Z.id; reflexivity).
    split; [|intros ->; reflexivity]. intros E. eapply itz_inj; [| |exact E]; auto using iter_range. }
  destruct (Nat.le_ge_cases j i) as [L|L].
  - apply W; exact L.
  - split.
    + intros E. replace (Z.of_nat i - Z.of_nat j) with (- (Z.of_nat j - Z.of_nat i)) by lia.
      apply Z.divide_opp_r. apply W; auto.
    + intros D. symmetry. apply W; auto.
      replace (Z.of_nat j - Z.of_nat i) with (- (Z.of_nat i - Z.of_nat j)) by lia. apply Z.divide_opp_r. exact D.
Qed.

(** every non-zero state is visited *)
Lemma pigeon (n : nat) (f : nat -> Z) (U : Z) : U = Z.of_nat n ->
  (forall i, (i < n)%nat -> 1 <= f i <= U) ->
  (forall i j, (i < n)%nat -> (j < n)%nat -> f i = f j -> i = j) ->
  forall v, 1 <= v <= U -> exists i, (i < n)%nat /\ f i = v.
Proof.
  intros HU Hr Hinj v Hv.
  assert (NoDup (map f (seq 0 n))) as Hnd.
  { assert (forall l, NoDup l -> (forall i, In i l -> (i < n)%nat) -> NoDup (map f l)) as G.
    { induction l as [|x l IH]; intros Hl Hin; cbn; constructor.
      - intros Hx. apply in_map_iff in Hx as (y & E & Hy).
        apply Hinj in E; [|apply Hin; right; exact Hy|apply Hin; left; reflexivity].
        subst y. inversion Hl; auto.
      - inversion Hl; subst. apply IH; auto. intros i Hi. apply Hin. right; exact Hi. }
    apply G; [apply seq_NoDup|]. intros i Hi. apply in_seq in Hi. lia. }
  assert (incl (map (fun k => Z.of_nat k) (seq 1 n)) (map f (seq 0 n))) as Hincl.
  { apply NoDup_length_incl; [exact Hnd|rewrite !map_length, !seq_length; lia|].
    intros x Hx. apply in_map_iff in Hx as (i & <- & Hi). apply in_seq in Hi.
    specialize (Hr i ltac:(lia)). apply in_map_iff. exists (Z.to_nat (f i)). split; [apply Z2Nat.id; lia|].
    apply in_seq. lia. }
  assert (In v (map f (seq 0 n))) as Hin.
  { apply Hincl. apply in_map_iff. exists (Z.to_nat v). split; [apply Z2Nat.id; lia|]. apply in_seq. lia. }
  apply in_map_iff in Hin as (i & E & Hi). apply in_seq in Hi. exists i. split; [lia|exact E].
Qed.

Lemma rand_covers seed v : seed mod 2 ^ 64 <> 0 -> 0 < v < 2 ^ 64 ->
  exists n, Z.of_nat n < 2 ^ 64 - 1 /\ lfsr_rand seed n = v.
Proof.
  intros Hs Hv.
  destruct (pigeon (Z.to_nat N64) (lfsr_rand seed) N64) with (v := v) as (i & Hi & E).
  - rewrite Z2Nat.id; [reflexivity|discriminate].
  - intros i Hi. pose proof (rand_range seed i) as R.
    assert (lfsr_rand seed i <> 0) by (rewrite rand_zero_iff; exact Hs).
    change N64 with (2 ^ 64 - 1). lia.
  - intros i j Hi Hj E. apply rand_distinct in E; [|exact Hs]. destruct E as [q Hq].
    change (2 ^ 64 - 1) with N64 in Hq.
    assert (0 < N64) by reflexivity. assert (q = 0) by nia. lia.
  - change N64 with (2 ^ 64 - 1). lia.
  - exists i. split; [|exact E]. change (2 ^ 64 - 1) with N64. lia.
Qed.
