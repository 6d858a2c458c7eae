(** C50: "*" on any level of the dictionary. *)
From Coq Require Import List String Ascii Bool Arith ZArith Lia.
From Verif Require Import Py Dict_Proofs Bundle_Model Bundle_Spec Bundle_Proofs Bundle4_Proofs Bundle5_Proofs BundleVal_Model BundleVal_Spec BundleVal_Proofs BundleVal2_Proofs BundleVal3_Proofs BundleVal4_Proofs BundleVal5_Proofs P_Bundle P_BundleVal BundleStar_Spec BundleStar_Proofs.
Import ListNotations.
Open Scope string_scope.
Open Scope list_scope.

(** For every bound bundle and every dictionary with "*" entries on any levels: a signal with an entry of its own gets that value; any other signal that is
    not an output gets the "*" of the innermost dictionary on the way to it that has one; everything else keeps its value, also if a write raises. *)
Theorem C50_levels : forall wr usr acc t1 v lv st, bound acc t1 -> starred v ->
  let b := t_b t1 in let o := assign wr usr true b v lv st in
  (forall i, (forall p l, holds b (p, l) i -> told v p l (p_out (st i)) = None) -> o_st o i = st i) /\
  (o_res o = Ok tt -> forall i p l y, holds b (p, l) i -> told v p l (p_out (st i)) = Some y ->
     exists old z, wr (set_val (st i) old) y = Ok z /\ o_st o i = set_val (st i) z).
Proof.
  intros wr usr acc t1 v lv st Hb Hv. cbv zeta. destruct (bound_ok _ _ Hb) as (Hw & Hsh & Hid & Hs & _). destruct (star_main wr usr _ Hw Hsh Hid) as [HF HE]. split.
  - intros i H. exact (HF v lv st i Hv H).
  - intros Hok i p l y Hh Hy. exact (HE v lv st i p l y Hv (Hs i) Hh Hy Hok).
Qed.
Print Assumptions C50_levels.
(** "*" on the top level and in a sub-bundle; one pin is an output. *)
Definition nested : val := VDict [("a", VInt 5); ("req", VDict [("*", VInt 3)]); ("*", VInt 9)].
Example C50_levels_ex : starred nested /\ exists t1 st1, bind true (fresh treeb) dut1 (fun i => mk_pin 0 (Nat.eqb i 3) 8 None Imme 7) = Ok (t1, st1) /\
  let o := assign wr8 nousr true (t_b t1) nested "" st1 in
  o_res o = Ok tt /\ map (fun i => p_val (o_st o i)) [0; 1; 2; 3; 4] = [5%Z; 9%Z; 3%Z; 0%Z; 0%Z] /\
  told nested [PSub "req"] (LSig "valid") false = Some (VInt 3) /\ told nested [] (LEl "data" 1) false = Some (VInt 9) /\ told nested [PElem "vec" 0] (LSig "x") true = None.
Proof.
  split; [|run]. constructor; [repeat constructor; cbn; intuition discriminate|]. intros k x [E|[E|[E|[]]]] Hne; injection E as <- <-; [constructor| |now elim Hne]. constructor; [repeat constructor; cbn; intuition|].
  intros k x [E|[]] Hne'. injection E as <- <-. constructor.
Qed.
