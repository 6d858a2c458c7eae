(** Lemmas about the adder reference model. *)
From Coq Require Import ZArith Bool Lia.
From Verif Require Import Py Adder_Model.
Open Scope Z_scope.

Lemma land_mask x : Z.land x (Z.shiftl 1 64 - 1) = x mod 2 ^ 64.
Proof. rewrite Z.shiftl_1_l. change (2 ^ 64 - 1) with (Z.ones 64). apply Z.land_ones. lia. Qed.

Lemma exec_add_spec a b cin : 0 <= a < 2 ^ 64 -> 0 <= b < 2 ^ 64 -> 0 <= cin <= 1 ->
  let (sum, cout) := exec_add a b cin in
  sum + 2 ^ 64 * cout = a + b + cin /\ 0 <= sum < 2 ^ 64 /\ 0 <= cout <= 1.
Proof.
  intros Ha Hb Hc. unfold exec_add. rewrite land_mask, Z.shiftr_div_pow2 by lia.
  pose proof (Z.div_mod (a + b + cin) (2 ^ 64)) as H1. pose proof (Z.mod_pos_bound (a + b + cin) (2 ^ 64)) as H2.
  split; [lia|]. split; [lia|]. split; [apply Z.div_pos; lia|].
  assert ((a + b + cin) / 2 ^ 64 < 2); [|lia]. apply Z.div_lt_upper_bound; lia.
Qed.

Lemma exec_add_unique a b cin sum cout : 0 <= sum < 2 ^ 64 -> sum + 2 ^ 64 * cout = a + b + cin ->
  exec_add a b cin = (sum, cout).
Proof.
  intros Hs E. unfold exec_add. rewrite land_mask, Z.shiftr_div_pow2 by lia. rewrite <- E. f_equal.
  - rewrite (Z.add_comm sum), Z.mul_comm, Z.add_comm, Z_mod_plus_full. apply Z.mod_small. lia.
  - rewrite Z.mul_comm, Z_div_plus_full by lia. rewrite Z.div_small by lia. lia.
Qed.

Lemma monitor_iff a b cin sum cout : monitor_once a b cin sum cout = Ok tt <-> exec_add a b cin = (sum, cout).
Proof.
  unfold monitor_once, exec_add.
  destruct (Z.eqb_spec (Z.land (a + b + cin) (Z.shiftl 1 64 - 1)) sum) as [E1|E1]; cbn [negb];
    [|split; [discriminate|intros [= X _]; contradiction]].
  destruct (Z.eqb_spec (Z.shiftr (a + b + cin) 64) cout) as [E2|E2]; cbn [negb]; split; intros H; try congruence; try discriminate.
Qed.

Lemma port_turn_iff a b cin ra rb rcin rs rc :
  port_turn (a, b, cin) (ra, rb, rcin, rs, rc) = Ok tt <-> (ra, rb, rcin) = (a, b, cin) /\ exec_add a b cin = (rs, rc).
Proof.
  unfold port_turn, exec_add.
  destruct (Z.eqb_spec a ra), (Z.eqb_spec b rb), (Z.eqb_spec cin rcin),
    (Z.eqb_spec (Z.land (a + b + cin) (Z.shiftl 1 64 - 1)) rs), (Z.eqb_spec (Z.shiftr (a + b + cin) 64) rc); cbn [andb];
    (split; [intros H; try discriminate; split; congruence|intros [H1 H2]; try reflexivity; congruence]).
Qed.
