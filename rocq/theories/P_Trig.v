(** Property theorems for toffee/triggers.py: C39, C40.  [w n] = the pin's value when the waiting task has
    awaited the clock n times since the call. *)
From Coq Require Import List ZArith Bool Lia.
From Verif Require Import Py Trig_Model Trig_Spec Trig_Proofs.
Import ListNotations.

(** ** C39 *)
Theorem C39_value : forall w v delay m,
  returns_after (fun f => value_trig f w v delay) m <-> first_from (Z.to_nat delay) (fun k => w k = v) m.
Proof. exact value_iff. Qed.
Print Assumptions C39_value.

Theorem C39_value_never : forall w v delay, (forall k, (Z.to_nat delay <= k)%nat -> w k <> v) ->
  waits_forever (fun f => value_trig f w v delay).
Proof. exact value_never. Qed.
Print Assumptions C39_value_never.

Theorem C39_all_valid : forall p ws delay m,
  returns_after (fun f => allvalid_trig f (p :: ws) delay) m <->
  first_from (Z.to_nat delay) (fun k => forall w, In w (p :: ws) -> w k <> 0%Z) m.
Proof. exact allvalid_iff. Qed.
Print Assumptions C39_all_valid.

Theorem C39_all_valid_never : forall p ws delay,
  (forall k, (Z.to_nat delay <= k)%nat -> exists w, In w (p :: ws) /\ w k = 0%Z) ->
  waits_forever (fun f => allvalid_trig f (p :: ws) delay).
Proof. exact allvalid_never. Qed.
Print Assumptions C39_all_valid_never.

(** [f k] = what the condition gives at the k-th moment; it may raise. *)
Theorem C39_condition : forall f delay m,
  returns_after (fun fu => cond_trig fu f delay) m <->
  ((Z.to_nat delay <= m)%nat /\ f m = Ok true /\ forall k, (Z.to_nat delay <= k < m)%nat -> f k = Ok false).
Proof. intros f delay m. exact (cond_ok f (Z.to_nat delay) m). Qed.
Print Assumptions C39_condition.

Theorem C39_condition_raises : forall f e delay,
  (exists fu, cond_trig fu f delay = Some (Exn e)) <->
  exists m, (Z.to_nat delay <= m)%nat /\ f m = Exn e /\ forall k, (Z.to_nat delay <= k < m)%nat -> f k = Ok false.
Proof. intros f e delay. exact (cond_exn f e (Z.to_nat delay)). Qed.
Print Assumptions C39_condition_raises.

Theorem C39_condition_never : forall f delay, (forall k, (Z.to_nat delay <= k)%nat -> f k = Ok false) ->
  waits_forever (fun fu => cond_trig fu f delay).
Proof. intros f delay. exact (cond_never f (Z.to_nat delay)). Qed.
Print Assumptions C39_condition_never.

(** Without pins, AllValid returns at once for delay <= 0 and raises IndexError otherwise. *)
Theorem C39_all_valid_no_pins : forall fu delay,
  allvalid_trig fu [] delay = if Z.leb delay 0 then Some (Ok 0%nat) else Some (Exn IndexError).
Proof. exact allvalid_none. Qed.
Print Assumptions C39_all_valid_no_pins.

Definition wave (l : list Z) (n : nat) : Z := nth n l 0%Z.
Example C39_example :
  value_trig 9 (wave [7; 1; 3; 7; 7]%Z) 7 1 = Some (Ok 3%nat) /\
  first_from 1 (fun k => wave [7; 1; 3; 7; 7]%Z k = 7%Z) 3 /\
  allvalid_trig 9 [wave [1; 0; 1; 2]%Z; wave [1; 1; 0; 5]%Z] 1 = Some (Ok 3%nat).
Proof.
  split; [reflexivity|]. split; [|reflexivity]. split; [lia|]. split; [reflexivity|].
  intros k Hk. assert (k = 1 \/ k = 2)%nat as [-> | ->] by lia; cbn; discriminate.
Qed.

(** ** C40 *)
Theorem C40_change : forall w m,
  returns_after (fun f => change_trig f w) m <-> first_from 1 (fun k => w k <> w (k - 1)%nat) m.
Proof. exact change_iff. Qed.
Print Assumptions C40_change.

Theorem C40_change_never : forall w, (forall k, w (S k) = w k) -> waits_forever (fun f => change_trig f w).
Proof. exact change_never. Qed.
Print Assumptions C40_change_never.

Theorem C40_rising_edge : forall w m,
  returns_after (fun f => rising_trig f w) m <-> first_from 1 (fun k => w (k - 1)%nat = 0%Z /\ w k <> 0%Z) m.
Proof. exact rising_iff. Qed.
Print Assumptions C40_rising_edge.

Theorem C40_rising_edge_never : forall w, (forall k, ~ (w k = 0%Z /\ w (S k) <> 0%Z)) ->
  waits_forever (fun f => rising_trig f w).
Proof. exact rising_never. Qed.
Print Assumptions C40_rising_edge_never.

Theorem C40_falling_edge : forall w m,
  returns_after (fun f => falling_trig f w) m <-> first_from 1 (fun k => w (k - 1)%nat <> 0%Z /\ w k = 0%Z) m.
Proof. exact falling_iff. Qed.
Print Assumptions C40_falling_edge.

Theorem C40_falling_edge_never : forall w, (forall k, ~ (w k <> 0%Z /\ w (S k) = 0%Z)) ->
  waits_forever (fun f => falling_trig f w).
Proof. exact falling_never. Qed.
Print Assumptions C40_falling_edge_never.

Example C40_example :
  rising_trig 9 (wave [2; 2; 0; 0; 4; 0]%Z) = Some (Ok 4%nat) /\
  falling_trig 9 (wave [0; 0; 2; 3; 0]%Z) = Some (Ok 4%nat) /\
  change_trig 9 (wave [5; 5; 5; 6]%Z) = Some (Ok 3%nat) /\
  (forall k, wave [2; 2; 0]%Z k <> 0%Z -> (k < 2)%nat).
Proof.
  repeat split. intros k H. destruct k as [|[|[|k]]]; cbn in H; try lia. destruct k; cbn in H; congruence.
Qed.
