(** Generated by tools/gen_properties.py from P_TayHigh.v: property theorems only. *)

From Coq Require Import List Arith ZArith NArith Reals Lia Bool Lra.
From Verif Require Import M_Base M_Arith M_Utils M_Vector M_Matrix M_Quaternion M_Sensors M_Ar M_RX
  S_Spec S_Linalg S_Norm S_Quat S_Sensors S_Ar S_F32 P_ArR.
Import ListNotations.
Local Open Scope R_scope.

From Verif Require Import P_TayHigh.

(** C84, violation: at the identity, for every rate w and period t with 0 < |w| t <= 1/4 (and |w| above EPSILON), one Taylor
    update of any order from 2 to 20 ends at least (|w| t)^2 / 40 away from the true attitude and from its negative ... *)
Theorem C84_higher_orders :
  forall (ck : bool) (s : AR (A := RX)) (c : Config) (w : nat -> R) (t : R) (gx gy gz : T),
  ar_hist ck s Live -> ar_method s = TaylorSeries -> (2 <= ar_order s <= 20)%nat -> ar_ts s = Some t -> quat_r (ar_attitude s) qone ->
  sensor_get_config Gyr (ar_gyr s) = Ok c -> (forall b, (b < 3)%nat -> corrected Gyr c (raw3 gx gy gz) 3 b = Some (w b)) ->
  eps < rnorm 3 w -> let X := rnorm 3 w * Rabs t in X <= 1 / 4 ->
  exists s' r, ar_update ck gx gy gz s = (s', Ok tt) /\ quat_r (ar_attitude s') r /\
    X * X / 40 <= qdist r (turn w t) /\ X * X / 40 <= qdist r (qneg (turn w t)).
Proof. exact l_taylor_high. Qed.
Print Assumptions C84_higher_orders.

(** C84: ... while order 1 ends within (|w| t)^3 / 24 of it, which is less *)
Theorem C84_first_order :
  forall (ck : bool) (s : AR (A := RX)) (c : Config) (w : nat -> R) (t : R) (gx gy gz : T),
  ar_hist ck s Live -> ar_method s = TaylorSeries -> ar_order s = 1%nat -> ar_ts s = Some t -> quat_r (ar_attitude s) qone ->
  sensor_get_config Gyr (ar_gyr s) = Ok c -> (forall b, (b < 3)%nat -> corrected Gyr c (raw3 gx gy gz) 3 b = Some (w b)) ->
  eps < rnorm 3 w -> let X := rnorm 3 w * Rabs t in
  exists s' r, ar_update ck gx gy gz s = (s', Ok tt) /\ quat_r (ar_attitude s') r /\ qdist r (turn w t) <= X * X * X / 24 /\
    (0 < X <= 1 / 4 -> qdist r (turn w t) < X * X / 40).
Proof. exact l_taylor_low. Qed.
Print Assumptions C84_first_order.

(** 5 rad/s about (3, 4, 0) for 10 ms, with every order *)
Example C84_example : forall (ck : bool) (order : nat), exists s : AR (A := RX),
  ar_hist ck s Live /\ ar_method s = TaylorSeries /\ ar_order s = order /\ ar_ts s = Some (1 / 100) /\ quat_r (ar_attitude s) qone /\
  sensor_get_config Gyr (ar_gyr s) = Ok default_config /\
  (forall b, (b < 3)%nat -> corrected (A := RX) Gyr default_config (raw3 (A := RX) (Some 3) (Some 4) (Some 0)) 3 b = Some (triple 3 4 0 b)) /\
  rnorm 3 (triple 3 4 0) * Rabs (1 / 100) = 1 / 20.
Proof. exact high_ex. Qed.
