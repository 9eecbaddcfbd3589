(** Generated by tools/gen_properties.py from P_Angles1.v: property theorems only. *)

From Coq Require Import List Arith ZArith NArith Reals Lia Bool Lra SpecFloat.
From Flocq Require Import Core BinarySingleNaN.
From Verif Require Import M_Base M_Arith M_Utils M_Vector M_Matrix M_Quaternion M_Sensors M_Ar M_Aqua M_F32 M_RX
  S_Spec S_Linalg S_Norm S_Quat S_Sensors S_Ar S_Aqua S_F32 S_Reading S_Rest S_Raw S_Euler32 S_Angles S_Track S_First S_RawGyr P_Inst P_InstF P_Rest32 P_Euler32 P_Angles.
Import ListNotations.
Local Open Scope R_scope.

From Verif Require Import P_Angles1.

(** C87: hence the Euler angles of the body turned at its true rates come out with an error bounded by that of the attitude *)
Theorem C87_angles :
  forall (lm : Libm) (ck : bool) (s : AR (A := F32 lm)) (c : Config (A := F32 lm)) (l : list (sample lm)) (q p : quat) (d M dl roll pitch yaw : R),
  ar_hist ck s Live -> ar_method s = TaylorSeries -> ar_order s = 1%nat -> is_finite (ar_ts s : f32) = true -> let t := B2R (ar_ts s : f32) in
  sensor_get_config Gyr (M_Ar.ar_gyr s) = Ok c -> quat_f (ar_attitude s) q -> Rabs (qnorm q - 1) < / 1000000 -> unitq p ->
  pow_one lm d -> 0 <= d <= / 1000 -> 0 <= M ->
  Forall (fun z => bounded c M z /\ rnorm 3 (true_rate z) + rate_error c M z <= bpow radix2 60 /\ (rnorm 3 (true_rate z) + rate_error c M z) * Rabs t <= 1000) l ->
  libm_angles lm dl -> euler_of (turns t p (map true_rate l)) roll pitch yaw ->
  let e := qdist q p + sum_map (fun z => let X := (rnorm 3 (true_rate z) + rate_error c M z) * Rabs t in X * X * X / 23 + 6 / 1000000 + 5 * d + eps * Rabs t + 501 / 1000 * (rate_error c M z * Rabs t)) l in
  / 100 <= cos pitch -> 17 * e <= cos pitch ->
  exists s' r y z, ar_feed ck l s = (s', Ok tt) /\
    q_convert_to_euler (ar_attitude s') = Ok (r, y, z) /\ angles_within r y z roll pitch yaw ((2 * e + 1 / 100000) / cos pitch + dl / 2).
Proof. exact l_taylor_angles. Qed.
Print Assumptions C87_angles.

(** the sample of C89_example_rates, for a filter on the Taylor series of order 1 *)
Example C87_example_angles :
  forall ck : bool, exists (s : AR (A := F32 good_libm)) (c : Config (A := F32 good_libm)),
  ar_hist ck s Live /\ ar_method s = TaylorSeries /\ ar_order s = 1%nat /\ is_finite (ar_ts s : f32) = true /\ B2R (ar_ts s : f32) = 1 /\
  sensor_get_config Gyr (M_Ar.ar_gyr s) = Ok c /\ quat_f (ar_attitude s) qone /\ Rabs (qnorm qone - 1) < / 1000000 /\
  pow_one good_libm 0 /\ libm_angles good_libm (5 / 10000000) /\
  let z := Sample (lm := good_libm) (z32 1) (z32 0) (z32 1) (triple 0 0 (101 / 100)) in
  bounded c 4 z /\ rnorm 3 (true_rate z) + rate_error c 4 z <= bpow radix2 60 /\ (rnorm 3 (true_rate z) + rate_error c 4 z) * Rabs 1 <= 1000 /\
  euler_of (turns 1 qone [true_rate z]) 0 0 (101 / 100) /\ / 100 <= cos 0 /\
  let X := (rnorm 3 (true_rate z) + rate_error c 4 z) * Rabs 1 in
  17 * (qdist qone qone + (X * X * X / 23 + 6 / 1000000 + 5 * 0 + eps * Rabs 1 + 501 / 1000 * (rate_error c 4 z * Rabs 1))) <= cos 0.
Proof. exact taylor_angles_ex. Qed.
