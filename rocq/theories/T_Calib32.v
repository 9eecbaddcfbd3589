(** Generated by tools/gen_properties.py from P_Calib32.v: property theorems only. *)

From Coq Require Import List Arith ZArith Reals Lia Bool Lra SpecFloat.
From Flocq Require Import Core BinarySingleNaN.
From Verif Require Import M_Base M_Arith M_Utils M_Vector M_Matrix M_Sensors M_F32
  S_Spec S_Linalg S_Sensors P_Inst P_InstF.
Import ListNotations.
Local Open Scope R_scope.

From Verif Require Import P_Calib32.

(** C78 (f32), for every sensor a program can reach and initialised with the configuration c, whatever happened to it
    before: if the raw reading is finite, readings and biases are at most 2^60 and coefficients at most 2^50 in size,
    then the update succeeds and every reported axis is the calibration matrix applied to (raw - bias), exact up to
    3.1e-7 times the sum of the absolute terms plus 1e-20 *)
Theorem C78_calibration :
  forall (lm : Libm) (k : kind) (s : Sensor (A := F32 lm)) (c : Config (A := F32 lm)) (raw : nat -> T (Arith := F32 lm)),
  sreach k s -> sensor_get_config k s = Ok c ->
  (forall a, (a < 3)%nat -> is_finite (raw a : f32) = true /\ Rabs (B2R (raw a : f32)) <= 2 ^ 60 /\ Rabs (B2R (bias (A := F32 lm) c a : f32)) <= 2 ^ 60) ->
  (forall a b, (a < 3)%nat -> (b < 3)%nat -> Rabs (B2R (coefficient (A := F32 lm) k c a b : f32)) <= 2 ^ 50) ->
  let (s', o) := sensor_update (A := F32 lm) k (raw 0%nat) (raw 1%nat) (raw 2%nat) s in
  o = Ok tt /\ sensor_get_config k s' = Ok c /\
  forall b, (b < 3)%nat -> exists r : f32, sensor_get k b s' = Ok r /\ is_finite r = true /\
    let term a := B2R (coefficient (A := F32 lm) k c a b : f32) * (B2R (raw a : f32) - B2R (bias (A := F32 lm) c a : f32)) in
    Rabs (B2R r - (term 0%nat + term 1%nat + term 2%nat)) <=
      31 / 100000000 * (Rabs (term 0%nat) + Rabs (term 1%nat) + Rabs (term 2%nat)) + / 10 ^ 20.
Proof. exact l_calib32. Qed.
Print Assumptions C78_calibration.

(** C78 (f32): with no cross coefficient feeding the axis (a diagonal calibration), the reported value has relative error
    at most 3.1e-7 (plus 1e-20): scale times (raw - bias) *)
Theorem C78_axis :
  forall (lm : Libm) (k : kind) (s : Sensor (A := F32 lm)) (c : Config (A := F32 lm)) (raw : nat -> T (Arith := F32 lm)) (b : nat),
  sreach k s -> sensor_get_config k s = Ok c -> (b < 3)%nat ->
  (forall a, (a < 3)%nat -> is_finite (raw a : f32) = true /\ Rabs (B2R (raw a : f32)) <= 2 ^ 60 /\ Rabs (B2R (bias (A := F32 lm) c a : f32)) <= 2 ^ 60) ->
  (forall a b, (a < 3)%nat -> (b < 3)%nat -> Rabs (B2R (coefficient (A := F32 lm) k c a b : f32)) <= 2 ^ 50) ->
  (forall a, (a < 3)%nat -> a <> b -> B2R (coefficient (A := F32 lm) k c a b : f32) = 0) ->
  exists r : f32, sensor_get k b (fst (sensor_update (A := F32 lm) k (raw 0%nat) (raw 1%nat) (raw 2%nat) s)) = Ok r /\
    let x := B2R (named (A := F32 lm) c b b : f32) * (B2R (raw b : f32) - B2R (bias (A := F32 lm) c b : f32)) in
    Rabs (B2R r - x) <= 31 / 100000000 * Rabs x + / 10 ^ 20.
Proof. exact l_calib_axis. Qed.
Print Assumptions C78_axis.

(** C78 (f32), violated: the error is not small relative to the answer itself.  An accelerometer with coefficients 1 and
    -1 and no bias reports exactly 0 for a reading whose calibrated value is 1 *)
Theorem C78_relative_refuted :
  forall lm : Libm,
  exists (s : Sensor (A := F32 lm)) (c : Config (A := F32 lm)) (raw : nat -> T (Arith := F32 lm)), sreach Acc s /\ sensor_get_config Acc s = Ok c /\
  let term a := B2R (coefficient (A := F32 lm) Acc c a 0 : f32) * (B2R (raw a : f32) - B2R (bias (A := F32 lm) c a : f32)) in
  term 0%nat + term 1%nat + term 2%nat = 1 /\ (forall a, (a < 3)%nat -> Rabs (B2R (coefficient (A := F32 lm) Acc c a 0 : f32)) = 1) /\
  exists r : f32, sensor_get Acc 0 (fst (sensor_update (A := F32 lm) Acc (raw 0%nat) (raw 1%nat) (raw 2%nat) s)) = Ok r /\ B2R r = 0.
Proof. exact l_calib_cut. Qed.
Print Assumptions C78_relative_refuted.

(** the hypotheses of C78_calibration are met, with readings of opposite effect and cross coefficients *)
Example C78_example : forall lm : Libm,
  exists (s : Sensor (A := F32 lm)) (c : Config (A := F32 lm)) (raw : nat -> T (Arith := F32 lm)), sreach Acc s /\ sensor_get_config Acc s = Ok c /\
  (forall a, (a < 3)%nat -> is_finite (raw a : f32) = true /\ Rabs (B2R (raw a : f32)) <= 2 ^ 60 /\ Rabs (B2R (bias (A := F32 lm) c a : f32)) <= 2 ^ 60) /\
  (forall a b, (a < 3)%nat -> (b < 3)%nat -> Rabs (B2R (coefficient (A := F32 lm) Acc c a b : f32)) <= 2 ^ 50) /\
  B2R (coefficient (A := F32 lm) Acc c 2 0 : f32) = -1 /\ B2R (raw 1%nat : f32) = 16777216.
Proof. exact l_calib_example. Qed.
