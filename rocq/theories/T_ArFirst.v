(** Generated by tools/gen_properties.py from P_ArFirst.v: property theorems only. *)

From Coq Require Import List Arith ZArith NArith Reals Lia Bool Lra SpecFloat.
From Flocq Require Import Core BinarySingleNaN.
From Verif Require Import M_Base M_Arith M_Utils M_Vector M_Matrix M_Quaternion M_Sensors M_Ar M_F32
  S_Spec S_Linalg S_Norm S_Quat S_Sensors S_Ar S_F32 S_Track S_First P_Inst P_InstF P_ArZ P_F32Ar.
Import ListNotations.
Local Open Scope R_scope.

From Verif Require Import P_ArFirst.

(** C70: an update by the Taylor series of order 1 in f32, with pow(x, 1) right up to a factor of 1 + d, of a filter whose
    attitude q has norm 1 within 1e-6 and whose gyrometer accepts the measurement and reports the corrected rate w,
    succeeds; the new attitude has norm 1 within 1e-6 again and is within (|w| t)^3 / 23 + 6e-6 + 5 d of q (turn w t);
    for rates below 1.02 EPSILON, which the filter may ignore, plus EPSILON t *)
Theorem C70_taylor_step :
  forall (lm : Libm) (ck : bool) (s : AR (A := F32 lm)) (g' : Sensor (A := F32 lm)) (q : quat) (w : nat -> R) (gx gy gz : T (Arith := F32 lm)) (d : R),
  ar_hist ck s Live -> ar_method s = TaylorSeries -> ar_order s = 1%nat -> is_finite (ar_ts s : f32) = true -> let t := B2R (ar_ts s : f32) in
  quat_f (ar_attitude s) q -> Rabs (qnorm q - 1) < / 1000000 -> pow_one lm d -> 0 <= d <= / 1000 ->
  sensor_update Gyr gx gy gz (ar_gyr s) = (g', Ok tt) -> reports g' w -> rnorm 3 w <= bpow radix2 60 -> rnorm 3 w * Rabs t <= 1000 ->
  let X := rnorm 3 w * Rabs t in let e := X * X * X / 23 + 6 / 1000000 + 5 * d in
  exists s' r, ar_update ck gx gy gz s = (s', Ok tt) /\ quat_f (ar_attitude s') r /\ Rabs (qnorm r - 1) < / 1000000 /\
    (102 / 100 * eps < rnorm 3 w -> qdist r (qmul q (turn w t)) <= e) /\
    qdist r (qmul q (turn w t)) <= e + eps * Rabs t.
Proof. exact l_taylor_step32. Qed.
Print Assumptions C70_taylor_step.

(** C70, and a violation: the Euler method needs no libm and is as accurate, but it turns about the axes of the
    reference frame: the new attitude is within (|w| t)^3 / 23 + 6e-6 of (turn w t) q, not of q (turn w t) *)
Theorem C70_euler_step :
  forall (lm : Libm) (ck : bool) (s : AR (A := F32 lm)) (g' : Sensor (A := F32 lm)) (q : quat) (w : nat -> R) (gx gy gz : T (Arith := F32 lm)),
  ar_hist ck s Live -> ar_method s = Euler -> is_finite (ar_ts s : f32) = true -> let t := B2R (ar_ts s : f32) in
  quat_f (ar_attitude s) q -> Rabs (qnorm q - 1) < / 1000000 ->
  sensor_update Gyr gx gy gz (ar_gyr s) = (g', Ok tt) -> reports g' w -> rnorm 3 w <= bpow radix2 60 -> rnorm 3 w * Rabs t <= 1000 ->
  let X := rnorm 3 w * Rabs t in let e := X * X * X / 23 + 6 / 1000000 in
  exists s' r, ar_update ck gx gy gz s = (s', Ok tt) /\ quat_f (ar_attitude s') r /\ Rabs (qnorm r - 1) < / 1000000 /\
    (102 / 100 * eps < rnorm 3 w -> qdist r (qmul (turn w t) q) <= e) /\
    qdist r (qmul (turn w t) q) <= e + eps * Rabs t.
Proof. exact l_euler_step32. Qed.
Print Assumptions C70_euler_step.

(** C70: the errors of successive order-1 updates only add up, for every number of updates *)
Theorem C70_taylor_track :
  forall (lm : Libm) (ck : bool) (s s' : AR (A := F32 lm)) (q p : quat) (ws : list (nat -> R)) (d : R),
  ar_hist ck s Live -> ar_method s = TaylorSeries -> ar_order s = 1%nat -> is_finite (ar_ts s : f32) = true -> let t := B2R (ar_ts s : f32) in
  quat_f (ar_attitude s) q -> Rabs (qnorm q - 1) < / 1000000 -> pow_one lm d -> 0 <= d <= / 1000 ->
  ar_run ck s ws s' -> Forall (fun w => rnorm 3 w <= bpow radix2 60 /\ rnorm 3 w * Rabs t <= 1000) ws ->
  exists r, quat_f (ar_attitude s') r /\ Rabs (qnorm r - 1) < / 1000000 /\
    qdist r (turns t p ws) <= qdist q p +
      sum_map (fun w => let X := rnorm 3 w * Rabs t in X * X * X / 23 + 6 / 1000000 + 5 * d + eps * Rabs t) ws.
Proof. exact l_taylor_track32. Qed.
Print Assumptions C70_taylor_track.

(** C70: and so do those of successive Euler updates, around the attitude turned about the axes of the reference frame *)
Theorem C70_euler_track :
  forall (lm : Libm) (ck : bool) (s s' : AR (A := F32 lm)) (q p : quat) (ws : list (nat -> R)),
  ar_hist ck s Live -> ar_method s = Euler -> is_finite (ar_ts s : f32) = true -> let t := B2R (ar_ts s : f32) in
  quat_f (ar_attitude s) q -> Rabs (qnorm q - 1) < / 1000000 ->
  ar_run ck s ws s' -> Forall (fun w => rnorm 3 w <= bpow radix2 60 /\ rnorm 3 w * Rabs t <= 1000) ws ->
  exists r, quat_f (ar_attitude s') r /\ Rabs (qnorm r - 1) < / 1000000 /\
    qdist r (turns_left t p ws) <= qdist q p +
      sum_map (fun w => let X := rnorm 3 w * Rabs t in X * X * X / 23 + 6 / 1000000 + eps * Rabs t) ws.
Proof. exact l_euler_track32. Qed.
Print Assumptions C70_euler_track.

(** one radian per second about z for one second, by either method *)
Example C70_example :
  forall (ck : bool) (m : NIM), m = TaylorSeries \/ m = Euler -> exists s s' : AR (A := F32 near_libm),
  ar_hist ck s Live /\ ar_method s = m /\ ar_order s = 1%nat /\ is_finite (ar_ts s : f32) = true /\ B2R (ar_ts s : f32) = 1 /\
  quat_f (ar_attitude s) qone /\ pow_one near_libm 0 /\ ar_run ck s [triple 0 0 1] s' /\ rnorm 3 (triple 0 0 1) = 1.
Proof. exact example_first. Qed.
