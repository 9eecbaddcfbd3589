(** Generated by tools/gen_properties.py from P_F32Ar.v: property theorems only. *)

From Coq Require Import List Arith ZArith NArith Reals Lia Bool Lra SpecFloat.
From Flocq Require Import Core BinarySingleNaN.
From Verif Require Import M_Base M_Arith M_Utils M_Vector M_Matrix M_Quaternion M_Sensors M_Ar M_F32
  S_Spec S_Linalg S_Norm S_Quat S_Sensors S_Ar S_F32 S_Track P_Inst P_InstF.
Import ListNotations.
Local Open Scope R_scope.

From Verif Require Import P_F32Ar.

(** C62: a ClosedForm update in f32, with sin and cos accurate to d, of a filter whose attitude q has norm 1 within 1e-6
    and whose gyrometer accepts the measurement and reports the corrected rate w, succeeds, and the new attitude is
    of norm 1 within 1e-6 again and within 7e-6 + 2e-6 |w| t + 5 d of q (turn w t); for rates below 1.02 EPSILON, which the
    filter may ignore, plus EPSILON t *)
Theorem C62_step :
  forall (lm : Libm) (ck : bool) (s : AR (A := F32 lm)) (g' : Sensor (A := F32 lm)) (q : quat) (w : nat -> R) (gx gy gz : T (Arith := F32 lm)) (d B : R),
  ar_hist ck s Live -> ar_method s = ClosedForm -> is_finite (ar_ts s : f32) = true -> let t := B2R (ar_ts s : f32) in
  quat_f (ar_attitude s) q -> Rabs (qnorm q - 1) < / 1000000 ->
  libm_accurate lm d B -> 0 <= d <= / 100 -> 1 <= B <= 1000 ->
  sensor_update Gyr gx gy gz (ar_gyr s) = (g', Ok tt) -> reports g' w -> rnorm 3 w <= bpow radix2 60 -> rnorm 3 w * Rabs t <= B ->
  let e := (7 + 2 * (rnorm 3 w * Rabs t)) / 1000000 + 5 * d in
  exists s' r, ar_update ck gx gy gz s = (s', Ok tt) /\ quat_f (ar_attitude s') r /\ Rabs (qnorm r - 1) < / 1000000 /\
    (102 / 100 * eps < rnorm 3 w -> qdist r (qmul q (turn w t)) <= e) /\
    qdist r (qmul q (turn w t)) <= e + eps * Rabs t.
Proof. exact l_ar_step32. Qed.
Print Assumptions C62_step.

(** C62: and the errors of successive updates only add up, for every number of updates: after a run of successful
    updates at the reported rates w1, w2, ..., the attitude is within the initial error plus the sum of
    7e-6 + 2e-6 |w_k| t + 5 d + EPSILON t of the attitude turned exactly *)
Theorem C62_track :
  forall (lm : Libm) (ck : bool) (s s' : AR (A := F32 lm)) (q p : quat) (ws : list (nat -> R)) (d B : R),
  ar_hist ck s Live -> ar_method s = ClosedForm -> is_finite (ar_ts s : f32) = true -> let t := B2R (ar_ts s : f32) in
  quat_f (ar_attitude s) q -> Rabs (qnorm q - 1) < / 1000000 ->
  libm_accurate lm d B -> 0 <= d <= / 100 -> 1 <= B <= 1000 ->
  ar_run ck s ws s' -> Forall (fun w => rnorm 3 w <= bpow radix2 60 /\ rnorm 3 w * Rabs t <= B) ws ->
  exists r, quat_f (ar_attitude s') r /\ Rabs (qnorm r - 1) < / 1000000 /\
    qdist r (turns t p ws) <= qdist q p +
      sum_map (fun w => (7 + 2 * (rnorm 3 w * Rabs t)) / 1000000 + 5 * d + eps * Rabs t) ws.
Proof. exact l_ar_track32. Qed.
Print Assumptions C62_track.

(** C62, violation: rates below 0.97 EPSILON, 97 microradians per second or 20 degrees per hour, are never
    seen: whatever the method and however long it lasts, the attitude does not change.  The Earth turns at 73
    microradians per second. *)
Theorem C62_dead_zone :
  forall (lm : Libm) (ck : bool) (s s' : AR (A := F32 lm)) (ws : list (nat -> R)),
  ar_hist ck s Live -> ar_run ck s ws s' -> Forall (fun w => rnorm 3 w <= 97 / 100 * eps) ws -> ar_attitude s' = ar_attitude s.
Proof. exact l_ar_dead. Qed.
Print Assumptions C62_dead_zone.

(** one radian per second about z for one second, with sin and cos rounded to 24 binary places *)
Example C62_example :
  forall ck : bool, exists s s' : AR (A := F32 near_libm),
  ar_hist ck s Live /\ ar_method s = ClosedForm /\ is_finite (ar_ts s : f32) = true /\ B2R (ar_ts s : f32) = 1 /\
  quat_f (ar_attitude s) qone /\ libm_accurate near_libm (2 / 10000000) 1000 /\
  ar_run ck s [triple 0 0 1] s' /\ rnorm 3 (triple 0 0 1) = 1.
Proof. exact example_run. Qed.
