(** Generated by tools/gen_properties.py from P_RawGyr1.v: property theorems only. *)

From Coq Require Import List Arith ZArith NArith Reals Lia Bool Lra SpecFloat.
From Flocq Require Import Core BinarySingleNaN.
From Verif Require Import M_Base M_Arith M_Utils M_Vector M_Matrix M_Quaternion M_Sensors M_Ar M_F32
  S_Spec S_Linalg S_Norm S_Quat S_Sensors S_Ar S_F32 S_Track S_First S_Raw S_RawGyr P_Inst P_InstF P_F32Ar.
Import ListNotations.
Local Open Scope R_scope.

From Verif Require Import P_RawGyr1.

(** C87: a live filter on the Taylor series of order 1, with the gyrometer calibration c, fed with any number of raw
    samples in f32, with pow(x, 1) right up to a factor of 1 + d: if each sample is of ordinary size and its axes are made
    of contributions of total size at most M, then every update succeeds, and the attitude is within the initial error
    plus, per sample, X^3 / 23 + 6e-6 + 5 d + EPSILON t + 0.501 e t of the body turned at its true rates w; here e is the
    distance of the exact calibrated sample from w plus 6.3e-7 M, and X is the angle (|w| + e) t *)
Theorem C87_taylor :
  forall (lm : Libm) (ck : bool) (s : AR (A := F32 lm)) (c : Config (A := F32 lm)) (l : list (sample lm)) (q p : quat) (d M : R),
  ar_hist ck s Live -> ar_method s = TaylorSeries -> ar_order s = 1%nat -> is_finite (ar_ts s : f32) = true -> let t := B2R (ar_ts s : f32) in
  sensor_get_config Gyr (ar_gyr s) = Ok c -> quat_f (ar_attitude s) q -> Rabs (qnorm q - 1) < / 1000000 ->
  pow_one lm d -> 0 <= d <= / 1000 -> 0 <= M ->
  Forall (fun z => bounded c M z /\ rnorm 3 (true_rate z) + rate_error c M z <= bpow radix2 60 /\ (rnorm 3 (true_rate z) + rate_error c M z) * Rabs t <= 1000) l ->
  exists s' r, ar_feed ck l s = (s', Ok tt) /\ quat_f (ar_attitude s') r /\ Rabs (qnorm r - 1) < / 1000000 /\
    qdist r (turns t p (map true_rate l)) <= qdist q p + sum_map (fun z => let X := (rnorm 3 (true_rate z) + rate_error c M z) * Rabs t in X * X * X / 23 + 6 / 1000000 + 5 * d + eps * Rabs t + 501 / 1000 * (rate_error c M z * Rabs t)) l.
Proof. exact l_feed_taylor. Qed.
Print Assumptions C87_taylor.

(** C87: the same for the Euler method, without any libm, and the violation that it turns about the axes of the reference
    frame carries over: the attitude follows (turn w t) q, not q (turn w t) *)
Theorem C87_euler :
  forall (lm : Libm) (ck : bool) (s : AR (A := F32 lm)) (c : Config (A := F32 lm)) (l : list (sample lm)) (q p : quat) (M : R),
  ar_hist ck s Live -> ar_method s = Euler -> is_finite (ar_ts s : f32) = true -> let t := B2R (ar_ts s : f32) in
  sensor_get_config Gyr (ar_gyr s) = Ok c -> quat_f (ar_attitude s) q -> Rabs (qnorm q - 1) < / 1000000 ->
  0 <= M ->
  Forall (fun z => bounded c M z /\ rnorm 3 (true_rate z) + rate_error c M z <= bpow radix2 60 /\ (rnorm 3 (true_rate z) + rate_error c M z) * Rabs t <= 1000) l ->
  exists s' r, ar_feed ck l s = (s', Ok tt) /\ quat_f (ar_attitude s') r /\ Rabs (qnorm r - 1) < / 1000000 /\
    qdist r (turns_left t p (map true_rate l)) <= qdist q p + sum_map (fun z => let X := (rnorm 3 (true_rate z) + rate_error c M z) * Rabs t in X * X * X / 23 + 6 / 1000000 + eps * Rabs t + 501 / 1000 * (rate_error c M z * Rabs t)) l.
Proof. exact l_feed_euler. Qed.
Print Assumptions C87_euler.

(** the calibration and the samples of C83_example, for a filter on either method *)
Example C87_example :
  forall (ck : bool) (m : NIM), exists (s : AR (A := F32 near_libm)) (c : Config (A := F32 near_libm)), fields (A := F32 near_libm) c = map z32 [2; 3; 1; 0; 1; 0; 0; 0; 0; 1; 0; 0]%Z /\
  ar_hist ck s Live /\ ar_method s = m /\ ar_order s = 1%nat /\ is_finite (ar_ts s : f32) = true /\ B2R (ar_ts s : f32) = 1 /\
  sensor_get_config Gyr (ar_gyr s) = Ok c /\ quat_f (ar_attitude s) qone /\ pow_one near_libm 0 /\
  Forall (fun z => bounded c 4 z /\ rnorm 3 (true_rate z) + rate_error c 4 z <= bpow radix2 60 /\ (rnorm 3 (true_rate z) + rate_error c 4 z) * Rabs 1 <= 1000)
    [Sample (z32 1) (z32 0) (z32 1) (triple 0 0 (101 / 100)); Sample (z32 3) (z32 1) (z32 (-2)) (triple 4 3 0)].
Proof. exact first_feed_ex. Qed.
