(** Generated by tools/gen_properties.py from P_RawGyr.v: property theorems only. *)

From Coq Require Import List Arith ZArith NArith Reals Lia Bool Lra SpecFloat.
From Flocq Require Import Core BinarySingleNaN.
From Verif Require Import M_Base M_Arith M_Utils M_Vector M_Matrix M_Quaternion M_Sensors M_Ar M_F32
  S_Spec S_Linalg S_Norm S_Quat S_Sensors S_Ar S_F32 S_Track S_Raw S_RawGyr P_Inst P_InstF P_F32Ar.
Import ListNotations.
Local Open Scope R_scope.

From Verif Require Import P_RawGyr.

(** C83: a live ClosedForm filter with the gyrometer calibration c, fed with any number of raw samples in f32, with sin and
    cos accurate to d: if each sample is of ordinary size and its axes are made of contributions of total size at most M,
    then every update succeeds, and the attitude is within the initial error plus, per sample,
    7e-6 + 2e-6 |w| t + 5 d + EPSILON t + 0.501 e t of the body turned at its true rates w; here e is the distance of
    the exact calibrated sample from w plus 6.3e-7 M *)
Theorem C83_feed :
  forall (lm : Libm) (ck : bool) (s : AR (A := F32 lm)) (c : Config (A := F32 lm)) (l : list (sample lm)) (q p : quat) (d B M : R),
  ar_hist ck s Live -> ar_method s = ClosedForm -> is_finite (ar_ts s : f32) = true -> let t := B2R (ar_ts s : f32) in
  sensor_get_config Gyr (ar_gyr s) = Ok c -> quat_f (ar_attitude s) q -> Rabs (qnorm q - 1) < / 1000000 ->
  libm_accurate lm d B -> 0 <= d <= / 100 -> 1 <= B <= 1000 -> 0 <= M ->
  Forall (fun z => bounded c M z /\ rnorm 3 (true_rate z) + rate_error c M z <= bpow radix2 60 /\ (rnorm 3 (true_rate z) + rate_error c M z) * Rabs t <= B) l ->
  exists s' r, ar_feed ck l s = (s', Ok tt) /\ quat_f (ar_attitude s') r /\ Rabs (qnorm r - 1) < / 1000000 /\
    qdist r (turns t p (map true_rate l)) <= qdist q p +
      sum_map (fun z => (7 + 2 * (rnorm 3 (true_rate z) * Rabs t)) / 1000000 + 5 * d + eps * Rabs t + 501 / 1000 * (rate_error c M z * Rabs t)) l.
Proof. exact l_feed. Qed.
Print Assumptions C83_feed.

(** C83: attitudes turned for the time t at two rates differ by at most half the angle |w - v| t, for all rates, however fast *)
Theorem C83_rates :
  forall (w v : nat -> R) (t : R), qdist (turn w t) (turn v t) <= vdist 3 w v * Rabs t / 2.
Proof. exact l_turn_lip. Qed.
Print Assumptions C83_rates.

(** a calibration with scales 2, 3, 1, a cross coefficient and a bias; two samples, the first of them one percent off *)
Example C83_example :
  forall ck : bool, exists (s : AR (A := F32 near_libm)) (c : Config (A := F32 near_libm)), fields (A := F32 near_libm) c = map z32 [2; 3; 1; 0; 1; 0; 0; 0; 0; 1; 0; 0]%Z /\
  ar_hist ck s Live /\ ar_method s = ClosedForm /\ is_finite (ar_ts s : f32) = true /\ B2R (ar_ts s : f32) = 1 /\
  sensor_get_config Gyr (ar_gyr s) = Ok c /\ quat_f (ar_attitude s) qone /\ libm_accurate near_libm (2 / 10000000) 1000 /\
  Forall (fun z => bounded c 4 z /\ rnorm 3 (true_rate z) + rate_error c 4 z <= bpow radix2 60 /\ (rnorm 3 (true_rate z) + rate_error c 4 z) * Rabs 1 <= 1000)
    [Sample (z32 1) (z32 0) (z32 1) (triple 0 0 (101 / 100)); Sample (z32 3) (z32 1) (z32 (-2)) (triple 4 3 0)].
Proof. exact feed_ex. Qed.
