(** Generated by tools/gen_properties.py from P_Direct.v: property theorems only. *)

From Coq Require Import List Arith ZArith NArith Reals Lia Bool Lra SpecFloat.
From Flocq Require Import Core BinarySingleNaN.
From Verif Require Import M_Base M_Arith M_Utils M_Vector M_Matrix M_Quaternion M_Sensors M_Ar M_Aqua M_F32 M_RX
  S_Spec S_Linalg S_Norm S_Quat S_Sensors S_Ar S_Aqua S_F32 S_Reading S_Rest S_Raw S_Direct S_Track S_First S_RawGyr S_Twin P_Inst P_InstF P_Rest32 P_Euler32 P_Angles P_Interp32.
Import ListNotations.
Local Open Scope R_scope.

From Verif Require Import P_Direct.

(** C91: take an f32 attitude of norm 1 within 1e-6 whose tilt and heading errors relative to a true attitude t add up to at most s (up to 1/20).
    Rotating a vector of the reference frame with it gives what the body sees, rotating what the body sees with its conjugate
    gives the vector of the reference frame, and its matrix is the matrix of t, all up to 2.01 s + 1.9e-5 (times the length of the vector) *)
Theorem C91_attitude :
  forall (lm : Libm) (w : Vec (T (Arith := F32 lm))) (q t : quat) (s : R),
  quat_f w q -> Rabs (qnorm q - 1) <= / 1000000 -> unitq t -> tilt_error q t + heading_error q t <= s -> s <= / 20 ->
  turns_as w t (201 / 100 * s + 19 / 1000000).
Proof. exact l_direct. Qed.
Print Assumptions C91_attitude.

(** C91: so an update in mode AM from raw readings (the situation of C79) leaves an attitude that turns vectors as the true one does,
    up to the error given by the noise of the readings *)
Theorem C91_raw :
  forall (lm : Libm) (s : Aqua (A := F32 lm)) (ca cm : Config (A := F32 lm)) (gx gy gz : option (T (Arith := F32 lm)))
    (ax ay az mx my mz : T (Arith := F32 lm)) (t : quat) (h v eta mu Ka Km : R),
  aq_hist s Live -> aq_mode s = AM -> aq_get_accelerometer_config s = Ok ca -> aq_get_magnetometer_config s = Ok cm ->
  let a := calibrated Acc ca (raw3 ax ay az) in let m := calibrated Mag cm (raw3 mx my mz) in
  ordinary Acc ca (raw3 ax ay az) -> ordinary Mag cm (raw3 mx my mz) ->
  mixing Acc ca (raw3 ax ay az) Ka -> mixing Mag cm (raw3 mx my mz) Km -> 1 <= Ka <= 10000 -> 1 <= Km <= 10000 ->
  3 * eps <= rnorm 3 a <= bpow radix2 59 -> 3 * eps <= rnorm 3 m <= bpow radix2 59 ->
  unitq t -> 2 / 1000 <= h -> h * h + v * v = 1 ->
  vdist 3 (fun i => a i / rnorm 3 a) (qrot t (triple 0 0 (-1))) <= eta ->
  vdist 3 (fun i => m i / rnorm 3 m) (qrot t (triple h 0 v)) <= mu ->
  let rho := (mu + 13 / 10000000 * Km) + 102 / 100 * (eta + 13 / 10000000 * Ka) + 14 / 100000 in rho <= 1 / 3 * h ->
  let e := (eta + 13 / 10000000 * Ka) / 2 + 15 / 1000000 + 51 / 100 * (rho / h) in e <= / 20 ->
  exists s' w, aq_update gx gy gz ax ay az mx my mz s = (s', Ok tt) /\ aq_get_attitude s' = Ok w /\ turns_as w t (201 / 100 * e + 19 / 1000000).
Proof. exact l_direct_raw. Qed.
Print Assumptions C91_raw.

(** C91: likewise for mode MARG with fixed gains, after a number of updates at rest that depends only on the gains, the horizontal field and the margin d *)
Theorem C91_rest :
  forall (ka kb h d : R), 0 < ka <= 1 -> 0 < kb <= 1 -> 0 < h -> 0 < d ->
  exists N, forall (lm : Libm) (s : Aqua (A := F32 lm)) (cg ca cm : Config (A := F32 lm)) (q t : quat) (ts ta tm e eta mu : R) (z : nat -> nat -> T (Arith := F32 lm)),
  marg32 s cg ca cm q ts ka ta kb tm -> unitq t -> (forall n, resting cg ca cm t h ts e eta mu (z n)) -> quiet ka kb h e eta mu -> near_truth q t h ->
  let b := tilt_rest ka e eta + heading_rest ka kb h e eta mu + d in b <= / 20 ->
  forall n, (N <= n)%nat -> exists s' w, run_with z n s = Some s' /\ aq_get_attitude s' = Ok w /\ turns_as w t (201 / 100 * b + 19 / 1000000).
Proof. exact l_direct_rest. Qed.
Print Assumptions C91_rest.

(** C91: likewise for the angular-rate filter in closed form (the situation of C83), fed with any number of raw samples: its attitude turns vectors as
    that of the body turned at its true rates *)
Theorem C91_rates :
  forall (lm : Libm) (ck : bool) (s : AR (A := F32 lm)) (c : Config (A := F32 lm)) (l : list (sample lm)) (q p : quat) (d B M : R),
  ar_hist ck s Live -> ar_method s = ClosedForm -> is_finite (ar_ts s : f32) = true -> let t := B2R (ar_ts s : f32) in
  sensor_get_config Gyr (M_Ar.ar_gyr s) = Ok c -> quat_f (ar_attitude s) q -> Rabs (qnorm q - 1) < / 1000000 -> unitq p ->
  libm_accurate lm d B -> 0 <= d <= / 100 -> 1 <= B <= 1000 -> 0 <= M ->
  Forall (fun z => bounded c M z /\ rnorm 3 (true_rate z) + rate_error c M z <= bpow radix2 60 /\ (rnorm 3 (true_rate z) + rate_error c M z) * Rabs t <= B) l ->
  let e := qdist q p + sum_map (fun z => (7 + 2 * (rnorm 3 (true_rate z) * Rabs t)) / 1000000 + 5 * d + eps * Rabs t + 501 / 1000 * (rate_error c M z * Rabs t)) l in
  exists s', ar_feed ck l s = (s', Ok tt) /\ turns_as (ar_attitude s') (turns t p (map true_rate l)) (2 * e + 21 / 1000000).
Proof. exact l_direct_rates. Qed.
Print Assumptions C91_rates.

(** C91: and for the angular-rate filter on the Taylor series of order 1 (the situation of C87) *)
Theorem C91_first :
  forall (lm : Libm) (ck : bool) (s : AR (A := F32 lm)) (c : Config (A := F32 lm)) (l : list (sample lm)) (q p : quat) (d M : R),
  ar_hist ck s Live -> ar_method s = TaylorSeries -> ar_order s = 1%nat -> is_finite (ar_ts s : f32) = true -> let t := B2R (ar_ts s : f32) in
  sensor_get_config Gyr (M_Ar.ar_gyr s) = Ok c -> quat_f (ar_attitude s) q -> Rabs (qnorm q - 1) < / 1000000 -> unitq p ->
  pow_one lm d -> 0 <= d <= / 1000 -> 0 <= M ->
  Forall (fun z => bounded c M z /\ rnorm 3 (true_rate z) + rate_error c M z <= bpow radix2 60 /\ (rnorm 3 (true_rate z) + rate_error c M z) * Rabs t <= 1000) l ->
  let e := qdist q p + sum_map (fun z => let X := (rnorm 3 (true_rate z) + rate_error c M z) * Rabs t in X * X * X / 23 + 6 / 1000000 + 5 * d + eps * Rabs t + 501 / 1000 * (rate_error c M z * Rabs t)) l in
  exists s', ar_feed ck l s = (s', Ok tt) /\ turns_as (ar_attitude s') (turns t p (map true_rate l)) (2 * e + 21 / 1000000).
Proof. exact l_direct_first. Qed.
Print Assumptions C91_first.

(** C91: and for a filter with an adaptive gain at rest whose reference suits accelerations of length one (C90) *)
Theorem C91_adaptive :
  forall (ka kb h d : R), 0 < ka <= 1 -> 0 < kb <= 1 -> 0 < h -> 0 < d ->
  exists N, forall (lm : Libm) (s s0 : Aqua (A := F32 lm)) (cg ca cm : Config (A := F32 lm)) (q t : quat) (ts ta tm e eta mu : R) (z : nat -> nat -> T (Arith := F32 lm)),
  aq_hist s Live -> alike s s0 -> marg32 s0 cg ca cm q ts ka ta kb tm -> unitq t -> (forall n, resting cg ca cm t h ts e eta mu (z n)) ->
  quiet ka kb h e eta mu -> near_truth q t h -> steady s ->
  let b := tilt_rest ka e eta + heading_rest ka kb h e eta mu + d in b <= / 20 ->
  forall n, (N <= n)%nat -> exists s' w, run_with z n s = Some s' /\ aq_get_attitude s' = Ok w /\ turns_as w t (201 / 100 * b + 19 / 1000000).
Proof. exact l_direct_twin. Qed.
Print Assumptions C91_adaptive.

(** the identity, off by more than a degree, and a vector *)
Example C91_example :
  exists (w v : Vec (T (Arith := F32 angle_libm))), let t := Quat (cos (/ 100)) 0 0 (sin (/ 100)) in
  quat_f w qone /\ Rabs (qnorm qone - 1) <= / 1000000 /\ unitq t /\ tilt_error qone t + heading_error qone t <= / 100 /\
  vec_f v 3 (triple 1 2 3) /\ rnorm 3 (triple 1 2 3) <= bpow radix2 100.
Proof. exact direct_ex. Qed.

(** the raw readings of C79's example satisfy the hypotheses of [C91_raw] *)
Example C91_example_raw : exists (s : Aqua (A := F32 angle_libm)) (ca : Config (A := F32 angle_libm)), aq_hist s Live /\ aq_mode s = AM /\
  aq_get_accelerometer_config s = Ok ca /\ aq_get_magnetometer_config s = Ok default_config /\
  let ra := raw3 (A := F32 angle_libm) (z32 (-9)) (z32 4) (z32 1) in let rm := raw3 (A := F32 angle_libm) (z32 125) (z32 0) (z32 0) in
  let a := calibrated Acc ca ra in let m := calibrated Mag default_config rm in
  ordinary Acc ca ra /\ ordinary Mag default_config rm /\ mixing Acc ca ra 1 /\ mixing Mag default_config rm 1 /\
  3 * eps <= rnorm 3 a <= bpow radix2 59 /\ 3 * eps <= rnorm 3 m <= bpow radix2 59 /\
  let t := Quat (4 / 5) (2 / 5) (2 / 5) (1 / 5) in unitq t /\
  vdist 3 (fun i => a i / rnorm 3 a) (qrot t (triple 0 0 (-1))) <= 1 / 100 /\
  vdist 3 (fun i => m i / rnorm 3 m) (qrot t (triple (3 / 5) 0 (4 / 5))) <= 2 / 100 /\
  let rho := (2 / 100 + 13 / 10000000 * 1) + 102 / 100 * (1 / 100 + 13 / 10000000 * 1) + 14 / 100000 in rho <= 1 / 3 * (3 / 5) /\
  (1 / 100 + 13 / 10000000 * 1) / 2 + 15 / 1000000 + 51 / 100 * (rho / (3 / 5)) <= / 20.
Proof. exact direct_raw_ex. Qed.

(** a filter with an adaptive gain, its twin with a fixed gain, and measurements meeting the hypotheses of [C91_rest] and [C91_adaptive] *)
Example C91_example_rest : exists (s s0 : Aqua (A := F32 angle_libm)) ts ka ta kb tm,
  aq_hist s Live /\ aq_adaptive s = true /\ alike s s0 /\ steady s /\
  marg32 s0 default_config default_config default_config qone ts ka ta kb tm /\ unitq ex_t /\
  resting (lm := angle_libm) default_config default_config default_config ex_t (3 / 5) ts 0 0 0 (ex_z angle_libm) /\
  quiet ka kb (3 / 5) 0 0 0 /\ near_truth qone ex_t (3 / 5) /\ 0 < ka <= 1 /\ 0 < kb <= 1 /\
  tilt_rest ka 0 0 + heading_rest ka kb (3 / 5) 0 0 0 + / 100 <= / 20.
Proof. exact direct_rest_ex. Qed.

(** one raw sample, one percent off, of a body turning about its vertical axis *)
Example C91_example_rates :
  forall ck : bool, exists (s : AR (A := F32 good_libm)) (c : Config (A := F32 good_libm)),
  ar_hist ck s Live /\ ar_method s = ClosedForm /\ is_finite (ar_ts s : f32) = true /\ B2R (ar_ts s : f32) = 1 /\
  sensor_get_config Gyr (M_Ar.ar_gyr s) = Ok c /\ quat_f (ar_attitude s) qone /\ Rabs (qnorm qone - 1) < / 1000000 /\
  libm_accurate good_libm (2 / 10000000) 1000 /\
  let z := Sample (lm := good_libm) (z32 1) (z32 0) (z32 1) (triple 0 0 (101 / 100)) in
  bounded c 4 z /\ rnorm 3 (true_rate z) + rate_error c 4 z <= bpow radix2 60 /\ (rnorm 3 (true_rate z) + rate_error c 4 z) * Rabs 1 <= 1000.
Proof. exact direct_rates_ex. Qed.

(** the same sample, for a filter on the Taylor series of order 1 *)
Example C91_example_first :
  forall ck : bool, exists (s : AR (A := F32 good_libm)) (c : Config (A := F32 good_libm)),
  ar_hist ck s Live /\ ar_method s = TaylorSeries /\ ar_order s = 1%nat /\ is_finite (ar_ts s : f32) = true /\ B2R (ar_ts s : f32) = 1 /\
  sensor_get_config Gyr (M_Ar.ar_gyr s) = Ok c /\ quat_f (ar_attitude s) qone /\ Rabs (qnorm qone - 1) < / 1000000 /\ pow_one good_libm 0 /\
  let z := Sample (lm := good_libm) (z32 1) (z32 0) (z32 1) (triple 0 0 (101 / 100)) in
  bounded c 4 z /\ rnorm 3 (true_rate z) + rate_error c 4 z <= bpow radix2 60 /\ (rnorm 3 (true_rate z) + rate_error c 4 z) * Rabs 1 <= 1000.
Proof. exact direct_first_ex. Qed.
