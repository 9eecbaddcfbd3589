(** Generated by tools/gen_properties.py from P_Angles.v: property theorems only. *)

From Coq Require Import List Arith ZArith NArith Reals Lia Bool Lra SpecFloat.
From Flocq Require Import Core BinarySingleNaN.
From Verif Require Import M_Base M_Arith M_Utils M_Vector M_Matrix M_Quaternion M_Sensors M_Ar M_Aqua M_F32 M_RX
  S_Spec S_Linalg S_Norm S_Quat S_Sensors S_Ar S_Aqua S_F32 S_Reading S_Rest S_Raw S_Euler32 S_Angles S_Track S_RawGyr P_Inst P_InstF P_Rest32 P_Euler32.
Import ListNotations.
Local Open Scope R_scope.

From Verif Require Import P_Angles.

(** C89: take an attitude of norm 1 within 1e-6 whose tilt and heading errors relative to a true attitude t add up to at
    most s, and a libm whose asin and atan2 are off by at most d.  If t has the Euler angles roll, pitch and yaw, away from
    the vertical (cos pitch at least 0.01 and at least 20 s), [convert_to_euler] returns three finite angles, and the sine of
    half of each error is at most (2.01 s + 8e-6) / cos pitch + d / 2 *)
Theorem C89_angles :
  forall (lm : Libm) (v : Vec (T (Arith := F32 lm))) (q t : quat) (s d roll pitch yaw : R),
  quat_f v q -> Rabs (qnorm q - 1) <= / 1000000 -> unitq t -> tilt_error q t + heading_error q t <= s -> libm_angles lm d ->
  euler_of t roll pitch yaw -> / 100 <= cos pitch -> 20 * s <= cos pitch ->
  exists a b c, q_convert_to_euler v = Ok (a, b, c) /\ angles_within a b c roll pitch yaw ((201 / 100 * s + 8 / 1000000) / cos pitch + d / 2).
Proof. exact l_angles. Qed.
Print Assumptions C89_angles.

(** C89: so an update in mode AM from raw readings (the situation of C79) leaves an attitude whose Euler angles, as
    returned by [convert_to_euler], are those of the true attitude with the error given by the noise of the readings *)
Theorem C89_raw :
  forall (lm : Libm) (s : Aqua (A := F32 lm)) (ca cm : Config (A := F32 lm)) (gx gy gz : option (T (Arith := F32 lm)))
    (ax ay az mx my mz : T (Arith := F32 lm)) (t : quat) (h v eta mu Ka Km d roll pitch yaw : R),
  aq_hist s Live -> aq_mode s = AM -> aq_get_accelerometer_config s = Ok ca -> aq_get_magnetometer_config s = Ok cm ->
  let a := calibrated Acc ca (raw3 ax ay az) in let m := calibrated Mag cm (raw3 mx my mz) in
  ordinary Acc ca (raw3 ax ay az) -> ordinary Mag cm (raw3 mx my mz) ->
  mixing Acc ca (raw3 ax ay az) Ka -> mixing Mag cm (raw3 mx my mz) Km -> 1 <= Ka <= 10000 -> 1 <= Km <= 10000 ->
  3 * eps <= rnorm 3 a <= bpow radix2 59 -> 3 * eps <= rnorm 3 m <= bpow radix2 59 ->
  unitq t -> 2 / 1000 <= h -> h * h + v * v = 1 ->
  vdist 3 (fun i => a i / rnorm 3 a) (qrot t (triple 0 0 (-1))) <= eta ->
  vdist 3 (fun i => m i / rnorm 3 m) (qrot t (triple h 0 v)) <= mu ->
  let rho := (mu + 13 / 10000000 * Km) + 102 / 100 * (eta + 13 / 10000000 * Ka) + 14 / 100000 in rho <= 1 / 3 * h ->
  libm_angles lm d -> euler_of t roll pitch yaw ->
  let e := (eta + 13 / 10000000 * Ka) / 2 + 15 / 1000000 + 51 / 100 * (rho / h) in / 100 <= cos pitch -> 20 * e <= cos pitch ->
  exists s' w r p y, aq_update gx gy gz ax ay az mx my mz s = (s', Ok tt) /\ aq_get_attitude s' = Ok w /\
    q_convert_to_euler w = Ok (r, p, y) /\ angles_within r p y roll pitch yaw ((201 / 100 * e + 8 / 1000000) / cos pitch + d / 2).
Proof. exact l_raw_angles. Qed.
Print Assumptions C89_raw.

(** C89: likewise for mode MARG with fixed gains: after a number of updates at rest that depends only on the gains, the
    horizontal field and the margin d, the Euler angles returned are those of the true attitude, with the error given by
    the remainders of C66 *)
Theorem C89_rest :
  forall (ka kb h d : R), 0 < ka <= 1 -> 0 < kb <= 1 -> 0 < h -> 0 < d ->
  exists N, forall (lm : Libm) (s : Aqua (A := F32 lm)) (cg ca cm : Config (A := F32 lm)) (q t : quat) (ts ta tm e eta mu dl roll pitch yaw : R) (z : nat -> nat -> T (Arith := F32 lm)),
  marg32 s cg ca cm q ts ka ta kb tm -> unitq t -> (forall n, resting cg ca cm t h ts e eta mu (z n)) -> quiet ka kb h e eta mu -> near_truth q t h ->
  libm_angles lm dl -> euler_of t roll pitch yaw ->
  let b := tilt_rest ka e eta + heading_rest ka kb h e eta mu + d in / 100 <= cos pitch -> 20 * b <= cos pitch ->
  forall n, (N <= n)%nat -> exists s' w r p y, run_with z n s = Some s' /\ aq_get_attitude s' = Ok w /\
    q_convert_to_euler w = Ok (r, p, y) /\ angles_within r p y roll pitch yaw ((201 / 100 * b + 8 / 1000000) / cos pitch + dl / 2).
Proof. exact l_rest_angles. Qed.
Print Assumptions C89_rest.

(** C89: likewise for the angular-rate filter in closed form (the situation of C83), fed with any number of raw samples:
    the Euler angles returned are those of the body turned at its true rates, with the error given by the bound of C83 *)
Theorem C89_rates :
  forall (lm : Libm) (ck : bool) (s : AR (A := F32 lm)) (c : Config (A := F32 lm)) (l : list (sample lm)) (q p : quat) (d B M dl roll pitch yaw : R),
  ar_hist ck s Live -> ar_method s = ClosedForm -> is_finite (ar_ts s : f32) = true -> let t := B2R (ar_ts s : f32) in
  sensor_get_config Gyr (M_Ar.ar_gyr s) = Ok c -> quat_f (ar_attitude s) q -> Rabs (qnorm q - 1) < / 1000000 -> unitq p ->
  libm_accurate lm d B -> 0 <= d <= / 100 -> 1 <= B <= 1000 -> 0 <= M ->
  Forall (fun z => bounded c M z /\ rnorm 3 (true_rate z) + rate_error c M z <= bpow radix2 60 /\ (rnorm 3 (true_rate z) + rate_error c M z) * Rabs t <= B) l ->
  libm_angles lm dl -> euler_of (turns t p (map true_rate l)) roll pitch yaw ->
  let e := qdist q p + sum_map (fun z => (7 + 2 * (rnorm 3 (true_rate z) * Rabs t)) / 1000000 + 5 * d + eps * Rabs t + 501 / 1000 * (rate_error c M z * Rabs t)) l in
  / 100 <= cos pitch -> 17 * e <= cos pitch ->
  exists s' r y z, ar_feed ck l s = (s', Ok tt) /\
    q_convert_to_euler (ar_attitude s') = Ok (r, y, z) /\ angles_within r y z roll pitch yaw ((2 * e + 1 / 100000) / cos pitch + dl / 2).
Proof. exact l_rate_angles. Qed.
Print Assumptions C89_rates.

(** an attitude that is the identity while the true one is turned by 0.02 rad about the vertical *)
Example C89_example_angles :
  exists (v : Vec (T (Arith := F32 angle_libm))), let t := Quat (cos (/ 100)) 0 0 (sin (/ 100)) in
  quat_f v qone /\ Rabs (qnorm qone - 1) <= / 1000000 /\ unitq t /\ tilt_error qone t + heading_error qone t <= / 100 /\
  libm_angles angle_libm (5 / 10000000) /\ euler_of t 0 0 (2 / 100) /\ / 100 <= cos 0 /\ 20 * / 100 <= cos 0.
Proof. exact angles_ex. Qed.

(** the raw readings of C79's example, with an error of about a degree, satisfy the hypotheses of [C89_raw] *)
Example C89_example_raw : exists (s : Aqua (A := F32 angle_libm)) (ca : Config (A := F32 angle_libm)), aq_hist s Live /\ aq_mode s = AM /\
  aq_get_accelerometer_config s = Ok ca /\ aq_get_magnetometer_config s = Ok default_config /\
  let ra := raw3 (A := F32 angle_libm) (z32 (-9)) (z32 4) (z32 1) in let rm := raw3 (A := F32 angle_libm) (z32 125) (z32 0) (z32 0) in
  let a := calibrated Acc ca ra in let m := calibrated Mag default_config rm in
  ordinary Acc ca ra /\ ordinary Mag default_config rm /\ mixing Acc ca ra 1 /\ mixing Mag default_config rm 1 /\
  3 * eps <= rnorm 3 a <= bpow radix2 59 /\ 3 * eps <= rnorm 3 m <= bpow radix2 59 /\
  let t := Quat (4 / 5) (2 / 5) (2 / 5) (1 / 5) in unitq t /\
  vdist 3 (fun i => a i / rnorm 3 a) (qrot t (triple 0 0 (-1))) <= 1 / 100 /\
  vdist 3 (fun i => m i / rnorm 3 m) (qrot t (triple (3 / 5) 0 (4 / 5))) <= 2 / 100 /\
  let rho := (2 / 100 + 13 / 10000000 * 1) + 102 / 100 * (1 / 100 + 13 / 10000000 * 1) + 14 / 100000 in rho <= 1 / 3 * (3 / 5) /\
  libm_angles angle_libm (5 / 10000000) /\
  exists roll pitch yaw, euler_of t roll pitch yaw /\ / 100 <= cos pitch /\
    20 * ((1 / 100 + 13 / 10000000 * 1) / 2 + 15 / 1000000 + 51 / 100 * (rho / (3 / 5))) <= cos pitch.
Proof. exact raw_angles_ex. Qed.

(** the filter of C66's example, 25 degrees off at first, satisfies the hypotheses of [C89_rest] *)
Example C89_example_rest : exists (s : Aqua (A := F32 angle_libm)) ts ka ta kb tm roll pitch yaw,
  marg32 s default_config default_config default_config qone ts ka ta kb tm /\ unitq ex_t /\
  resting (lm := angle_libm) default_config default_config default_config ex_t (3 / 5) ts 0 0 0 (ex_z angle_libm) /\
  quiet ka kb (3 / 5) 0 0 0 /\ near_truth qone ex_t (3 / 5) /\ 0 < ka <= 1 /\ 0 < kb <= 1 /\
  libm_angles angle_libm (5 / 10000000) /\ euler_of ex_t roll pitch yaw /\ / 100 <= cos pitch /\
  20 * (tilt_rest ka 0 0 + heading_rest ka kb (3 / 5) 0 0 0 + / 100) <= cos pitch.
Proof. exact rest_angles_ex. Qed.

(** one raw sample, one percent off, of a body turning about its vertical axis *)
Example C89_example_rates :
  forall ck : bool, exists (s : AR (A := F32 good_libm)) (c : Config (A := F32 good_libm)),
  ar_hist ck s Live /\ ar_method s = ClosedForm /\ is_finite (ar_ts s : f32) = true /\ B2R (ar_ts s : f32) = 1 /\
  sensor_get_config Gyr (M_Ar.ar_gyr s) = Ok c /\ quat_f (ar_attitude s) qone /\ Rabs (qnorm qone - 1) < / 1000000 /\
  libm_accurate good_libm (2 / 10000000) 1000 /\ libm_angles good_libm (5 / 10000000) /\
  let z := Sample (lm := good_libm) (z32 1) (z32 0) (z32 1) (triple 0 0 (101 / 100)) in
  bounded c 4 z /\ rnorm 3 (true_rate z) + rate_error c 4 z <= bpow radix2 60 /\ (rnorm 3 (true_rate z) + rate_error c 4 z) * Rabs 1 <= 1000 /\
  euler_of (turns 1 qone [true_rate z]) 0 0 (101 / 100) /\ / 100 <= cos 0 /\
  17 * (qdist qone qone + ((7 + 2 * (rnorm 3 (true_rate z) * Rabs 1)) / 1000000 + 5 * (2 / 10000000) + eps * Rabs 1 + 501 / 1000 * (rate_error c 4 z * Rabs 1))) <= cos 0.
Proof. exact rate_angles_ex. Qed.
