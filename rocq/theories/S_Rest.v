(** Specification vocabulary for a MARG filter at rest in f32: how far an attitude is from the true one, and
    measurements of a body at rest. *)
From Coq Require Import Reals.
From Flocq Require Import Core BinarySingleNaN.
From Verif Require Import M_Base M_Arith M_Vector M_Sensors M_Ar M_Aqua M_F32 S_Spec S_Linalg S_Norm S_Quat S_Sensors S_Ar S_Aqua S_F32 S_Reading.
Local Open Scope R_scope.

(** the turn still missing from the attitude q to the true attitude t *)
Definition missing (q t : quat) : quat := qmul (qconj (qunit q)) t.
(** sine of half the angle between the two verticals *)
Definition tilt_error (q t : quat) : R := let e := missing q t in sqrt (Qx e * Qx e + Qy e * Qy e).
(** sine of half the turn about the vertical that is left once the verticals agree *)
Definition heading_error (q t : quat) : R := let e := missing q t in Rabs (Qz e) / sqrt (Qw e * Qw e + Qz e * Qz e).

(** a live filter in mode MARG with fixed gains, as real numbers *)
Record marg32 {lm : Libm} (s : Aqua (A := F32 lm)) (cg ca cm : Config (A := F32 lm)) (q : quat) (ts ka ta kb tm : R) : Prop := {
  m32_hist : aq_hist s Live;
  m32_mode : aq_mode s = MARG;
  m32_fixed : aq_adaptive s = false;
  m32_gyr : aq_get_gyrometer_config s = Ok cg;
  m32_acc : aq_get_accelerometer_config s = Ok ca;
  m32_mag : aq_get_magnetometer_config s = Ok cm;
  m32_att : exists v, aq_get_attitude s = Ok v /\ quat_f v q;
  m32_norm : Rabs (qnorm q - 1) < / 1000000;
  m32_ts : is_finite (aq_ts s : f32) = true /\ B2R (aq_ts s : f32) = ts;
  m32_alpha : is_finite (aq_alpha s : f32) = true /\ B2R (aq_alpha s : f32) = ka;
  m32_t_acc : is_finite (aq_t_acc s : f32) = true /\ B2R (aq_t_acc s : f32) = ta;
  m32_beta : is_finite (aq_beta s : f32) = true /\ B2R (aq_beta s : f32) = kb;
  m32_t_mag : is_finite (aq_t_mag s : f32) = true /\ B2R (aq_t_mag s : f32) = tm;
  m32_ka : 0 <= ka <= 1; m32_kb : 0 <= kb <= 1;
  m32_ta : 0 <= ta <= 9 / 10; m32_tm : 0 <= tm <= 9 / 10;
  m32_tsb : Rabs ts <= 1000
}.
(** measurements (w, a, m) at rest in the true attitude t, where the field has the horizontal part h: in one period the
    rates turn by an angle of at most 2 e, the acceleration is within eta of a vector of length about 1 straight down,
    and the direction of the field is within mu of the true one *)
Record at_rest (t : quat) (h ts e eta mu : R) (w a m : nat -> R) : Prop := {
  ar_gyr : rnorm 3 w * Rabs ts / 2 <= e /\ rnorm 3 w <= bpow radix2 60;
  ar_acc : exists r, Rabs (r - 1) <= 1 / 20 /\ vdist 3 a (qrot t (triple 0 0 (- r))) <= eta;
  ar_len : 2 * eps <= rnorm 3 m <= bpow radix2 60;
  ar_mag : exists v, h * h + v * v = 1 /\ vdist 3 (fun i => m i / rnorm 3 m) (qrot t (triple h 0 v)) <= mu
}.
(** raw values z 0 .. z 8 (rates, acceleration, field) that sensors with these configurations accept, taken at rest *)
Definition resting {lm : Libm} (cg ca cm : Config (A := F32 lm)) (t : quat) (h ts e eta mu : R) (z : nat -> T (Arith := F32 lm)) : Prop :=
  exists w a m, reading Gyr cg (z 0%nat) (z 1%nat) (z 2%nat) w /\ reading Acc ca (z 3%nat) (z 4%nat) (z 5%nat) a /\
    reading Mag cm (z 6%nat) (z 7%nat) (z 8%nat) m /\ at_rest t h ts e eta mu w a m.
Definition update_with {lm : Libm} (z : nat -> T (Arith := F32 lm)) (s : Aqua (A := F32 lm)) : Aqua (A := F32 lm) * res AhrsError unit :=
  aq_update (Some (z 0%nat)) (Some (z 1%nat)) (Some (z 2%nat)) (z 3%nat) (z 4%nat) (z 5%nat) (z 6%nat) (z 7%nat) (z 8%nat) s.
(** n updates, with the values z 0, z 1, ..; [None] as soon as one fails *)
Fixpoint run_with {lm : Libm} (z : nat -> nat -> T (Arith := F32 lm)) (n : nat) (s : Aqua (A := F32 lm)) : option (Aqua (A := F32 lm)) :=
  match n with
  | O => Some s
  | S n => match run_with z n s with
           | Some s1 => match update_with (z n) s1 with (s2, Ok tt) => Some s2 | _ => None end
           | None => None
           end
  end.
(** what one update may add to the two errors, apart from what it takes off *)
Definition tilt_drift (ka e eta : R) : R := 51 / 50 * e + 13 / 20 * ka * eta + 4 / 100000.
Definition heading_drift (ka e eta : R) : R := 107 / 100 * e + 1 / 10 * ka * eta + 3 / 100000.
(** the attitude q is near the true one, and the disturbances are small against the gains and the horizontal field *)
Definition near_truth (q t : quat) (h : R) : Prop := tilt_error q t <= 9 / 100 * h /\ heading_error q t <= 1 / 4.
Definition quiet (ka kb h e eta mu : R) : Prop :=
  1 / 100 <= h <= 1 /\ e <= 1 / 200 /\ eta <= 19 / 1000 /\ tilt_drift ka e eta <= 7 / 100 * ka * h /\
  heading_drift ka e eta <= 1 / 50 * kb /\ mu + 7 / 100000 <= 3 / 100 * h.
(** the errors that may remain for ever *)
Definition tilt_rest (ka e eta : R) : R := tilt_drift ka e eta / (4 / 5 * ka).
Definition heading_rest (ka kb h e eta mu : R) : R :=
  (heading_drift ka e eta + 84 / 100 * kb * ((204 / 100 * tilt_rest ka e eta + mu + 7 / 100000) / h)) / (4 / 5 * kb).
