(** Generated by tools/gen_properties.py from P_AmTrue.v: property theorems only. *)

From Coq Require Import List Arith ZArith NArith Reals Lia Bool Lra SpecFloat.
From Flocq Require Import Core BinarySingleNaN.
From Verif Require Import M_Base M_Arith M_Utils M_Vector M_Matrix M_Quaternion M_Sensors M_Ar M_Aqua M_F32
  S_Spec S_Linalg S_Norm S_Quat S_Sensors S_Ar S_Aqua S_F32 S_Reading S_Rest P_Inst P_InstF.
Import ListNotations.
Local Open Scope R_scope.

From Verif Require Import P_AmTrue.

(** C67: in f32, for every true attitude t, an update in mode AM from a measured acceleration within eta of straight
    down and a measured field within mu of the true one yields an attitude whose tilt error is at most eta/2 + 15e-6
    and whose heading error is at most half of (mu + 1.02 eta + 14e-5) / h, where h is the horizontal part of the field *)
Theorem C67_accuracy :
  forall (lm : Libm) (s : Aqua (A := F32 lm)) (ca cm : Config (A := F32 lm)) (gx gy gz : option (T (Arith := F32 lm)))
    (ax ay az mx my mz : T (Arith := F32 lm)) (a m : nat -> R) (t : quat) (h v eta mu : R),
  aq_hist s Live -> aq_mode s = AM -> aq_get_accelerometer_config s = Ok ca -> aq_get_magnetometer_config s = Ok cm ->
  reading Acc ca ax ay az a -> reading Mag cm mx my mz m ->
  2 * eps <= rnorm 3 a <= bpow radix2 60 -> 2 * eps <= rnorm 3 m <= bpow radix2 60 ->
  unitq t -> 2 / 1000 <= h -> h * h + v * v = 1 ->
  vdist 3 (fun i => a i / rnorm 3 a) (qrot t (triple 0 0 (-1))) <= eta ->
  vdist 3 (fun i => m i / rnorm 3 m) (qrot t (triple h 0 v)) <= mu ->
  let rho := mu + 102 / 100 * eta + 14 / 100000 in rho <= 1 / 3 * h ->
  exists s' w q, aq_update gx gy gz ax ay az mx my mz s = (s', Ok tt) /\ aq_get_attitude s' = Ok w /\ quat_f w q /\
    Rabs (qnorm q - 1) < / 1000000 /\ tilt_error q t <= eta / 2 + 15 / 1000000 /\ heading_error q t <= 51 / 100 * (rho / h).
Proof. exact l_am_true. Qed.
Print Assumptions C67_accuracy.

(** a true attitude tilted by 69 degrees, read with an error of at most one and two hundredths *)
Example C67_example : forall lm, exists s : Aqua (A := F32 lm), aq_hist s Live /\ aq_mode s = AM /\
  aq_get_accelerometer_config s = Ok default_config /\ aq_get_magnetometer_config s = Ok default_config /\
  reading (lm := lm) Acc default_config (z32 (-20)) (z32 (12)) (z32 (-9)) (triple (-20) (12) (-9)) /\
  reading (lm := lm) Mag default_config (z32 (125)) (z32 (0)) (z32 (0)) (triple (125) (0) (0)) /\
  2 * eps <= rnorm 3 (triple (-20) (12) (-9)) <= bpow radix2 60 /\ 2 * eps <= rnorm 3 (triple (125) (0) (0)) <= bpow radix2 60 /\
  let t := Quat (4 / 5) (2 / 5) (2 / 5) (1 / 5) in unitq t /\
  vdist 3 (fun i => (triple (-20) (12) (-9)) i / rnorm 3 (triple (-20) (12) (-9))) (qrot t (triple 0 0 (-1))) <= 1 / 100 /\
  vdist 3 (fun i => (triple (125) (0) (0)) i / rnorm 3 (triple (125) (0) (0))) (qrot t (triple (3 / 5) 0 (4 / 5))) <= 2 / 100 /\
  2 / 100 + 102 / 100 * (1 / 100) + 14 / 100000 <= 1 / 3 * (3 / 5).
Proof. exact am_true_ex_h. Qed.
