(** Generated by tools/gen_properties.py from P_Rest32.v: property theorems only. *)

From Coq Require Import List Arith ZArith NArith Reals Lia Bool Lra SpecFloat.
From Flocq Require Import Core BinarySingleNaN.
From Verif Require Import M_Base M_Arith M_Utils M_Vector M_Matrix M_Quaternion M_Sensors M_Ar M_Aqua M_F32
  S_Spec S_Linalg S_Norm S_Quat S_Sensors S_Ar S_Aqua S_F32 S_Reading S_Rest P_Inst P_InstF.
Import ListNotations.
Local Open Scope R_scope.

From Verif Require Import P_Rest32.

(** C66: at rest, one update of the Aqua filter in mode MARG (f32, fixed gains, any calibration, any libm) succeeds and
    takes four fifths of its gain off the tilt error and off the heading error, up to explicit terms for the rates, the
    sensor errors, the rounding and the tilt still left; the new attitude is near the true one again *)
Theorem C66_update :
  forall (lm : Libm) (s : Aqua (A := F32 lm)) (cg ca cm : Config (A := F32 lm)) (q t : quat) (ts ka ta kb tm h e eta mu : R) (z : nat -> T (Arith := F32 lm)),
  marg32 s cg ca cm q ts ka ta kb tm -> unitq t -> resting cg ca cm t h ts e eta mu z -> quiet ka kb h e eta mu -> near_truth q t h ->
  exists s' q', update_with z s = (s', Ok tt) /\ marg32 s' cg ca cm q' ts ka ta kb tm /\ near_truth q' t h /\
    tilt_error q' t <= (1 - 4 / 5 * ka) * tilt_error q t + tilt_drift ka e eta /\
    heading_error q' t <= (1 - 4 / 5 * kb) * heading_error q t + heading_drift ka e eta +
      84 / 100 * kb * ((204 / 100 * ((1 - 4 / 5 * ka) * tilt_error q t + tilt_drift ka e eta) + mu + 7 / 100000) / h).
Proof. exact l_rest_update. Qed.
Print Assumptions C66_update.

(** C66: as long as the measurements are taken at rest, every update succeeds, and after n updates the tilt error is at
    most (1 - 4/5 ka)^n times the first one plus a remainder; the heading error likewise, with a term n r^n for the
    tilt that disturbs it on the way.  No libm is assumed and no update is allowed to fail *)
Theorem C66_rest :
  forall (lm : Libm) (s : Aqua (A := F32 lm)) (cg ca cm : Config (A := F32 lm)) (q t : quat) (ts ka ta kb tm h e eta mu : R) (z : nat -> nat -> T (Arith := F32 lm)),
  marg32 s cg ca cm q ts ka ta kb tm -> unitq t -> (forall n, resting cg ca cm t h ts e eta mu (z n)) -> quiet ka kb h e eta mu -> near_truth q t h ->
  let r := Rmax (1 - 4 / 5 * ka) (1 - 4 / 5 * kb) in
  forall n, exists s' q', run_with z n s = Some s' /\ marg32 s' cg ca cm q' ts ka ta kb tm /\ near_truth q' t h /\
    tilt_error q' t <= (1 - 4 / 5 * ka) ^ n * tilt_error q t + tilt_rest ka e eta /\
    heading_error q' t <= (1 - 4 / 5 * kb) ^ n * heading_error q t + 172 / 100 * kb / h * tilt_error q t * (INR n * r ^ n) + heading_rest ka kb h e eta mu.
Proof. exact l_rest_run. Qed.
Print Assumptions C66_rest.

(** C66: so the filter settles: after a number of updates that depends only on the gains, the horizontal field and the
    margin d, the tilt and heading errors are within d of the remainders, whatever the measurements at rest were *)
Theorem C66_settles :
  forall (ka kb h d : R), 0 < ka <= 1 -> 0 < kb <= 1 -> 0 < h -> 0 < d ->
  exists N, forall (lm : Libm) (s : Aqua (A := F32 lm)) (cg ca cm : Config (A := F32 lm)) (q t : quat) (ts ta tm e eta mu : R) (z : nat -> nat -> T (Arith := F32 lm)),
  marg32 s cg ca cm q ts ka ta kb tm -> unitq t -> (forall n, resting cg ca cm t h ts e eta mu (z n)) -> quiet ka kb h e eta mu -> near_truth q t h ->
  forall n, (N <= n)%nat -> exists s' v q', run_with z n s = Some s' /\ aq_get_attitude s' = Ok v /\ quat_f v q' /\ Rabs (qnorm q' - 1) < / 1000000 /\
    tilt_error q' t <= tilt_rest ka e eta + d /\ heading_error q' t <= heading_rest ka kb h e eta mu + d.
Proof. exact l_rest_settles. Qed.
Print Assumptions C66_settles.

(** a filter with gains 0.01 whose attitude is the identity while the true one is turned by 25 degrees about the vertical *)
Example C66_example : forall lm, exists (s : Aqua (A := F32 lm)) ts ka ta kb tm,
  marg32 s default_config default_config default_config qone ts ka ta kb tm /\ unitq ex_t /\
  resting (lm := lm) default_config default_config default_config ex_t (3 / 5) ts 0 0 0 (ex_z lm) /\
  quiet ka kb (3 / 5) 0 0 0 /\ near_truth qone ex_t (3 / 5) /\ heading_error qone ex_t = 9 / 41 /\ 99 / 10000 <= ka < 2 / 100 /\ 99 / 10000 <= kb.
Proof. exact rest_ex_h. Qed.
