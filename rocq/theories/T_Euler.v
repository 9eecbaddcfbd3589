(** Generated by tools/gen_properties.py from P_Euler.v: property theorems only. *)

From Coq Require Import List Arith ZArith Reals Lia Bool Lra.
From Flocq Require Import Core BinarySingleNaN.
From Verif Require Import M_Base M_Arith M_Utils M_Vector M_Matrix M_Quaternion M_F32 M_RX
  S_Spec S_Linalg S_Norm S_Quat P_Inst P_InstQ.
Import ListNotations.
Local Open Scope R_scope.

From Verif Require Import P_Euler.

(** C35: for a unit quaternion with |pitch| < 90 degrees, the three angles reproduce the matrix:
    Rz(yaw) Ry(pitch) Rx(roll) = R(q) *)
Theorem C35_euler :
  forall (v : Vec (T (Arith := RX))) (q : quat), quat_r v q -> unitq q ->
  -1 < 2 * (Qw q * Qy q - Qz q * Qx q) < 1 ->
  exists roll pitch yaw,
    q_convert_to_euler v = Ok (Some roll, Some pitch, Some yaw) /\
    - PI / 2 < pitch < PI / 2 /\
    req 3 3 (rmul 3 (Rz yaw) (rmul 3 (Ry pitch) (Rx roll))) (rotmat q).
Proof. exact l_euler. Qed.
Print Assumptions C35_euler.

(** C35: over the reals the pitch is always defined for a unit quaternion *)
Theorem C35_bounds :
  forall (v : Vec (T (Arith := RX))) (q : quat), quat_r v q -> unitq q ->
  exists roll yaw, q_convert_to_euler v = Ok (Some roll, Some (asin (2 * (Qw q * Qy q - Qz q * Qx q))), Some yaw) /\
    - PI < roll <= PI /\ - PI < yaw <= PI.
Proof. exact l_euler_total. Qed.
Print Assumptions C35_bounds.

(** C35, violation: normalising (3, 0, 3, 0) in f32 gives a quaternion that passes [is_versor] and for
    which the arcsine is taken of a number above 1, unchecked; with a libm that answers NaN there, the
    pitch returned with Ok is NaN *)
Theorem C35_pitch_refuted :
  exists (v q : Vec f32) (x : f32), 1 < B2R x /\ forall (lm : Libm),
    v_normalize (A := F32 lm) v = (q, Ok tt) /\ q_is_versor (A := F32 lm) q = Ok true /\
    (exists roll yaw, q_convert_to_euler (A := F32 lm) q = Ok (roll, lm_asin lm x, yaw)) /\
    ((forall t, 1 < B2R t -> lm_asin lm t = nan32) ->
     exists roll yaw, q_convert_to_euler (A := F32 lm) q = Ok (roll, nan32, yaw)).
Proof. exact l_pitch_w. Qed.
Print Assumptions C35_pitch_refuted.

Example C35_example :
  let q := Quat (1/2) (1/2) (1/2) (-1/2) in let p := Quat (4/5) (3/5) 0 0 in
  quat_r (rvec [4/5; 3/5; 0; 0]) p /\ unitq p /\ -1 < 2 * (Qw p * Qy p - Qz p * Qx p) < 1 /\
  quat_r (rvec [1/2; 1/2; 1/2; -1/2]) q /\ unitq q /\ 2 * (Qw q * Qy q - Qz q * Qx q) = 1.
Proof.
  cbv zeta. split; [apply rquat_is|]. split; [unfold unitq, qnorm2; cbn; lra|]. split; [cbn; lra|].
  split; [apply rquat_is|]. unfold unitq, qnorm2. cbn. split; lra.
Qed.
