(** Generated by tools/gen_properties.py from P_Euler32.v: property theorems only. *)

From Coq Require Import List Arith ZArith Reals Lia Bool Lra SpecFloat.
From Flocq Require Import Core BinarySingleNaN.
From Verif Require Import M_Base M_Arith M_Utils M_Vector M_Matrix M_Quaternion M_F32 M_RX
  S_Spec S_Linalg S_Norm S_Quat S_F32 S_Euler32 P_Inst P_InstF.
Import ListNotations.
Local Open Scope R_scope.

From Verif Require Import P_Euler32.

(** C69: take a quaternion of norm 1 within h, and a libm whose asin and atan2 are off by at most d.  Let roll, pitch and yaw
    be the Euler angles of its rotation, with cos^2 pitch at least 8 (5 h + 1e-6).  Then [convert_to_euler] returns three
    finite angles, and the sine of half of each error is at most (5 h + 1e-6) / cos pitch + d / 2 *)
Theorem C69_angles :
  forall (lm : Libm) (v : Vec (T (Arith := F32 lm))) (q : quat) (h d roll pitch yaw : R),
  quat_f v q -> Rabs (qnorm q - 1) <= h -> h <= / 100 -> libm_angles lm d ->
  - PI / 2 < pitch < PI / 2 -> req 3 3 (rmul 3 (Rz yaw) (rmul 3 (Ry pitch) (Rx roll))) (rotmat (qunit q)) ->
  let e := 5 * h + / 1000000 in 8 * e <= cos pitch * cos pitch ->
  exists a b c : f32, q_convert_to_euler v = Ok (a, b, c) /\
    is_finite a = true /\ is_finite b = true /\ is_finite c = true /\
    Rabs (sin ((B2R a - roll) / 2)) <= e / cos pitch + d / 2 /\
    Rabs (sin ((B2R b - pitch) / 2)) <= e / cos pitch + d / 2 /\
    Rabs (sin ((B2R c - yaw) / 2)) <= e / cos pitch + d / 2.
Proof. exact l_euler32. Qed.
Print Assumptions C69_angles.

(** the turn that takes x to y, y to z and z to x: roll and yaw are a quarter turn, the pitch is zero *)
Example C69_example :
  let q := Quat (/ 2) (/ 2) (/ 2) (/ 2) in
  libm_angles angle_libm (5 / 10000000) /\ quat_f (lm := angle_libm) (mk_vec (A := F32 angle_libm) halves) q /\ Rabs (qnorm q - 1) <= 0 /\
  - PI / 2 < 0 < PI / 2 /\ req 3 3 (rmul 3 (Rz (PI / 2)) (rmul 3 (Ry 0) (Rx (PI / 2)))) (rotmat (qunit q)) /\
  8 * (5 * 0 + / 1000000) <= cos 0 * cos 0.
Proof. exact euler_example. Qed.
