(** Generated by tools/gen_properties.py from P_RotVec.v: property theorems only. *)

From Coq Require Import List Arith ZArith Reals Lia Bool Lra SpecFloat.
From Flocq Require Import Core BinarySingleNaN.
From Verif Require Import M_Base M_Arith M_Utils M_Vector M_Matrix M_Quaternion M_F32
  S_Spec S_Linalg S_Norm S_Quat S_F32 S_Decomp S_Track S_Interp32 P_Inst P_InstF P_Interp32 P_Log32.
Import ListNotations.
Local Open Scope R_scope.

From Verif Require Import P_RotVec.

(** C88: an f32 attitude of norm 1 up to 1e-6, within e of the turn by t about a unit axis or of its negative: the rotation matrix
    is computed, and if the determinant of that matrix can be computed, both forms of the logarithm of that matrix succeed, with
    every element within 12 (2 e + d + 7e-6) / sin^2 t of t times the cross-product matrix of the axis *)
Theorem C88_attitude :
  forall (lm : Libm) (v : Vec (T (Arith := F32 lm))) (q : quat) (t x y z e d : R), quat_f v q -> Rabs (qnorm q - 1) <= / 1000000 ->
  libm_accurate lm d 5 -> acos_accurate lm d -> x * x + y * y + z * z = 1 -> 0 < t < PI ->
  let p := Quat (cos (t / 2)) (sin (t / 2) * x) (sin (t / 2) * y) (sin (t / 2) * z) in
  qdist (qunit q) p <= e \/ qdist (qunit q) (qneg p) <= e ->
  2 * e + 7 / 1000000 <= sin t * sin t / 200 -> 0 <= d <= sin t / 100 ->
  exists m, q_convert_to_dcm v = Ok m /\ forall b, m_is_so_n m = Ok b ->
    exists ml ml' l, m_log m = Ok ml /\ m_log_in_place m = (ml', Ok tt) /\ mat_f ml 3 3 l /\ mat_f ml' 3 3 l /\
      forall i j, (i < 3)%nat -> (j < 3)%nat -> Rabs (l i j - t * cross_m x y z i j) <= 12 * (2 * e + d + 7 / 1000000) / (sin t * sin t).
Proof. exact l_rotvec. Qed.
Print Assumptions C88_attitude.

(** C88_attitude hypotheses, with e = 0: a third of a turn about (1, 1, 1), whose quaternion has the components 1/2 *)
Example C88_example_attitude : let v := mk_vec (A := F32 edge_libm) (map (fun _ => lit (Arith := F32 edge_libm) 1 2) [0; 1; 2; 3]%nat) in
  let q := Quat (/ 2) (/ 2) (/ 2) (/ 2) in let t := 2 * PI / 3 in let a := / sqrt 3 in
  quat_f (lm := edge_libm) v q /\ qnorm q = 1 /\ libm_accurate edge_libm (5 / 10000000) 5 /\ acos_accurate edge_libm (5 / 10000000) /\
  a * a + a * a + a * a = 1 /\ 0 < t < PI /\ qunit q = Quat (cos (t / 2)) (sin (t / 2) * a) (sin (t / 2) * a) (sin (t / 2) * a) /\
  sin t * sin t = 3 / 4 /\ 0 <= 5 / 10000000 <= sin t / 100 /\
  exists m, q_convert_to_dcm v = Ok m /\ m_is_so_n m = Ok true.
Proof. exact rotvec_ex. Qed.
