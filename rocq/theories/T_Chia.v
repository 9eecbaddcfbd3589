(** Generated by tools/gen_properties.py from P_Chia.v: property theorems only. *)

From Coq Require Import List Arith ZArith Reals Lia Bool Lra SpecFloat.
From Flocq Require Import Core BinarySingleNaN.
From Verif Require Import M_Base M_Arith M_Utils M_Vector M_Matrix M_Quaternion M_F32
  S_Spec S_Linalg S_Norm S_Quat S_F32 P_Inst P_InstF.
Import ListNotations.
Local Open Scope R_scope.

From Verif Require Import P_Chia.

(** C72: q is a unit quaternion with w >= 1/10 and no vector component beyond sqrt(1/2), and an f32 matrix is within e of
    its rotation matrix in every cell (e up to 5e-5): [chiaverini] succeeds, the result has norm 1 within 1e-6 and its
    distance from q is at most 2 sqrt(3 e + 7e-7) + 40 e + 3e-6 *)
Theorem C72_chiaverini :
  forall (lm : Libm) (dcm : Mat (T (Arith := F32 lm))) (qv : Vec (T (Arith := F32 lm))) (a : nat -> nat -> R) (s : nat -> R) (q : quat) (e : R),
  mat_f dcm 3 3 a -> vec_f qv 4 s -> unitq q -> / 10 <= Qw q ->
  2 * (Qx q * Qx q) <= 1 -> 2 * (Qy q * Qy q) <= 1 -> 2 * (Qz q * Qz q) <= 1 ->
  (forall i j, (i < 3)%nat -> (j < 3)%nat -> Rabs (a i j - rotmat q i j) <= e) -> e <= 5 / 100000 ->
  exists v r, q_chiaverini dcm qv = (v, Ok tt) /\ quat_f v r /\ Rabs (qnorm r - 1) < / 1000000 /\
    qdist r q <= 2 * sqrt (3 * e + 7 / 10000000) + 40 * e + 3 / 1000000.
Proof. exact l_chia32. Qed.
Print Assumptions C72_chiaverini.

(** C72: so, for an f32 quaternion of norm 1 within 1e-6 whose direction satisfies the same conditions, the way to the
    rotation matrix and back ends within 0.01 of the direction *)
Theorem C72_round_trip :
  forall (lm : Libm) (v qv : Vec (T (Arith := F32 lm))) (q : quat) (s : nat -> R),
  quat_f v q -> Rabs (qnorm q - 1) <= / 1000000 -> vec_f qv 4 s ->
  / 10 <= Qw (qunit q) -> 2 * (Qx (qunit q) * Qx (qunit q)) <= 1 -> 2 * (Qy (qunit q) * Qy (qunit q)) <= 1 -> 2 * (Qz (qunit q) * Qz (qunit q)) <= 1 ->
  exists dcm v' r, q_convert_to_dcm v = Ok dcm /\ q_chiaverini dcm qv = (v', Ok tt) /\ quat_f v' r /\ qdist r (qunit q) <= / 100.
Proof. exact l_chia32_trip. Qed.
Print Assumptions C72_round_trip.

(** C72, violation for every libm: the f32 attitude (1, 2^-13, 0, 0), a rotation by 2^-12 rad, comes back as the identity:
    the error of the round trip is of the order of the square root of the rounding error *)
Theorem C72_lost_refuted :
  exists v : Vec f32, forall lm : Libm, quat_f (lm := lm) v (Quat 1 (/ 8192) 0 0) /\
  exists dcm v', q_convert_to_dcm (A := F32 lm) v = Ok dcm /\ q_chiaverini (A := F32 lm) dcm v = (v', Ok tt) /\ quat_f (lm := lm) v' (Quat 1 0 0 0).
Proof. exact l_chia32_lost. Qed.
Print Assumptions C72_lost_refuted.

(** test: the hypotheses hold for the identity, and (4/5, 3/5, 0, 0) comes back within one unit in the last place *)
Example C72_example :
  let A := F32 lm_id in let v := mk_vec (A := A) (map z32 [1; 0; 0; 0]%Z) in
  quat_f (lm := lm_id) v (Quat 1 0 0 0) /\ Rabs (qnorm (Quat 1 0 0 0) - 1) <= / 1000000 /\ / 10 <= Qw (qunit (Quat 1 0 0 0)) /\
  rmap (fun d => shown show_v (q_chiaverini d v)) (q_convert_to_dcm (mk_vec (A := A) [lit32 4 5; lit32 3 5; z32 0; z32 0])) = Ok (4%nat, true, [S754_finite false 13421773 (-24); S754_finite false 10066330 (-24); sf 0; sf 0], Ok tt).
Proof. exact ex_chia. Qed.
