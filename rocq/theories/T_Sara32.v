(** Generated by tools/gen_properties.py from P_Sara32.v: property theorems only. *)

From Coq Require Import List Arith ZArith Reals Lia Bool Lra SpecFloat.
From Flocq Require Import Core BinarySingleNaN.
From Verif Require Import M_Base M_Arith M_Utils M_Vector M_Matrix M_Quaternion M_F32
  S_Spec S_Linalg S_Norm S_Quat S_F32 P_Inst P_InstF.
Import ListNotations.
Local Open Scope R_scope.

From Verif Require Import P_Sara32.

(** C80 (f32, every libm): for every unit quaternion q, every f32 matrix within e <= 1/100 of its rotation matrix in every
    cell, and no threshold or one of at most 1/2 in size, [sarabandi] succeeds, and the components of its result are
    not negative and within 2 e + 2e-6 of the absolute values of those of q *)
Theorem C80_sarabandi :
  forall (lm : Libm) (dcm : Mat (T (Arith := F32 lm))) (qv : Vec (T (Arith := F32 lm))) (th : option (T (Arith := F32 lm))) (a : nat -> nat -> R) (s : nat -> R) (q : quat) (e : R),
  mat_f dcm 3 3 a -> vec_f qv 4 s -> unitq q ->
  match th with None => True | Some h => is_finite (h : f32) = true /\ Rabs (B2R (h : f32)) <= / 2 end ->
  (forall i j, (i < 3)%nat -> (j < 3)%nat -> Rabs (a i j - rotmat q i j) <= e) -> e <= / 100 ->
  exists v r, q_sarabandi dcm th qv = (v, Ok tt) /\ quat_f v r /\
    (0 <= Qw r /\ 0 <= Qx r /\ 0 <= Qy r /\ 0 <= Qz r) /\
    Rabs (Qw r - Rabs (Qw q)) <= 2 * e + 2 / 1000000 /\ Rabs (Qx r - Rabs (Qx q)) <= 2 * e + 2 / 1000000 /\
    Rabs (Qy r - Rabs (Qy q)) <= 2 * e + 2 / 1000000 /\ Rabs (Qz r - Rabs (Qz q)) <= 2 * e + 2 / 1000000.
Proof. exact l_sara32. Qed.
Print Assumptions C80_sarabandi.

(** C80: so when no component of q is negative the result is within 4 e + 4e-6 of q, whatever the rotation angle *)
Theorem C80_first_orthant :
  forall (lm : Libm) (dcm : Mat (T (Arith := F32 lm))) (qv : Vec (T (Arith := F32 lm))) (a : nat -> nat -> R) (s : nat -> R) (q : quat) (e : R),
  mat_f dcm 3 3 a -> vec_f qv 4 s -> unitq q -> 0 <= Qw q -> 0 <= Qx q -> 0 <= Qy q -> 0 <= Qz q ->
  (forall i j, (i < 3)%nat -> (j < 3)%nat -> Rabs (a i j - rotmat q i j) <= e) -> e <= / 100 ->
  exists v r, q_sarabandi dcm None qv = (v, Ok tt) /\ quat_f v r /\ qdist r q <= 4 * e + 4 / 1000000.
Proof. exact l_sara32_pos. Qed.
Print Assumptions C80_first_orthant.

(** C80: a unit f32 quaternion sent through [convert_to_dcm] and [sarabandi] comes back with the absolute values of
    its components, within 1.4e-5 *)
Theorem C80_round_trip :
  forall (lm : Libm) (v qv : Vec (T (Arith := F32 lm))) (q : quat) (s : nat -> R),
  quat_f v q -> Rabs (qnorm q - 1) <= / 1000000 -> vec_f qv 4 s ->
  exists dcm v' r, q_convert_to_dcm v = Ok dcm /\ q_sarabandi dcm None qv = (v', Ok tt) /\ quat_f v' r /\
    (forall f, In f [Qw; Qx; Qy; Qz] -> Rabs (f r - Rabs (f (qunit q))) <= 14 / 1000000).
Proof. exact l_sara32_trip. Qed.
Print Assumptions C80_round_trip.

(** C80, violation: when one component of q is at least m and another at most - m, the result is neither near q nor near
    - q, so it is another rotation *)
Theorem C80_signs :
  forall (lm : Libm) (dcm : Mat (T (Arith := F32 lm))) (qv : Vec (T (Arith := F32 lm))) (th : option (T (Arith := F32 lm))) (a : nat -> nat -> R) (s : nat -> R) (q : quat) (e m : R)
    (f g : quat -> R),
  mat_f dcm 3 3 a -> vec_f qv 4 s -> unitq q ->
  match th with None => True | Some h => is_finite (h : f32) = true /\ Rabs (B2R (h : f32)) <= / 2 end ->
  (forall i j, (i < 3)%nat -> (j < 3)%nat -> Rabs (a i j - rotmat q i j) <= e) -> e <= / 100 ->
  In f [Qw; Qx; Qy; Qz] -> In g [Qw; Qx; Qy; Qz] -> 0 <= m -> m <= f q -> g q <= - m ->
  exists v r, q_sarabandi dcm th qv = (v, Ok tt) /\ quat_f v r /\
    2 * m - (2 * e + 2 / 1000000) <= qdist r q /\ 2 * m - (2 * e + 2 / 1000000) <= qdist r (qneg q).
Proof. exact l_sara32_signs. Qed.
Print Assumptions C80_signs.

(** C80, violation, every libm: the unit quaternion (1/2, -1/2, 1/2, 1/2) comes back from its own matrix as another rotation *)
Theorem C80_negative_refuted :
  forall (lm : Libm), exists (v v' : Vec (T (Arith := F32 lm))) (dcm : Mat (T (Arith := F32 lm))) (q r : quat),
  quat_f v q /\ unitq q /\ q_convert_to_dcm v = Ok dcm /\ q_sarabandi dcm None v = (v', Ok tt) /\ quat_f v' r /\
  99 / 100 <= qdist r q /\ 99 / 100 <= qdist r (qneg q).
Proof. exact l_sara32_w. Qed.
Print Assumptions C80_negative_refuted.

Example C80_example :
  unitq (Quat (3 / 5) 0 (4 / 5) 0) /\ unitq (Quat 0 1 0 0) /\ unitq (Quat (/ 2) (- / 2) (/ 2) (/ 2)) /\
  (forall lm, quat_f (lm := lm) (mk_vec (A := F32 lm) mixed) (Quat (/ 2) (- / 2) (/ 2) (/ 2))).
Proof. exact ex_sara. Qed.
