(** Generated by tools/gen_properties.py from P_Hughes32.v: property theorems only. *)

From Coq Require Import List Arith ZArith Reals Lia Bool Lra SpecFloat.
From Flocq Require Import Core BinarySingleNaN.
From Verif Require Import M_Base M_Arith M_Utils M_Vector M_Matrix M_Quaternion M_F32
  S_Spec S_Linalg S_Norm S_Quat S_F32 P_Inst P_InstF.
Import ListNotations.
Local Open Scope R_scope.

From Verif Require Import P_Hughes32.

(** C77: q is a unit quaternion with w >= 1/10 and 1 - w^2 >= 5e-5 (more than 0.82 degrees from the identity), and an f32 matrix
    is within e of its rotation matrix in every cell (e up to 1e-5): [hughes] succeeds and the result is within
    (3 e + 2e-6) / w^2 of the conjugate of q, that is of the inverse rotation *)
Theorem C77_hughes :
  forall (lm : Libm) (dcm : Mat (T (Arith := F32 lm))) (qv : Vec (T (Arith := F32 lm))) (a : nat -> nat -> R) (s : nat -> R) (q : quat) (e : R),
  mat_f dcm 3 3 a -> vec_f qv 4 s -> unitq q -> / 10 <= Qw q -> 5 / 100000 <= 1 - Qw q * Qw q ->
  (forall i j, (i < 3)%nat -> (j < 3)%nat -> Rabs (a i j - rotmat q i j) <= e) -> e <= 1 / 100000 ->
  exists v r, q_hughes dcm qv = (v, Ok tt) /\ quat_f v r /\ qdist r (qconj q) <= (3 * e + 2 / 1000000) / (Qw q * Qw q).
Proof. exact l_hughes32. Qed.
Print Assumptions C77_hughes.

(** C77: so, for an f32 quaternion of norm 1 within 1e-6 whose direction satisfies the same conditions, the way to the rotation
    matrix and back with [hughes] ends within 2.1e-5 / w^2 of the conjugate *)
Theorem C77_round_trip :
  forall (lm : Libm) (v qv : Vec (T (Arith := F32 lm))) (q : quat) (s : nat -> R),
  quat_f v q -> Rabs (qnorm q - 1) <= / 1000000 -> vec_f qv 4 s ->
  / 10 <= Qw (qunit q) -> 5 / 100000 <= 1 - Qw (qunit q) * Qw (qunit q) ->
  exists dcm v' r, q_convert_to_dcm v = Ok dcm /\ q_hughes dcm qv = (v', Ok tt) /\ quat_f v' r /\
    qdist r (qconj (qunit q)) <= 21 / 1000000 / (Qw (qunit q) * Qw (qunit q)).
Proof. exact l_hughes32_trip. Qed.
Print Assumptions C77_round_trip.

(** C77, violation for a whole class: 1 - w^2 <= 1.8e-5 (up to 0.48 degrees from the identity) and cells off by at most 5e-6:
    [hughes] returns exactly the identity *)
Theorem C77_lost :
  forall (lm : Libm) (dcm : Mat (T (Arith := F32 lm))) (qv : Vec (T (Arith := F32 lm))) (a : nat -> nat -> R) (s : nat -> R) (q : quat) (e : R),
  mat_f dcm 3 3 a -> vec_f qv 4 s -> unitq q -> 1 - Qw q * Qw q <= 18 / 1000000 ->
  (forall i j, (i < 3)%nat -> (j < 3)%nat -> Rabs (a i j - rotmat q i j) <= e) -> e <= 5 / 1000000 ->
  exists v, q_hughes dcm qv = (v, Ok tt) /\ quat_f v qone.
Proof. exact l_hughes32_lost. Qed.
Print Assumptions C77_lost.

(** C77, violation, every libm: the rotation by 120 degrees about (1,1,1) comes back from its own matrix as another rotation *)
Theorem C77_conjugate_refuted :
  forall (lm : Libm), exists (v v' : Vec (T (Arith := F32 lm))) (dcm : Mat (T (Arith := F32 lm))) (q r : quat),
  quat_f v q /\ unitq q /\ q_convert_to_dcm v = Ok dcm /\ q_hughes dcm v = (v', Ok tt) /\ quat_f v' r /\
  9 / 10 <= qdist r q /\ 9 / 10 <= qdist r (qneg q).
Proof. exact l_hughes32_w. Qed.
Print Assumptions C77_conjugate_refuted.

Example C77_example :
  let q := Quat (/ 2) (/ 2) (/ 2) (/ 2) in
  unitq q /\ / 10 <= Qw q /\ 5 / 100000 <= 1 - Qw q * Qw q /\ 1 - Qw qone * Qw qone <= 18 / 1000000.
Proof. unfold unitq, qnorm2. cbn. lra. Qed.
