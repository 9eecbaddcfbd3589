(** Generated by tools/gen_properties.py from P_Inv32.v: property theorems only. *)

From Coq Require Import List Arith ZArith Reals Lia Bool Lra SpecFloat.
From Flocq Require Import Core BinarySingleNaN.
From Verif Require Import M_Base M_Arith M_Utils M_Vector M_Matrix M_Quaternion M_F32
  S_Spec S_Linalg S_Norm S_Quat S_F32 S_Track P_Inst P_InstF P_F32Ar.
Import ListNotations.
Local Open Scope R_scope.

From Verif Require Import P_Inv32.

(** C75: for every f32 quaternion with norm between 2e-4 and 2^58 [invert] succeeds, and the result times the quaternion is 1
    up to 3e-6, on both sides *)
Theorem C75_inverse :
  forall (lm : Libm) (v : Vec (T (Arith := F32 lm))) (q : quat), quat_f v q -> 2 / 10000 <= qnorm q <= bpow radix2 58 ->
  exists v' r, q_invert v = (v', Ok tt) /\ quat_f v' r /\ qdist (qmul q r) qone <= 3 / 1000000 /\ qdist (qmul r q) qone <= 3 / 1000000.
Proof. exact l_invert32. Qed.
Print Assumptions C75_inverse.

(** C75, violation for a whole class, every libm: a finite quaternion with a component of magnitude 2^64 or more is inverted to
    exactly zero, with the outcome Ok *)
Theorem C75_huge :
  forall (lm : Libm) (v : Vec (T (Arith := F32 lm))) (q : quat) (k : nat), quat_f v q -> (k < 4)%nat -> bpow radix2 64 <= Rabs (qf q k) ->
  exists v', q_invert v = (v', Ok tt) /\ quat_f v' qzero.
Proof. exact l_invert_huge. Qed.
Print Assumptions C75_huge.

(** C75: the exponential of a pure f32 quaternion (real part at most 9.8e-5) whose vector part is between 2e-4 and B long is
    (cos|v|, sin|v| v/|v|) up to (3 + |v|) 1e-6 + 3 d, where d is the error of sin and cos up to 2 B *)
Theorem C75_exp :
  forall (lm : Libm) (v : Vec (T (Arith := F32 lm))) (q : quat) (d B : R), quat_f v q -> Rabs (Qw q) <= 98 / 1000000 ->
  2 / 10000 <= vnorm q <= B -> B <= 1000 -> libm_accurate lm d (2 * B) -> 0 <= d <= / 100 ->
  exists v' r, q_exp_new v = Ok v' /\ quat_f v' r /\ qdist r (qexp (Quat 0 (Qx q) (Qy q) (Qz q))) <= (3 + vnorm q) / 1000000 + 3 * d.
Proof. exact l_exp32. Qed.
Print Assumptions C75_exp.

(** C75, violation for a whole class, every libm: when every component of the vector part is at most 9.8e-5 the exponential is
    exactly 1, whatever the real part *)
Theorem C75_exp_small :
  forall (lm : Libm) (v : Vec (T (Arith := F32 lm))) (q : quat), quat_f v q ->
  Rabs (Qx q) <= 98 / 1000000 -> Rabs (Qy q) <= 98 / 1000000 -> Rabs (Qz q) <= 98 / 1000000 ->
  exists v', q_exp_new v = Ok v' /\ quat_f v' qone.
Proof. exact l_exp32_small. Qed.
Print Assumptions C75_exp_small.

(** ... so the invertible quaternion 2^64 has the "inverse" 0 and multiplying back gives 0, not 1 *)
Theorem C75_huge_refuted :
  forall (lm : Libm), exists (v v' : Vec (T (Arith := F32 lm))) (q : quat),
  quat_f v q /\ qnorm q = bpow radix2 64 /\ q_invert v = (v', Ok tt) /\ quat_f v' qzero /\ qdist (qmul q qzero) qone = 1.
Proof. exact l_invert_huge_w. Qed.
Print Assumptions C75_huge_refuted.

Example C75_example :
  (forall (lm : Libm), exists (v : Vec (T (Arith := F32 lm))) (q : quat), quat_f v q /\ q = Quat 3 4 0 0 /\ 2 / 10000 <= qnorm q <= bpow radix2 58) /\
  exists (v : Vec (T (Arith := F32 near_libm))) (q : quat), quat_f v q /\ q = Quat 0 1 0 0 /\ Rabs (Qw q) <= 98 / 1000000 /\
  2 / 10000 <= vnorm q <= 1 /\ libm_accurate near_libm (2 / 10000000) (2 * 1).
Proof. exact l_inv32_example. Qed.
