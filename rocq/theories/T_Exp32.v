(** Generated by tools/gen_properties.py from P_Exp32.v: property theorems only. *)

From Coq Require Import List Arith ZArith Reals Lia Bool Lra SpecFloat.
From Flocq Require Import Core BinarySingleNaN.
From Verif Require Import M_Base M_Arith M_Utils M_Vector M_Matrix M_Quaternion M_F32
  S_Spec S_Linalg S_Norm S_Quat S_F32 S_Track S_Exp32 P_Inst P_InstF P_F32Ar.
Import ListNotations.
Local Open Scope R_scope.

From Verif Require Import P_Exp32.

(** C75: [exp_new] of an f32 quaternion with real part w between 1.03e-4 and W (at most 40) in size is the quaternion exponential up to
    e^w ((3 + |v|) 1e-6 + 5 d), where d is the error of sin and cos up to 2 B and of pow(E, x) up to W *)
Theorem C75_exp_general :
  forall (lm : Libm) (v : Vec (T (Arith := F32 lm))) (q : quat) (d B W : R), quat_f v q -> 103 / 1000000 <= Rabs (Qw q) <= W -> W <= 40 ->
  2 / 10000 <= vnorm q <= B -> B <= 1000 -> libm_accurate lm d (2 * B) -> pow_e lm d W -> 0 <= d <= / 100 ->
  exists v' r, q_exp_new v = Ok v' /\ quat_f v' r /\ qdist r (qexp q) <= exp (Qw q) * ((3 + vnorm q) / 1000000 + 5 * d).
Proof. exact l_exp32_general. Qed.
Print Assumptions C75_exp_general.

(** C75: the exponential in place obeys the same bound when the cosine of |v| is not small, for every real part up to W in size, small ones included *)
Theorem C75_exp_in_place :
  forall (lm : Libm) (v : Vec (T (Arith := F32 lm))) (q : quat) (d B W : R), quat_f v q -> Rabs (Qw q) <= W -> W <= 40 ->
  2 / 10000 <= vnorm q <= B -> B <= 1000 -> libm_accurate lm d (2 * B) -> pow_e lm d W -> 0 <= d <= / 100 ->
  2 / 10000 + 2 * d + vnorm q / 1000000 <= Rabs (cos (vnorm q)) ->
  exists v' r, q_exp v = (v', Ok tt) /\ quat_f v' r /\ qdist r (qexp q) <= exp (Qw q) * ((3 + vnorm q) / 1000000 + 5 * d).
Proof. exact l_exp32_in_place. Qed.
Print Assumptions C75_exp_in_place.

(** C75, violation for a whole class: when the cosine of |v| is within about 9e-5 of 0 the exponential in place is the one of the
    vector part alone: the real part is ignored, whatever it is *)
Theorem C75_exp_in_place_lost :
  forall (lm : Libm) (v : Vec (T (Arith := F32 lm))) (q : quat) (d B : R), quat_f v q ->
  2 / 10000 <= vnorm q <= B -> B <= 1000 -> libm_accurate lm d (2 * B) -> 0 <= d ->
  Rabs (cos (vnorm q)) + 2 * d + vnorm q / 1000000 <= 9 / 100000 ->
  exists v' r, q_exp v = (v', Ok tt) /\ quat_f v' r /\ qdist r (qexp (Quat 0 (Qx q) (Qy q) (Qz q))) <= (3 + vnorm q) / 1000000 + 3 * d.
Proof. exact l_exp32_lost. Qed.
Print Assumptions C75_exp_in_place_lost.

(** C75 hypotheses: 1 + j, for a libm within 1e-6 *)
Example C75_general_example : exists lm : Libm, exists (v : Vec (T (Arith := F32 lm))) (q : quat), quat_f v q /\ q = Quat 1 0 1 0 /\
  103 / 1000000 <= Rabs (Qw q) <= 1 /\ 2 / 10000 <= vnorm q <= 1 /\ libm_accurate lm (1 / 1000000) (2 * 1) /\ pow_e lm (1 / 1000000) 1 /\
  2 / 10000 + 2 * (1 / 1000000) + vnorm q / 1000000 <= Rabs (cos (vnorm q)).
Proof. exact ex_exp32. Qed.

(** ... so there are a libm accurate to 1e-6 and an f32 quaternion, 1 + (PI/2) i up to 5e-7, whose exponential in place succeeds
    and is off by more than 9/10 *)
Theorem C75_exp_in_place_refuted :
  exists (lm : Libm) (v v' : Vec (T (Arith := F32 lm))) (q r : quat), libm_accurate lm (1 / 1000000) 6 /\ pow_e lm (1 / 1000000) 1 /\
  quat_f v q /\ Qw q = 1 /\ Rabs (Qx q - PI / 2) <= 5 / 10000000 /\ Qy q = 0 /\ Qz q = 0 /\
  q_exp v = (v', Ok tt) /\ quat_f v' r /\ 9 / 10 <= qdist r (qexp q).
Proof. exact l_exp32_lost_w. Qed.
Print Assumptions C75_exp_in_place_refuted.
