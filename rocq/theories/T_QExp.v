(** Generated by tools/gen_properties.py from P_QExp.v: property theorems only. *)

From Coq Require Import List Arith ZArith Reals Lia Bool Lra.
From Flocq Require Import Core BinarySingleNaN.
From Verif Require Import M_Base M_Arith M_Utils M_Vector M_Matrix M_Quaternion M_F32 M_RX
  S_Spec S_Linalg S_Norm S_Quat P_Inst P_InstQ.
Import ListNotations.
Local Open Scope R_scope.

From Verif Require Import P_QExp.

(** C36: for a pure quaternion (w = 0) that is not numerically zero, [exp] and [exp_new] give
    (cos|v|, sin|v| v/|v|), a unit quaternion *)
Theorem C36_pure :
  forall (v : Vec (T (Arith := RX))) (q : quat), quat_r v q -> ~ realq q -> Qw q = 0 ->
  exists v1 v2, q_exp v = (v1, Ok tt) /\ q_exp_new v = Ok v2 /\
    quat_r v1 (qexp q) /\ quat_r v2 (qexp q) /\ unitq (qexp q).
Proof. exact l_exp_pure. Qed.
Print Assumptions C36_pure.

(** C36: for every quaternion with a vector part beyond EPSILON, [exp_new] is E^w (cos|v|, sin|v| v/|v|)
    where E is the library's constant and the factor is omitted when |w| <= EPSILON *)
Theorem C36_general :
  forall (v : Vec (T (Arith := RX))) (q : quat), quat_r v q -> ~ realq q ->
  exists v', q_exp_new v = Ok v' /\
    (eps < Rabs (Qw q) -> quat_r v' (qscale (Rpower euler_e (Qw q)) (qexp (Quat 0 (Qx q) (Qy q) (Qz q))))) /\
    (Rabs (Qw q) <= eps -> quat_r v' (qexp (Quat 0 (Qx q) (Qy q) (Qz q)))).
Proof. exact l_exp_new. Qed.
Print Assumptions C36_general.

(** C36: the in-place [exp] scales by E^w depending on the freshly computed cosine instead of w *)
Theorem C36_in_place :
  forall (v : Vec (T (Arith := RX))) (q : quat), quat_r v q -> ~ realq q ->
  exists v', q_exp v = (v', Ok tt) /\
    (eps < Rabs (cos (vnorm q)) -> quat_r v' (qscale (Rpower euler_e (Qw q)) (qexp (Quat 0 (Qx q) (Qy q) (Qz q))))) /\
    (Rabs (cos (vnorm q)) <= eps -> quat_r v' (qexp (Quat 0 (Qx q) (Qy q) (Qz q)))).
Proof. exact l_exp. Qed.
Print Assumptions C36_in_place.

(** C36, violation: on every real quaternion both report the identity, whatever w *)
Theorem C36_real :
  forall (v : Vec (T (Arith := RX))) (q : quat), quat_r v q -> realq q ->
  exists v1 v2, q_exp v = (v1, Ok tt) /\ q_exp_new v = Ok v2 /\ quat_r v1 qone /\ quat_r v2 qone.
Proof. exact l_exp_real. Qed.
Print Assumptions C36_real.

(** C36: e.g. exp of the real quaternion 1 is 1, not e; and [exp] and [exp_new] differ by the factor E on
    (1, PI/2, 0, 0) *)
Theorem C36_refuted :
  exists (v v1 u u1 u2 : Vec (T (Arith := RX))) (q p : quat),
  quat_r v q /\ q_exp v = (v1, Ok tt) /\ quat_r v1 (Quat 1 0 0 0) /\ Qw (qexp q) = exp 1 /\ 2 < exp 1 /\
  quat_r u p /\ q_exp u = (u1, Ok tt) /\ q_exp_new u = Ok u2 /\
  quat_r u1 (Quat 0 1 0 0) /\ quat_r u2 (Quat 0 euler_e 0 0).
Proof. exact l_exp_w. Qed.
Print Assumptions C36_refuted.

Example C36_example :
  quat_r (rvec [0; 3; 0; 4]) (Quat 0 3 0 4) /\ ~ realq (Quat 0 3 0 4) /\ vnorm (Quat 0 3 0 4) = 5 /\ realq (Quat 2 0 0 0).
Proof.
  split; [apply rquat_is|]. unfold realq, vnorm. cbn. rewrite Rabs_R0, (Rabs_right 3) by lra.
  replace (3 * 3 + 0 * 0 + 4 * 4) with (5 * 5) by ring. rewrite sqrt_square by lra. unfold eps. repeat split; lra.
Qed.
