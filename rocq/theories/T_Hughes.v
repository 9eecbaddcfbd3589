(** Generated by tools/gen_properties.py from P_Hughes.v: property theorems only. *)

From Coq Require Import List Arith ZArith Reals Lia Bool Lra Psatz.
From Flocq Require Import Core BinarySingleNaN.
From Verif Require Import M_Base M_Arith M_Utils M_Vector M_Matrix M_Quaternion M_F32 M_RX
  S_Spec S_Linalg S_Norm S_Quat P_Inst P_InstQ.
Import ListNotations.
Local Open Scope R_scope.

From Verif Require Import P_Hughes.

(** C34, violation: [hughes] reports the identity for every rotation by up to about half a degree, whatever its axis *)
Theorem C34_hughes_near_identity :
  forall (v dcm : _) (s : nat -> R) (q : quat),
  vec_r v 4 s -> mat_r dcm 3 3 (rotmat q) -> unitq q -> 4 * (1 - Qw q * Qw q) <= eps ->
  exists v', q_hughes dcm v = (v', Ok tt) /\ quat_r v' (Quat 1 0 0 0).
Proof. exact l_hughes_id. Qed.
Print Assumptions C34_hughes_near_identity.

(** C34, violation: when |w| is at most EPSILON, [hughes] returns |w| and the square roots of w^2 + x^2, w^2 + y^2 and
    w^2 + z^2, so that a half turn keeps the magnitudes of its axis and loses the signs *)
Theorem C34_hughes_near_half_turn :
  forall (v dcm : _) (s : nat -> R) (q : quat),
  vec_r v 4 s -> mat_r dcm 3 3 (rotmat q) -> unitq q -> Rabs (Qw q) <= eps ->
  exists v', q_hughes dcm v = (v', Ok tt) /\
    quat_r v' (Quat (Rabs (Qw q)) (sqrt (Qw q * Qw q + Qx q * Qx q)) (sqrt (Qw q * Qw q + Qy q * Qy q)) (sqrt (Qw q * Qw q + Qz q * Qz q))).
Proof. exact l_hughes_pi. Qed.
Print Assumptions C34_hughes_near_half_turn.

Example C34_hughes_example :
  let q := Quat (249999 / 250001) 0 (1000 / 250001) 0 in let h := Quat 0 (3 / 5) (- 4 / 5) 0 in
  quat_r (rvec [249999 / 250001; 0; 1000 / 250001; 0]) q /\ unitq q /\ 4 * (1 - Qw q * Qw q) <= eps /\
  quat_r (rvec [0; 3 / 5; - 4 / 5; 0]) h /\ unitq h /\ Rabs (Qw h) <= eps.
Proof.
  cbv zeta. split; [apply rquat_is|]. unfold unitq, qnorm2, eps; cbn. rewrite Rabs_R0. split; [lra|]. split; [lra|]. split; [apply rquat_is|]. split; lra.
Qed.
