(** Generated by tools/gen_properties.py from P_Dcm.v: property theorems only. *)

From Coq Require Import List Arith ZArith Reals Lia Bool Lra Psatz.
From Flocq Require Import Core BinarySingleNaN.
From Verif Require Import M_Base M_Arith M_Utils M_Vector M_Matrix M_Quaternion M_F32 M_RX
  S_Spec S_Linalg S_Norm S_Quat P_Inst P_InstQ.
Import ListNotations.
Local Open Scope R_scope.

From Verif Require Import P_Dcm.

(** C34: [chiaverini] recovers q (or -q, the same rotation) from its matrix when w is not 0 and no
    other component exceeds sqrt(1/2) in magnitude *)
Theorem C34_chiaverini :
  forall (v dcm : _) (s : nat -> R) (q : quat),
  vec_r v 4 s -> mat_r dcm 3 3 (rotmat q) -> unitq q ->
  2 * (Qx q * Qx q) <= 1 -> 2 * (Qy q * Qy q) <= 1 -> 2 * (Qz q * Qz q) <= 1 ->
  (0 < Qw q -> exists v', q_chiaverini dcm v = (v', Ok tt) /\ quat_r v' q) /\
  (Qw q < 0 -> exists v', q_chiaverini dcm v = (v', Ok tt) /\ quat_r v' (qneg q)).
Proof. exact l_chiaverini. Qed.
Print Assumptions C34_chiaverini.

(** C34: on the code's own matrices *)
Theorem C34_chiaverini_round_trip :
  forall (v qv : Vec (T (Arith := RX))) (s : nat -> R) (q : quat),
  vec_r v 4 s -> quat_r qv q -> unitq q -> 0 < Qw q ->
  2 * (Qx q * Qx q) <= 1 -> 2 * (Qy q * Qy q) <= 1 -> 2 * (Qz q * Qz q) <= 1 ->
  exists dcm v', q_convert_to_dcm qv = Ok dcm /\ q_chiaverini dcm v = (v', Ok tt) /\ quat_r v' q.
Proof. exact l_chiaverini_rt. Qed.
Print Assumptions C34_chiaverini_round_trip.

(** C34, violation: for every half turn (w = 0) [chiaverini] reports success with the zero quaternion *)
Theorem C34_chiaverini_half_turn :
  forall (v dcm : _) (s : nat -> R) (q : quat),
  vec_r v 4 s -> mat_r dcm 3 3 (rotmat q) -> unitq q -> Qw q = 0 ->
  exists v', q_chiaverini dcm v = (v', Ok tt) /\ quat_r v' qzero.
Proof. exact l_chiaverini_pi. Qed.
Print Assumptions C34_chiaverini_half_turn.

(** C34, violation: whenever some vector component exceeds sqrt(1/2) in magnitude (and w is not 0)
    the result is a unit quaternion of another rotation *)
Theorem C34_chiaverini_clipped :
  forall (v dcm : _) (s : nat -> R) (q : quat),
  vec_r v 4 s -> mat_r dcm 3 3 (rotmat q) -> unitq q -> Qw q <> 0 ->
  1 < 2 * (Qx q * Qx q) \/ 1 < 2 * (Qy q * Qy q) \/ 1 < 2 * (Qz q * Qz q) ->
  exists v' q', q_chiaverini dcm v = (v', Ok tt) /\ quat_r v' q' /\ unitq q' /\ q' <> q /\ q' <> qneg q.
Proof. exact l_chiaverini_clip. Qed.
Print Assumptions C34_chiaverini_clipped.

(** C34, violation: [hughes] applied to the matrix of q returns the conjugate (the opposite
    rotation), up to sign, outside the identity and half-turn neighbourhoods *)
Theorem C34_hughes :
  forall (v dcm : _) (s : nat -> R) (q : quat),
  vec_r v 4 s -> mat_r dcm 3 3 (rotmat q) -> unitq q ->
  eps < Rabs (Qw q) -> eps < 4 * (1 - Qw q * Qw q) ->
  (0 < Qw q -> exists v', q_hughes dcm v = (v', Ok tt) /\ quat_r v' (qconj q)) /\
  (Qw q < 0 -> exists v', q_hughes dcm v = (v', Ok tt) /\ quat_r v' (qneg (qconj q))).
Proof. exact l_hughes. Qed.
Print Assumptions C34_hughes.

(** C34, violation: [sarabandi] always returns the absolute values of the components *)
Theorem C34_sarabandi :
  forall (v dcm : _) (s : nat -> R) (q : quat) (eta : option R),
  vec_r v 4 s -> mat_r dcm 3 3 (rotmat q) -> unitq q -> match eta with Some e => e < 3 | None => True end ->
  exists v', q_sarabandi dcm (match eta with Some e => Some (Some e : T (Arith := RX)) | None => None end) v = (v', Ok tt) /\
    quat_r v' (Quat (Rabs (Qw q)) (Rabs (Qx q)) (Rabs (Qy q)) (Rabs (Qz q))).
Proof. exact l_sarabandi. Qed.
Print Assumptions C34_sarabandi.

(** C34: so the round trip through [sarabandi] and [hughes] is wrong, e.g. for (1/2, 1/2, -1/2, 1/2) *)
Theorem C34_sarabandi_refuted :
  exists (qv v v1 v2 : Vec (T (Arith := RX))) (dcm : Mat (T (Arith := RX))) (q q1 q2 : quat),
  quat_r qv q /\ unitq q /\ q_convert_to_dcm qv = Ok dcm /\
  q_sarabandi dcm None v = (v1, Ok tt) /\ quat_r v1 q1 /\
  q_hughes dcm v = (v2, Ok tt) /\ quat_r v2 q2 /\
  rotmat q1 0%nat 1%nat <> rotmat q 0%nat 1%nat /\ rotmat q2 0%nat 1%nat <> rotmat q 0%nat 1%nat.
Proof. exact l_sarabandi_w. Qed.
Print Assumptions C34_sarabandi_refuted.

Example C34_example :
  let q := Quat (4/5) 0 (3/5) 0 in let h := Quat 0 (3/5) (4/5) 0 in let c := Quat (3/5) 0 (4/5) 0 in
  quat_r (rvec [4/5; 0; 3/5; 0]) q /\ unitq q /\ 0 < Qw q /\ 2 * (Qy q * Qy q) <= 1 /\
  eps < Rabs (Qw q) /\ eps < 4 * (1 - Qw q * Qw q) /\ unitq h /\ Qw h = 0 /\
  unitq c /\ Qw c <> 0 /\ 1 < 2 * (Qy c * Qy c).
Proof.
  cbv zeta. split; [apply rquat_is|]. unfold unitq, qnorm2, eps; cbn. rewrite Rabs_right by lra. repeat split; lra.
Qed.
