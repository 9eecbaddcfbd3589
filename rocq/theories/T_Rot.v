(** Generated by tools/gen_properties.py from P_Rot.v: property theorems only. *)

From Coq Require Import List Arith ZArith Reals Lia Bool Lra.
From Flocq Require Import Core BinarySingleNaN.
From Verif Require Import M_Base M_Arith M_Utils M_Vector M_Matrix M_Quaternion M_F32 M_RX
  S_Spec S_Linalg S_Norm S_Quat P_Inst P_InstQ.
Import ListNotations.
Local Open Scope R_scope.

From Verif Require Import P_Rot.

(** C32: for norm > EPSILON [invert] gives the two-sided inverse *)
Theorem C32_inverse :
  forall (v : Vec (T (Arith := RX))) (q : quat), quat_r v q -> eps < qnorm q ->
  exists v' q', q_invert v = (v', Ok tt) /\ quat_r v' q' /\ qmul q q' = qone /\ qmul q' q = qone.
Proof. exact l_invert. Qed.
Print Assumptions C32_inverse.

(** C32: for norm <= EPSILON it stores the zero quaternion and reports success *)
Theorem C32_small :
  forall (v : Vec (T (Arith := RX))) (q : quat), quat_r v q -> qnorm q <= eps ->
  exists v', q_invert v = (v', Ok tt) /\ quat_r v' qzero.
Proof. exact l_invert_small. Qed.
Print Assumptions C32_small.

(** C32: size other than 4 *)
Theorem C32_size :
  forall (A : Arith) (v : Vec T) (n : nat) (f : nat -> T), vec_is v n f -> n <> 4%nat ->
  q_invert v = (v, Err InvalidSize).
Proof. exact l_invert_size. Qed.
Print Assumptions C32_size.

Example C32_example :
  quat_r (rvec [1; 2; 2; 4]) (Quat 1 2 2 4) /\ qnorm (Quat 1 2 2 4) = 5 /\ eps < 5 /\
  quat_r (rvec [0; 0; / 20000; 0]) (Quat 0 0 (/ 20000) 0) /\ qnorm (Quat 0 0 (/ 20000) 0) <= eps.
Proof.
  split; [apply rquat_is|]. unfold qnorm, qnorm2. cbn. split.
  { replace (1 * 1 + 2 * 2 + 2 * 2 + 4 * 4) with (5 * 5) by ring. apply sqrt_square. lra. }
  split; [unfold eps; lra|]. split; [apply rquat_is|].
  replace (0 * 0 + 0 * 0 + / 20000 * / 20000 + 0 * 0) with (/ 20000 * / 20000) by ring.
  rewrite sqrt_square by lra. unfold eps. lra.
Qed.

(** C33: the matrix of a unit quaternion is the matrix of u -> q u q* and is a proper rotation *)
Theorem C33_dcm :
  forall (v : Vec (T (Arith := RX))) (q : quat), quat_r v q -> unitq q ->
  exists m, q_convert_to_dcm v = Ok m /\ mat_r m 3 3 (rotmat q) /\ rotation (rotmat q).
Proof. exact l_dcm. Qed.
Print Assumptions C33_dcm.

(** C33, f32: q and -q give the same matrix, bit for bit, or the same error, whatever q *)
Theorem C33_double_cover :
  forall (lm : Libm), let A := F32 lm in
  forall (v v' : Vec T) (f : nat -> T), vec_is v 4 f -> vec_is v' 4 (fun i => Bopp (f i : f32)) ->
  q_convert_to_dcm v' = q_convert_to_dcm v.
Proof. exact l_cover. Qed.
Print Assumptions C33_double_cover.

(** C33: the same over the reals *)
Theorem C33_double_cover_real :
  forall (v v' : Vec (T (Arith := RX))) (q : quat), quat_r v q -> quat_r v' (qneg q) -> unitq q ->
  exists m m', q_convert_to_dcm v = Ok m /\ q_convert_to_dcm v' = Ok m' /\
    mat_r m 3 3 (rotmat q) /\ mat_r m' 3 3 (rotmat q).
Proof. exact l_cover_real. Qed.
Print Assumptions C33_double_cover_real.

(** C33: the matrix of a product is the product of the matrices *)
Theorem C33_product :
  forall (a b : Vec (T (Arith := RX))) (p q : quat), quat_r a p -> quat_r b q -> unitq p -> unitq q ->
  exists ab ma mb m m', q_mul_new a b = Ok ab /\ q_convert_to_dcm a = Ok ma /\ q_convert_to_dcm b = Ok mb /\
    q_convert_to_dcm ab = Ok m /\ m_mul_new ma mb = Ok m' /\
    mat_r m 3 3 (rotmat (qmul p q)) /\ mat_r m' 3 3 (rotmat (qmul p q)).
Proof. exact l_dcm_mul. Qed.
Print Assumptions C33_product.

(** C33: [rotate] and [rotate_in_place] turn a vector by q, keep its length, and agree with the matrix *)
Theorem C33_rotate :
  forall (qv v : Vec (T (Arith := RX))) (q : quat) (u : nat -> R), quat_r qv q -> unitq q -> vec_r v 3 u ->
  exists v1 v2, q_rotate qv v = Ok v1 /\ q_rotate_in_place qv v = (v2, Ok tt) /\
    vec_r v1 3 (qrot q u) /\ vec_r v2 3 (qrot q u) /\
    rnorm 3 (qrot q u) = rnorm 3 u /\
    forall i, (i < 3)%nat -> qrot q u i = rmv 3 (rotmat q) u i.
Proof. exact l_rotate. Qed.
Print Assumptions C33_rotate.

(** C33: wrong sizes are refused *)
Theorem C33_sizes :
  forall (A : Arith) (OK : ArithOk A) (qv v : Vec T) (n k : nat) (f g : nat -> T),
  vec_is qv n f -> vec_is v k g ->
  (n <> 4%nat -> q_convert_to_dcm qv = Err InvalidSize) /\
  (k <> 3%nat \/ n <> 4%nat -> q_rotate qv v = Err InvalidSize /\ q_rotate_in_place qv v = (v, Err InvalidSize)).
Proof. exact l_rot_sizes. Qed.
Print Assumptions C33_sizes.

Example C33_example :
  let q := Quat (1/2) (1/2) (1/2) (1/2) in
  quat_r (rvec [1/2; 1/2; 1/2; 1/2]) q /\ unitq q /\ vec_r (rvec [1; 2; 3]) 3 (triple 1 2 3) /\
  qrot q (triple 1 2 3) 0%nat = 3 /\ qrot q (triple 1 2 3) 1%nat = 1 /\ qrot q (triple 1 2 3) 2%nat = 2.
Proof.
  cbv zeta. split; [apply rquat_is|]. split; [unfold unitq, qnorm2; cbn; lra|]. split; [apply rtriple_is|].
  cbn. repeat split; field.
Qed.
