(** Generated by tools/gen_properties.py from P_F32Rot.v: property theorems only. *)

From Coq Require Import List Arith ZArith Reals Lia Bool Lra SpecFloat.
From Flocq Require Import Core BinarySingleNaN.
From Verif Require Import M_Base M_Arith M_Utils M_Vector M_Matrix M_Quaternion M_F32
  S_Spec S_Linalg S_Norm S_Quat S_F32 P_Inst P_InstF.
Import ListNotations.
Local Open Scope R_scope.

From Verif Require Import P_F32Rot.

(** C61: for an f32 quaternion of norm 1 +- d (d up to 1/100) [convert_to_dcm] succeeds and every cell is within
    5 d + 1e-6 of the rotation matrix of the direction of the quaternion *)
Theorem C61_dcm :
  forall (lm : Libm) (v : Vec (T (Arith := F32 lm))) (q : quat) (d : R),
  quat_f v q -> Rabs (qnorm q - 1) <= d -> d <= / 100 ->
  exists m a, q_convert_to_dcm v = Ok m /\ mat_f m 3 3 a /\ rotation (rotmat (qunit q)) /\
    forall i j, (i < 3)%nat -> (j < 3)%nat -> Rabs (a i j - rotmat (qunit q) i j) <= 5 * d + / 1000000.
Proof. exact l_dcm32. Qed.
Print Assumptions C61_dcm.

(** C61: [rotate] and [rotate_in_place] with an f32 quaternion of norm 1 +- d succeed, agree, and the distance of the
    result from the true rotation is at most (15 d + 4e-6) times the length of the vector (plus 2^-139);
    for d = 1e-6, which [normalize] guarantees, 1.9e-5.  The length changes by no more than that. *)
Theorem C61_rotate :
  forall (lm : Libm) (qv v : Vec (T (Arith := F32 lm))) (q : quat) (x : nat -> R) (d : R),
  quat_f qv q -> Rabs (qnorm q - 1) <= d -> d <= / 100 -> vec_f v 3 x -> rnorm 3 x <= bpow radix2 100 ->
  exists v1 v2 y, q_rotate qv v = Ok v1 /\ q_rotate_in_place qv v = (v2, Ok tt) /\ vec_f v1 3 y /\ vec_f v2 3 y /\
    vdist 3 y (qrot (qunit q) x) <= (15 * d + 4 / 1000000) * rnorm 3 x + 2 * tiny /\
    Rabs (rnorm 3 y - rnorm 3 x) <= (15 * d + 4 / 1000000) * rnorm 3 x + 2 * tiny.
Proof. exact l_rotate32. Qed.
Print Assumptions C61_rotate.

(** C61: normalising any f32 quaternion of norm between 2 EPSILON and 2^60 and rotating with it is the rotation by its
    direction, up to 3e-5 times the length of the vector (plus 2^-139) *)
Theorem C61_normalized :
  forall (lm : Libm) (qv v : Vec (T (Arith := F32 lm))) (q : quat) (x : nat -> R),
  quat_f qv q -> 2 * eps <= qnorm q <= bpow radix2 60 -> vec_f v 3 x -> rnorm 3 x <= bpow radix2 100 ->
  exists qn v' y, v_normalize qv = (qn, Ok tt) /\ q_rotate qn v = Ok v' /\ vec_f v' 3 y /\
    vdist 3 y (qrot (qunit q) x) <= 3 / 100000 * rnorm 3 x + 2 * tiny.
Proof. exact l_norm_rotate32. Qed.
Print Assumptions C61_normalized.

(** C61: rotating with q and then with its conjugate gives the vector back, up to (31 d + 9e-6) times its length *)
Theorem C61_roundtrip :
  forall (lm : Libm) (qv v : Vec (T (Arith := F32 lm))) (q : quat) (x : nat -> R) (d : R),
  quat_f qv q -> Rabs (qnorm q - 1) <= d -> d <= / 1000 -> vec_f v 3 x -> rnorm 3 x <= bpow radix2 90 ->
  exists qc v1 v2 z, q_conjugate qv = (qc, Ok tt) /\ q_rotate qv v = Ok v1 /\ q_rotate qc v1 = Ok v2 /\ vec_f v2 3 z /\
    vdist 3 z x <= (31 * d + 9 / 1000000) * rnorm 3 x + 8 * tiny.
Proof. exact l_roundtrip32. Qed.
Print Assumptions C61_roundtrip.

(** the quaternion i turns (1, 2, 3) into (1, -2, -3), exactly *)
Example C61_example :
  exists (q v : Vec (T (Arith := F32 lm_id))),
  quat_f q (Quat 0 1 0 0) /\ qnorm (Quat 0 1 0 0) = 1 /\ vec_f v 3 (triple 1 2 3) /\
  rnorm 3 (triple 1 2 3) <= bpow radix2 90 /\
  rmap (fun v => map B2SF (firstn 3 (v_elems v))) (q_rotate q v) = Ok (map sf [1; -2; -3]%Z).
Proof.
  exists (mk_vec (A := F32 lm_id) (map z32 [0; 1; 0; 0]%Z)), (mk_vec (A := F32 lm_id) (map z32 [1; 2; 3]%Z)).
  split; [apply (fquat_z lm_id); lia|]. split; [unfold qnorm, qnorm2; cbn; transitivity (sqrt 1); [f_equal; ring|apply sqrt_1]|].
  split; [apply (fvec3_z lm_id); lia|]. split.
  - apply Rle_trans with 4; [|apply Rle_trans with (bpow radix2 2); [cbn; lra|apply bpow_le; lia]].
    unfold rnorm, rdot. cbn. rewrite <- (sqrt_square 4) by lra. apply sqrt_le_1_alt. lra.
  - vm_compute. reflexivity.
Qed.
