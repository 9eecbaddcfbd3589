(** Generated by tools/gen_properties.py from P_F32Mul.v: property theorems only. *)

From Coq Require Import List Arith ZArith Reals Lia Bool Lra SpecFloat.
From Flocq Require Import Core BinarySingleNaN.
From Verif Require Import M_Base M_Arith M_Utils M_Vector M_Matrix M_Quaternion M_F32
  S_Spec S_Linalg S_Norm S_Quat S_F32 P_Inst P_InstF.
Import ListNotations.
Local Open Scope R_scope.

From Verif Require Import P_F32Mul.

(** C60: the dot product of finite f32 vectors of moderate size (total magnitude of the products below 2^120) is
    finite and differs from the true one by at most (n+1) * 6.25e-8 times the sum of the magnitudes of the
    products, plus 2^-140 *)
Theorem C60_dot :
  forall (lm : Libm) (v w : Vec (T (Arith := F32 lm))) (n : nat) (a b : nat -> R),
  vec_f v n a -> vec_f w n b ->
  let M := Rsum n (fun i => Rabs (a i * b i)) in M <= bpow radix2 120 ->
  exists d, v_dot_product v w = Ok d /\ is_finite (d : f32) = true /\
    Rabs (B2R (d : f32) - rdot n a b) <= (INR n + 1) / 16000000 * M + tiny.
Proof. exact l_dot32. Qed.
Print Assumptions C60_dot.

(** C60: the product of f32 matrices of moderate size succeeds and every cell is within the same bound of the
    true one *)
Theorem C60_matrix_product :
  forall (lm : Libm) (x y : Mat (T (Arith := F32 lm))) (r k c : nat) (a b : nat -> nat -> R),
  mat_f x r k a -> mat_f y k c b ->
  let M i j := Rsum k (fun t => Rabs (a i t * b t j)) in
  (forall i j, (i < r)%nat -> (j < c)%nat -> M i j <= bpow radix2 120) ->
  exists m p, m_mul_new x y = Ok m /\ mat_f m r c p /\
    forall i j, (i < r)%nat -> (j < c)%nat ->
      Rabs (p i j - rmul k a b i j) <= (INR k + 1) / 16000000 * M i j + tiny.
Proof. exact l_mul32. Qed.
Print Assumptions C60_matrix_product.

(** C60: the Hamilton product of f32 quaternions (product of the norms below 2^120) succeeds, in both variants, and
    its distance from the true product is at most a millionth of the product of the norms (plus 2^-139) *)
Theorem C60_hamilton :
  forall (lm : Libm) (a b self : Vec (T (Arith := F32 lm))) (p q s : quat),
  quat_f a p -> quat_f b q -> quat_f self s -> qnorm p * qnorm q <= bpow radix2 120 ->
  exists v r, q_mul_new a b = Ok v /\ q_mul a b self = (v, Ok tt) /\ quat_f v r /\
    qdist r (qmul p q) <= / 1000000 * (qnorm p * qnorm q) + 2 * tiny.
Proof. exact l_hamilton32. Qed.
Print Assumptions C60_hamilton.

(** C60: in f32 the product is associative up to 5 millionths of the product of the norms (norms up to 2^30) *)
Theorem C60_associative :
  forall (lm : Libm) (a b c : Vec (T (Arith := F32 lm))) (p q r : quat),
  quat_f a p -> quat_f b q -> quat_f c r ->
  qnorm p <= bpow radix2 30 -> qnorm q <= bpow radix2 30 -> qnorm r <= bpow radix2 30 ->
  exists ab bc v w x y, q_mul_new a b = Ok ab /\ q_mul_new ab c = Ok v /\ q_mul_new b c = Ok bc /\ q_mul_new a bc = Ok w /\
    quat_f v x /\ quat_f w y /\ qdist x y <= 5 / 1000000 * (qnorm p * qnorm q * qnorm r) + bpow radix2 (-100).
Proof. exact l_assoc32. Qed.
Print Assumptions C60_associative.

(** C60, violation: it is not associative exactly; the real quaternions 0.1, 0.3 and 0.7 *)
Theorem C60_associative_exact_refuted :
  forall (lm : Libm), exists (a b c ab bc v w : Vec (T (Arith := F32 lm))),
  wfv a /\ wfv b /\ wfv c /\ q_mul_new a b = Ok ab /\ q_mul_new ab c = Ok v /\ q_mul_new b c = Ok bc /\
  q_mul_new a bc = Ok w /\ obs (v_get v 0) = Ok (S754_finite false 11274289 (-29)) /\
  obs (v_get w 0) = Ok (S754_finite false 11274290 (-29)).
Proof. exact l_assoc32_w. Qed.
Print Assumptions C60_associative_exact_refuted.

(** C60, violation: without the bound on the magnitudes the dot product of two finite vectors is reported as a success
    although it is NaN: (2^100, 2^100) . (2^100, -2^100), which is 0 *)
Theorem C60_dot_nan_refuted :
  forall (lm : Libm), exists (v w : Vec (T (Arith := F32 lm))) (a b : nat -> R),
  vec_f v 2 a /\ vec_f w 2 b /\ rdot 2 a b = 0 /\ obs (v_dot_product v w) = Ok S754_nan.
Proof. exact l_dot_nan. Qed.
Print Assumptions C60_dot_nan_refuted.

(** the hypotheses are met by the quaternions 1+2i+3j-4k and 2-i+j, whose product 1+7i+11j-3k is exact *)
Example C60_example :
  exists (a b : Vec (T (Arith := F32 lm_id))),
  quat_f a (Quat 1 2 3 (-4)) /\ quat_f b (Quat 2 (-1) 1 0) /\
  qnorm (Quat 1 2 3 (-4)) <= bpow radix2 30 /\ qnorm (Quat 2 (-1) 1 0) <= bpow radix2 30 /\
  rmap (fun v => map B2SF (v_elems v)) (q_mul_new a b) = Ok (map sf [1; 7; 11; -3]%Z).
Proof.
  exists (mk_vec (A := F32 lm_id) (map z32 [1; 2; 3; -4]%Z)), (mk_vec (A := F32 lm_id) (map z32 [2; -1; 1; 0]%Z)).
  split; [apply (fquat_z lm_id); lia|]. split; [apply (fquat_z lm_id); lia|].
  assert (B : 1000 <= bpow radix2 30). { apply Rle_trans with (bpow radix2 10); [cbn; lra|apply bpow_le; lia]. }
  assert (S : forall q, qnorm2 q <= 1000 * 1000 -> qnorm q <= bpow radix2 30).
  { intros q H. eapply Rle_trans; [|exact B]. rewrite <- (sqrt_square 1000) by lra. apply sqrt_le_1_alt. exact H. }
  split; [apply S; unfold qnorm2; cbn; lra|]. split; [apply S; unfold qnorm2; cbn; lra|].
  vm_compute. reflexivity.
Qed.
