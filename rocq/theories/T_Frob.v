(** Generated by tools/gen_properties.py from P_Frob.v: property theorems only. *)

From Coq Require Import List Arith ZArith Reals Lia Bool Lra.
From Flocq Require Import Core BinarySingleNaN.
From Verif Require Import M_Base M_Arith M_Utils M_Vector M_Matrix M_F32 M_RX S_Spec S_Linalg S_Norm S_F32 S_Frob P_Inst P_InstF.
Import ListNotations.
Local Open Scope R_scope.

From Verif Require Import P_Frob.

(** C81 (exact): [calculate_frobenius_norm] is the square root of the sum of the squares of all cells *)
Theorem C81_real :
  forall (m : Mat (T (Arith := RX))) (r c : nat) (a : nat -> nat -> R), mat_r m r c a ->
  m_calculate_frobenius_norm m = Ok (Some (rfrob r c a)).
Proof. exact l_frob. Qed.
Print Assumptions C81_real.

(** C81 (every arithmetic): a vector turned into a one-column matrix has a Frobenius norm from which [calculate_norm]
    differs only in replacing norms up to EPSILON by zero *)
Theorem C81_vector :
  forall (A : Arith) (OK : ArithOk A) (v : Vec T) (n : nat) (f : nat -> T), vec_is v n f ->
  exists m x, v_convert_to_matrix v = Ok m /\ m_calculate_frobenius_norm m = Ok x /\
    v_calculate_norm v = Ok (if (x <=? EPSILON)%F then f0 else x).
Proof. exact l_frob_vec. Qed.
Print Assumptions C81_vector.

(** C81 (f32, every libm): for norms up to 2^60 the relative error is at most 1.2e-6, apart from an absolute error of
    2^-70 *)
Theorem C81_float :
  forall (lm : Libm) (m : Mat (T (Arith := F32 lm))) (r c : nat) (a : nat -> nat -> R), mat_f m r c a ->
  rfrob r c a <= bpow radix2 60 ->
  exists x : T (Arith := F32 lm), m_calculate_frobenius_norm m = Ok x /\ is_finite (x : f32) = true /\ 0 <= B2R (x : f32) /\
    Rabs (B2R (x : f32) - rfrob r c a) <= 12 / 10000000 * rfrob r c a + bpow radix2 (-70).
Proof. exact l_frob32. Qed.
Print Assumptions C81_float.

(** C81, violation: a finite matrix with a cell of magnitude 2^64 or more gets the norm +infinity, with the outcome Ok *)
Theorem C81_overflow :
  forall (lm : Libm) (m : Mat (T (Arith := F32 lm))) (r c : nat) (a : nat -> nat -> R) (i j : nat), mat_f m r c a ->
  (i < r)%nat -> (j < c)%nat -> bpow radix2 64 <= Rabs (a i j) ->
  m_calculate_frobenius_norm m = Ok (B754_infinity false : T (Arith := F32 lm)).
Proof. exact l_frob_inf. Qed.
Print Assumptions C81_overflow.

(** C81, violation: a matrix whose cells are at most 2^-76 in magnitude gets the norm zero, even if it is not zero *)
Theorem C81_underflow :
  forall (lm : Libm) (m : Mat (T (Arith := F32 lm))) (r c : nat) (a : nat -> nat -> R), mat_f m r c a ->
  (forall i j, (i < r)%nat -> (j < c)%nat -> Rabs (a i j) <= bpow radix2 (-76)) ->
  exists x : T (Arith := F32 lm), m_calculate_frobenius_norm m = Ok x /\ is_finite (x : f32) = true /\ B2R (x : f32) = 0.
Proof. exact l_frob_zero. Qed.
Print Assumptions C81_underflow.

(** C81: an initialised matrix of finite cells always gets a norm, which is not NaN and not negative *)
Theorem C81_total :
  forall (lm : Libm) (m : Mat (T (Arith := F32 lm))) (r c : nat) (a : nat -> nat -> R), mat_f m r c a ->
  exists x : T (Arith := F32 lm), m_calculate_frobenius_norm m = Ok x /\ (x = (B754_infinity false : f32) \/ is_finite (x : f32) = true /\ 0 <= B2R (x : f32)).
Proof. exact l_frob_total. Qed.
Print Assumptions C81_total.

Example C81_example :
  mat_r (rmat 2 2 [3; 0; 0; 4]) 2 2 (fun i j => nth (i * 2 + j) [3; 0; 0; 4] 0) /\ rfrob 2 2 (fun i j => nth (i * 2 + j) [3; 0; 0; 4] 0) = 5 /\
  (forall lm, mat_f (lm := lm) (mk_mat (A := F32 lm) 2 2 (map z32 [3; 0; 0; 4]%Z)) 2 2 (fun i j => IZR (nth (i * 2 + j) [3; 0; 0; 4]%Z 0%Z))) /\ 5 <= bpow radix2 60.
Proof. exact ex_frob. Qed.
