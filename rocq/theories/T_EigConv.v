(** Generated by tools/gen_properties.py from P_EigConv.v: property theorems only. *)

From Coq Require Import List Arith ZArith Reals Lia Bool Lra SpecFloat.
From Flocq Require Import Core BinarySingleNaN.
From Verif Require Import M_Base M_Arith M_Utils M_Vector M_Matrix M_F32 M_RX
  S_Spec S_Linalg S_Compare S_Norm S_Lu S_Decomp S_Eig P_Inst.
Import ListNotations.
Local Open Scope R_scope.

From Verif Require Import P_EigConv.

(** C65: for a symmetric matrix whose eigenvalues all exceed EPSILON, unshifted [eigen] succeeds with an orthogonal
    matrix V, and the eigenvalues it returns are either all zero (the budget ran out) or add up to the trace and pair
    with the columns of V up to the residual sqrt(EPSILON tr max(1, tr)) *)
Theorem C65_accurate :
  forall (ck : bool) (niter : nat) (m : Mat (T (Arith := RX))) (n : nat) (a : nat -> nat -> R),
  mat_r m n n a -> symmetric n a -> definite n eps a ->
  exists vals vecs v l, eigen ck m niter false = Ok (vals, vecs) /\ mat_r vecs n n v /\ vec_r vals n l /\
    orth n v /\ orth n (rtr v) /\
    ((forall i, (i < n)%nat -> l i = 0) \/ (eigenpairs n a v l /\ Rsum n l = trace n a)).
Proof. exact l_eig_accurate. Qed.
Print Assumptions C65_accurate.

(** C65: and a budget of 65500 iterations (niter is a u16) is always enough for 1 x 1, 2 x 2 and 3 x 3 matrices, and
    for 4 x 4 matrices unless the diagonal is concentrated in the lower corner *)
Theorem C65_converges :
  forall (ck : bool) (niter : nat) (m : Mat (T (Arith := RX))) (n : nat) (a : nat -> nat -> R),
  mat_r m n n a -> symmetric n a -> definite n eps a -> (65500 <= Z.of_nat niter)%Z ->
  (n = 4%nat -> 7 / 10 * trace 4 a <= 3 * a 0%nat 0%nat + 2 * a 1%nat 1%nat + a 2%nat 2%nat) ->
  exists vals vecs v l, eigen ck m niter false = Ok (vals, vecs) /\ mat_r vecs n n v /\ vec_r vals n l /\
    orth n v /\ orth n (rtr v) /\ eigenpairs n a v l /\ Rsum n l = trace n a.
Proof. exact l_eig_converges. Qed.
Print Assumptions C65_converges.

(** C65, violation, in binary32: the first eigenvalue returned for the symmetric matrix [[128, 10], [10, 512]] / 2^20,
    whose eigenvalues exceed EPSILON, is off by more than 40%, since the change of the diagonal is flushed to zero below EPSILON *)
Theorem C65_small_refuted :
  forall (lm : Libm), exists (m vecs : Mat (T (Arith := F32 lm))) (vals : Vec (T (Arith := F32 lm))) (f : nat -> nat -> f32) (x : f32),
  mat_is (A := F32 lm) m 2 2 f /\ let a := fun i j => B2R (f i j) in symmetric 2 a /\ definite 2 eps a /\
  eigen (A := F32 lm) true m 100 false = Ok (vals, vecs) /\ v_get vals 0 = Ok x /\
  forall mu y, 0 < rdot 2 y y -> (forall i, (i < 2)%nat -> rmv 2 a y i = mu * y i) -> 2 / 5 * mu < Rabs (B2R x - mu).
Proof. exact l_eig_small. Qed.
Print Assumptions C65_small_refuted.

(** the hypotheses are met by the matrix of 2 on the diagonal and 1 elsewhere, of eigenvalues 1, 1, 1 and 5 *)
Example C65_example :
  let a := fun i j => if (i =? j)%nat then 2 else 1 in
  mat_r (rmat 4 4 [2; 1; 1; 1; 1; 2; 1; 1; 1; 1; 2; 1; 1; 1; 1; 2]) 4 4 a /\ symmetric 4 a /\ definite 4 eps a /\
  7 / 10 * trace 4 a <= 3 * a 0%nat 0%nat + 2 * a 1%nat 1%nat + a 2%nat 2%nat.
Proof. exact eig_example. Qed.
