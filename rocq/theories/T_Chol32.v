(** Generated by tools/gen_properties.py from P_Chol32.v: property theorems only. *)

From Coq Require Import List Arith ZArith Reals Lia Bool Lra SpecFloat.
From Flocq Require Import Core BinarySingleNaN.
From Verif Require Import M_Base M_Arith M_Utils M_Vector M_Matrix M_F32
  S_Spec S_Linalg S_Norm S_Lu S_F32 S_Lu32 S_Chol32 P_Inst P_InstF.
Import ListNotations.
Local Open Scope R_scope.

From Verif Require Import P_Chol32.

(** C71: whenever [chol] of an n x n f32 matrix succeeds, the diagonal of the result is not negative, and not zero except
    for the last element; the lower triangle times its transpose is the lower triangle of A up to 3e-7 times the product
    of the magnitudes *)
Theorem C71_factor :
  forall (lm : Libm) (m ml : Mat (T (Arith := F32 lm))) (n : nat) (a : nat -> nat -> R), mat_f m n n a -> m_chol m = Ok ml ->
  exists l, mat_f ml n n l /\ (forall i, (i < n)%nat -> 0 <= l i i) /\ (forall i, (S i < n)%nat -> 0 < l i i) /\
    forall i j, (j <= i)%nat -> (i < n)%nat ->
    Rabs (a i j - rmul n (low l) (rtr (low l)) i j) <=
      3 / 10000000 * (Rsum n (fun k => amp (low l i k) * amp (low l j k)) + 4 * least).
Proof. exact l_chol32. Qed.
Print Assumptions C71_factor.

(** C71: for an exactly symmetric 2 x 2 matrix the element above the diagonal, which should be zero, is at most half a
    percent of the product of the first column *)
Theorem C71_upper_2 :
  forall (lm : Libm) (m ml : Mat (T (Arith := F32 lm))) (a : nat -> nat -> R), mat_f m 2 2 a -> a 0%nat 1%nat = a 1%nat 0%nat -> m_chol m = Ok ml ->
  exists l, mat_f ml 2 2 l /\ Rabs (l 0%nat 1%nat) <= 5 / 1000 * (amp (l 0%nat 0%nat) * amp (l 1%nat 0%nat) + 4 * least).
Proof. exact l_chol32_upper. Qed.
Print Assumptions C71_upper_2.

(** C71, violation for every libm: [[8,6,0],[6,8,5],[0,5,8]] is symmetric and positive definite, but the factor that
    [chol] returns has an element below -127 in the top right corner, which should be zero, and the first diagonal element
    of L L' is above 16000 instead of 8 *)
Theorem C71_triangular_refuted :
  exists m : Mat f32, forall lm : Libm, mat_f (lm := lm) m 3 3 (fun i j => IZR (nth (i * 3 + j) garb 0%Z)) /\
  (forall x, (exists i, (i < 3)%nat /\ x i <> 0) -> 0 < rdot 3 x (rmv 3 (fun i j => IZR (nth (i * 3 + j) garb 0%Z)) x)) /\
  exists ml l, m_chol (A := F32 lm) m = Ok ml /\ mat_f (lm := lm) ml 3 3 l /\ l 0%nat 2%nat <= -127 /\ 16000 <= rmul 3 l (rtr l) 0 0.
Proof. exact l_chol32_w. Qed.
Print Assumptions C71_triangular_refuted.

(** test: [chol] succeeds on the symmetric matrix [[3,1],[1,3]], and even there the element above the diagonal is not zero *)
Example C71_example :
  let A := F32 lm_id in let m := mk_mat (A := A) 2 2 (map z32 [3; 1; 1; 3]%Z) in
  mat_f (lm := lm_id) m 2 2 (fun i j => IZR (nth (i * 2 + j) [3; 1; 1; 3]%Z 0%Z)) /\
  rmap show_m (m_chol m) = Ok (2%nat, 2%nat, true, [S754_finite false 14529495 (-23); S754_finite false 10240000 (-34); S754_finite false 9686330 (-24); S754_finite false 13698540 (-23)]).
Proof. exact ex_chol. Qed.
