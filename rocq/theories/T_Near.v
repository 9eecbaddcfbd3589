(** Generated by tools/gen_properties.py from P_Near.v: property theorems only. *)

From Coq Require Import List Arith ZArith Reals Lia Bool Lra SpecFloat.
From Flocq Require Import Core BinarySingleNaN.
From Verif Require Import M_Base M_Arith M_Utils M_Vector M_Matrix M_F32 M_RX
  S_Spec S_Linalg S_Norm S_Lu S_F32 P_Inst P_InstF.
Import ListNotations.
Local Open Scope R_scope.

From Verif Require Import P_Near.

(** C74: whatever the elements, if [is_so_n] answers yes for a 3 x 3 f32 matrix then some exact rotation matrix (orthonormal rows,
    determinant 1) agrees with it to 3e-4 in every element *)
Theorem C74_near :
  forall (lm : Libm) (m : Mat (T (Arith := F32 lm))) (a : nat -> nat -> R), mat_f m 3 3 a -> m_is_so_n m = Ok true ->
  exists q : nat -> nat -> R, (forall i j, (i < 3)%nat -> (j < 3)%nat -> rmul 3 q (rtr q) i j = rid i j) /\ rdet 3 q = 1 /\
    forall i j, (i < 3)%nat -> (j < 3)%nat -> Rabs (a i j - q i j) <= 3 / 10000.
Proof. exact l_near. Qed.
Print Assumptions C74_near.

(** C74: likewise, if [is_orthogonal] answers yes then some exactly orthogonal matrix agrees with it to 3e-4 in every element *)
Theorem C74_near_orthogonal :
  forall (lm : Libm) (m : Mat (T (Arith := F32 lm))) (a : nat -> nat -> R), mat_f m 3 3 a -> m_is_orthogonal m = Ok true ->
  exists q : nat -> nat -> R, (forall i j, (i < 3)%nat -> (j < 3)%nat -> rmul 3 q (rtr q) i j = rid i j) /\
    0 < rdet 3 q * rdet 3 a /\ forall i j, (i < 3)%nat -> (j < 3)%nat -> Rabs (a i j - q i j) <= 3 / 10000.
Proof. exact l_near_orthogonal. Qed.
Print Assumptions C74_near_orthogonal.

(** test: the turn carrying each axis to the next one is recognised *)
Example C74_example_near : forall lm : Libm, let m := mk_mat (A := F32 lm) 3 3 (map z32 [0; 0; 1; 1; 0; 0; 0; 1; 0]%Z) in
  mat_f (lm := lm) m 3 3 (fun i j => IZR (nth (i * 3 + j) [0; 0; 1; 1; 0; 0; 0; 1; 0]%Z 0%Z)) /\ m_is_so_n m = Ok true.
Proof. exact near_ex. Qed.
