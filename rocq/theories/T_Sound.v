(** Generated by tools/gen_properties.py from P_Sound.v: property theorems only. *)

From Coq Require Import List Arith ZArith Reals Lia Bool Lra SpecFloat.
From Flocq Require Import Core BinarySingleNaN.
From Verif Require Import M_Base M_Arith M_Utils M_Vector M_Matrix M_F32 M_RX
  S_Spec S_Linalg S_Norm S_Lu S_F32 P_Inst P_InstF.
Import ListNotations.
Local Open Scope R_scope.

From Verif Require Import P_Sound.

(** C74: conversely, whatever the elements of an f32 matrix, if [is_so_n] or [is_orthogonal] answers yes then the matrix is square
    and every element of R R', computed exactly, is within 1.01e-4 of the identity *)
Theorem C74_sound :
  forall (lm : Libm) (m : Mat (T (Arith := F32 lm))) (r c : nat) (a : nat -> nat -> R), mat_f m r c a ->
  m_is_so_n m = Ok true \/ m_is_orthogonal m = Ok true ->
  r = c /\ forall i j, (i < r)%nat -> (j < r)%nat -> Rabs (rmul r a (rtr a) i j - rid i j) <= 101 / 1000000.
Proof. exact l_sound32. Qed.
Print Assumptions C74_sound.

(** C74: and for 3 x 3 the magnitude of the determinant, computed exactly, is within 1.6e-4 of 1 *)
Theorem C74_sound_det :
  forall (lm : Libm) (m : Mat (T (Arith := F32 lm))) (a : nat -> nat -> R), mat_f m 3 3 a ->
  m_is_so_n m = Ok true \/ m_is_orthogonal m = Ok true -> Rabs (Rabs (rdet 3 a) - 1) <= 16 / 100000.
Proof. exact l_sound_det. Qed.
Print Assumptions C74_sound_det.

(** C25 in f32: if [is_so_n] answers yes, [adjugate_in_place] succeeds, every element of the result is within 1.05e-4 of the transpose,
    and the product of the matrix and the result, computed exactly, is within 2.1e-4 of the identity *)
Theorem C25_adjugate32 :
  forall (lm : Libm) (m : Mat (T (Arith := F32 lm))) (r c : nat) (a : nat -> nat -> R), mat_f m r c a -> m_is_so_n m = Ok true ->
  exists m' l, m_adjugate_in_place m = (m', Ok tt) /\ mat_f m' r r l /\
    forall i j, (i < r)%nat -> (j < r)%nat -> Rabs (l i j - a j i) <= 105 / 1000000 /\ Rabs (rmul r a l i j - rid i j) <= 21 / 100000.
Proof. exact l_adjugate32. Qed.
Print Assumptions C25_adjugate32.

(** test: a quarter turn about x is recognised *)
Example C74_example_sound : forall lm : Libm, let m := mk_mat (A := F32 lm) 3 3 (map z32 [1; 0; 0; 0; 0; -1; 0; 1; 0]%Z) in
  mat_f (lm := lm) m 3 3 (fun i j => IZR (nth (i * 3 + j) [1; 0; 0; 0; 0; -1; 0; 1; 0]%Z 0%Z)) /\ m_is_so_n m = Ok true.
Proof. exact sound_ex. Qed.
