(** Generated by tools/gen_properties.py from P_Proper.v: property theorems only. *)

From Coq Require Import List Arith ZArith Reals Lia Bool Lra SpecFloat.
From Flocq Require Import Core BinarySingleNaN.
From Verif Require Import M_Base M_Arith M_Utils M_Vector M_Matrix M_F32 M_RX
  S_Spec S_Linalg S_Norm S_Lu S_F32 P_Inst P_InstF.
Import ListNotations.
Local Open Scope R_scope.

From Verif Require Import P_Proper.

(** C74: and for 3 x 3 the answer yes of [is_so_n] excludes reflections: the determinant itself, computed exactly, is within
    1.6e-4 of 1, however small the pivots were (the determinant the code tests may be off by far more than EPSILON) *)
Theorem C74_sound_proper :
  forall (lm : Libm) (m : Mat (T (Arith := F32 lm))) (a : nat -> nat -> R), mat_f m 3 3 a ->
  m_is_so_n m = Ok true -> Rabs (rdet 3 a - 1) <= 16 / 100000.
Proof. exact l_sound_proper. Qed.
Print Assumptions C74_sound_proper.

(** C74: so a reflection (determinant not positive) is never recognised, whatever its elements *)
Theorem C74_reflection :
  forall (lm : Libm) (m : Mat (T (Arith := F32 lm))) (a : nat -> nat -> R), mat_f m 3 3 a -> rdet 3 a <= 0 -> m_is_so_n m <> Ok true.
Proof. exact l_reflection. Qed.
Print Assumptions C74_reflection.

(** test: a quarter turn about z followed by a reflection is orthogonal but not recognised as a rotation *)
Example C74_example_reflection : forall lm : Libm, let m := mk_mat (A := F32 lm) 3 3 (map z32 [0; -1; 0; 1; 0; 0; 0; 0; -1]%Z) in
  mat_f (lm := lm) m 3 3 (fun i j => IZR (nth (i * 3 + j) [0; -1; 0; 1; 0; 0; 0; 0; -1]%Z 0%Z)) /\
  rdet 3 (fun i j => IZR (nth (i * 3 + j) [0; -1; 0; 1; 0; 0; 0; 0; -1]%Z 0%Z)) = -1 /\ m_is_orthogonal m = Ok true /\ m_is_so_n m = Ok false.
Proof. exact proper_ex. Qed.
