(** Generated by tools/gen_properties.py from P_Proper2.v: property theorems only. *)

From Coq Require Import List Arith ZArith Reals Lia Bool Lra SpecFloat.
From Flocq Require Import Core BinarySingleNaN.
From Verif Require Import M_Base M_Arith M_Utils M_Vector M_Matrix M_F32 M_RX
  S_Spec S_Linalg S_Norm S_Lu S_F32 P_Inst P_InstF.
Import ListNotations.
Local Open Scope R_scope.

From Verif Require Import P_Proper2.

(** C74: a 2 x 2 f32 matrix for which [is_so_n] answers yes has a true determinant within 1.04e-4 of 1, however small the pivot was *)
Theorem C74_sound_plane :
  forall (lm : Libm) (m : Mat (T (Arith := F32 lm))) (a : nat -> nat -> R), mat_f m 2 2 a ->
  m_is_so_n m = Ok true -> Rabs (rdet 2 a - 1) <= 104 / 1000000.
Proof. exact l_sound_plane. Qed.
Print Assumptions C74_sound_plane.

(** test: a quarter turn of the plane is recognised, the reflection exchanging the axes is not *)
Example C74_example_plane : forall lm : Libm, let m := mk_mat (A := F32 lm) 2 2 (map z32 [0; -1; 1; 0]%Z) in
  mat_f (lm := lm) m 2 2 (fun i j => IZR (nth (i * 2 + j) [0; -1; 1; 0]%Z 0%Z)) /\ m_is_so_n m = Ok true /\
  m_is_so_n (mk_mat (A := F32 lm) 2 2 (map z32 [0; 1; 1; 0]%Z)) = Ok false.
Proof. exact plane_ex. Qed.
