(** Generated by tools/gen_properties.py from P_Accept.v: property theorems only. *)

From Coq Require Import List Arith ZArith Reals Lia Bool Lra SpecFloat.
From Flocq Require Import Core BinarySingleNaN.
From Verif Require Import M_Base M_Arith M_Utils M_Vector M_Matrix M_F32 M_RX
  S_Spec S_Linalg S_Norm S_Quat S_Lu S_F32 S_Track S_Interp32 S_Decomp S_Pivot P_Inst P_InstF.
Import ListNotations.
Local Open Scope R_scope.

From Verif Require Import P_Accept.

(** C74: whether the pivot search accepts an f32 rotation can be read off its elements: if the largest element of the first
    column is at least 1/2 in magnitude, the comparison that selects the second pivot is decided by 1e-6, and that pivot is at
    least 0.501 in magnitude, then a matrix whose rows are orthonormal up to 9e-5 and whose determinant is 1 up to 3e-5 is
    recognised as a rotation and as orthogonal *)
Theorem C74_accepted :
  forall (lm : Libm) (m : Mat (T (Arith := F32 lm))) (a : nat -> nat -> R) (p q r : nat) (x : R), mat_f m 3 3 a ->
  (forall i j, (i < 3)%nat -> (j < 3)%nat -> Rabs (rmul 3 a (rtr a) i j - rid i j) <= 9 / 100000) -> Rabs (rdet 3 a - 1) <= 3 / 100000 ->
  leads3 a p q r -> / 2 <= Rabs (a p 0%nat) -> second3_clear a p q r x -> 501 / 1000 <= Rabs x ->
  m_is_so_n m = Ok true /\ m_is_orthogonal m = Ok true.
Proof. exact l_accepted. Qed.
Print Assumptions C74_accepted.

(** C74: so every f32 matrix within 1e-6 of a turn about z by an angle strictly between 0 and 90 degrees (sine and cosine at
    least 1e-5) is recognised *)
Theorem C74_about_z32 :
  forall (lm : Libm) (m : Mat (T (Arith := F32 lm))) (a : nat -> nat -> R) (t : R), mat_f m 3 3 a ->
  (forall i j, (i < 3)%nat -> (j < 3)%nat -> Rabs (a i j - rodrigues t 0 0 1 i j) <= / 1000000) -> / 100000 <= sin t -> / 100000 <= cos t ->
  m_is_so_n m = Ok true /\ m_is_orthogonal m = Ok true.
Proof. exact l_about_z32. Qed.
Print Assumptions C74_about_z32.

(** C88: and its logarithm is computed, with the error of C88_log *)
Theorem C88_about_z :
  forall (lm : Libm) (m : Mat (T (Arith := F32 lm))) (a : nat -> nat -> R) (t d : R), mat_f m 3 3 a ->
  libm_accurate lm d 5 -> acos_accurate lm d -> 0 < t < PI / 2 -> 2 / 100 <= sin t -> / 100000 <= cos t -> 0 <= d <= sin t / 100 ->
  (forall i j, (i < 3)%nat -> (j < 3)%nat -> Rabs (a i j - rodrigues t 0 0 1 i j) <= / 1000000) ->
  exists ml ml' l, m_log m = Ok ml /\ m_log_in_place m = (ml', Ok tt) /\ mat_f ml 3 3 l /\ mat_f ml' 3 3 l /\
    forall i j, (i < 3)%nat -> (j < 3)%nat -> Rabs (l i j - t * cross_m 0 0 1 i j) <= 12 * (2 / 1000000 + d) / (sin t * sin t).
Proof. exact l_log_z32. Qed.
Print Assumptions C88_about_z.

(** C74, C88: the turn about z with cosine 3/5 and sine 4/5, stored in f32 *)
Example C74_accept_example : forall lm, exists (m : Mat (T (Arith := F32 lm))) (a : nat -> nat -> R) (t : R), mat_f m 3 3 a /\
  (forall i j, (i < 3)%nat -> (j < 3)%nat -> Rabs (a i j - rodrigues t 0 0 1 i j) <= / 1000000) /\ 0 < t < PI / 2 /\ cos t = 3 / 5 /\ sin t = 4 / 5.
Proof. exact ex_accept. Qed.
