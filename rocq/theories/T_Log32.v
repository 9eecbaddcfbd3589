(** Generated by tools/gen_properties.py from P_Log32.v: property theorems only. *)

From Coq Require Import List Arith ZArith Reals Lia Bool Lra SpecFloat.
From Flocq Require Import Core BinarySingleNaN.
From Verif Require Import M_Base M_Arith M_Utils M_Vector M_Matrix M_F32
  S_Spec S_Linalg S_Norm S_Quat S_F32 S_Decomp S_Track S_Interp32 P_Inst P_InstF.
Import ListNotations.
Local Open Scope R_scope.

From Verif Require Import P_Log32.

(** C88: given sine and arc cosine accurate to d, an f32 matrix within e of the rotation by t about a unit axis, whose determinant
    can be computed, has a logarithm in both forms, and every element is within 12 (e + d + 1e-6) / sin^2 t of t times the
    cross-product matrix of the axis *)
Theorem C88_log :
  forall (lm : Libm) (m : Mat (T (Arith := F32 lm))) (a : nat -> nat -> R) (t x y z e d : R) (b : bool), mat_f m 3 3 a ->
  libm_accurate lm d 5 -> acos_accurate lm d -> x * x + y * y + z * z = 1 -> 0 < t < PI ->
  (forall i j, (i < 3)%nat -> (j < 3)%nat -> Rabs (a i j - rodrigues t x y z i j) <= e) ->
  0 <= e -> e + / 1000000 <= sin t * sin t / 200 -> 0 <= d <= sin t / 100 -> m_is_so_n m = Ok b ->
  exists ml ml' l, m_log m = Ok ml /\ m_log_in_place m = (ml', Ok tt) /\ mat_f ml 3 3 l /\ mat_f ml' 3 3 l /\
    forall i j, (i < 3)%nat -> (j < 3)%nat -> Rabs (l i j - t * cross_m x y z i j) <= 12 * (e + d + / 1000000) / (sin t * sin t).
Proof. exact l_log32. Qed.
Print Assumptions C88_log.

(** C88, violation for a whole class: once the computed trace reaches 3, as it does for every small enough angle, both forms fail
    with a NaN error although the logarithm is small; the form in place has by then replaced the matrix R by R - R', rounded *)
Theorem C88_trace_three :
  forall (lm : Libm) (m : Mat (T (Arith := F32 lm))) (n : nat) (a : nat -> nat -> R) (s : T (Arith := F32 lm)) (b : bool), acos_edge lm -> mat_f m n n a ->
  (forall i j, (i < n)%nat -> (j < n)%nat -> Rabs (a i j) <= 2) ->
  m_trace m = Ok s -> is_finite (s : f32) = true -> 3 <= B2R (s : f32) <= 100 -> m_is_so_n m = Ok b ->
  m_log m = Err (UtilsErr Nan) /\ exists m', m_log_in_place m = (m', Err (UtilsErr Nan)) /\ mat_f m' n n (fun i j => round radix2 (SpecFloat.fexp prec emax) ZnearestE (a i j - a j i)).
Proof. exact l_log32_nan. Qed.
Print Assumptions C88_trace_three.

(** ... for instance on a matrix within 1e-8 of the turn by 1/8192 about z, recognised as a rotation, with every such libm *)
Theorem C88_small_refuted :
  forall (lm : Libm), acos_edge lm -> exists (m : Mat (T (Arith := F32 lm))) (a : nat -> nat -> R), mat_f m 3 3 a /\
  (forall i j, (i < 3)%nat -> (j < 3)%nat -> Rabs (a i j - rodrigues (/ 8192) 0 0 1 i j) <= / 100000000) /\
  m_is_so_n m = Ok true /\ m_log m = Err (UtilsErr Nan).
Proof. exact l_log32_small. Qed.
Print Assumptions C88_small_refuted.

(** C88 hypotheses: the quarter turn about x, with a libm accurate to 5e-7 *)
Example C88_example : exists lm : Libm, let m := mk_mat (A := F32 lm) 3 3 (map z32 [1; 0; 0; 0; 0; -1; 0; 1; 0]%Z) in
  acos_edge lm /\ libm_accurate lm (5 / 10000000) 5 /\ acos_accurate lm (5 / 10000000) /\
  mat_f (lm := lm) m 3 3 (fun i j => IZR (nth (i * 3 + j) [1; 0; 0; 0; 0; -1; 0; 1; 0]%Z 0%Z)) /\
  (forall i j, (i < 3)%nat -> (j < 3)%nat -> IZR (nth (i * 3 + j) [1; 0; 0; 0; 0; -1; 0; 1; 0]%Z 0%Z) = rodrigues (PI / 2) 1 0 0 i j) /\
  0 < PI / 2 < PI /\ sin (PI / 2) = 1 /\ m_is_so_n m = Ok true.
Proof. exact ex_log32. Qed.
