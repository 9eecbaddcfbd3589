(** What is asked of acos and sin for the spherical interpolation in f32, and the interpolation itself over the reals. *)
From Coq Require Import Reals ZArith.
From Flocq Require Import Core BinarySingleNaN.
From Verif Require Import M_F32.
Local Open Scope R_scope.

(** acos is finite and off by at most d on finite arguments in [-1, 1] *)
Definition acos_accurate (lm : Libm) (d : R) : Prop :=
  forall x : f32, is_finite x = true -> Rabs (B2R x) <= 1 ->
  is_finite (lm_acos lm x) = true /\ Rabs (B2R (lm_acos lm x) - acos (B2R x)) <= d.
(** what IEEE 754 and C99 ask at the edge: acos 1 = +0, acos of more than 1 and of NaN is NaN, sin 0 = 0, sin NaN = NaN *)
Definition acos_edge (lm : Libm) : Prop :=
  (forall x : f32, is_finite x = true -> B2R x = 1 -> lm_acos lm x = B754_zero false) /\
  (forall x : f32, is_finite x = true -> 1 < B2R x -> is_nan (lm_acos lm x) = true) /\
  (forall b, lm_sin lm (B754_zero b) = B754_zero b) /\
  (forall x : f32, is_nan x = true -> is_nan (lm_sin lm x) = true).
(** the point at the fraction k of the way from a to b along their great circle, t being the angle between them *)
Definition great_circle (k t a b : R) : R := (sin ((1 - k) * t) * a + sin (k * t) * b) / sin t.
