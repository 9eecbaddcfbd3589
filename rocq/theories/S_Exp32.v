(** What is asked of pow for the exponential of a quaternion in f32. *)
From Coq Require Import Reals.
From Flocq Require Import Core BinarySingleNaN.
From Verif Require Import M_Arith M_F32.
Local Open Scope R_scope.

(** pow(E, x), E being the constant of linalg/src/common.rs in f32, is finite and e^x up to the fraction d, for finite arguments
    up to W (the rounding of the constant, 3e-8 W, is part of d) *)
Definition pow_e (lm : Libm) (d W : R) : Prop :=
  forall x : f32, is_finite x = true -> Rabs (B2R x) <= W ->
  is_finite (lm_pow lm (E_ (A := F32 lm)) x) = true /\ Rabs (B2R (lm_pow lm (E_ (A := F32 lm)) x) - exp (B2R x)) <= d * exp (B2R x).
