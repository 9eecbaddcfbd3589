(** Specification vocabulary for complex numbers in f32. *)
From Coq Require Import Reals.
From Flocq Require Import Core BinarySingleNaN.
From Verif Require Import M_Base M_Arith M_Dsp M_F32 S_Dsp.
Local Open Scope R_scope.

(** [z] holds finite numbers, whose values are those of [c] *)
Definition cplx_f {lm : Libm} (z : Complex (A := F32 lm)) (c : cplx) : Prop :=
  (is_finite (c_re z : f32) = true /\ B2R (c_re z : f32) = Re c) /\ (is_finite (c_im z : f32) = true /\ B2R (c_im z : f32) = Im c).
Definition cdist (a b : cplx) : R := cabs (csub a b).
(** large enough to divide by *)
Definition csizeable (c : cplx) : Prop := 102 / 1000000 < Rabs (Re c) \/ 102 / 1000000 < Rabs (Im c).
(** exp is finite and off by at most the fraction d for finite arguments up to B *)
Definition exp_accurate (lm : Libm) (d B : R) : Prop :=
  forall x : f32, is_finite x = true -> Rabs (B2R x) <= B -> is_finite (lm_exp lm x) = true /\ Rabs (B2R (lm_exp lm x) - exp (B2R x)) <= d * exp (B2R x).
