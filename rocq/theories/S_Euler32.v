(** What is asked of asin and atan2 for the Euler angles in f32. *)
From Coq Require Import Reals ZArith.
From Flocq Require Import Core BinarySingleNaN.
From Verif Require Import M_F32.
Local Open Scope R_scope.

(** asin is finite and off by at most d on finite arguments in [-1, 1]; atan2 is finite and off by at most d from a polar
    angle of (x, y) unless x = y = 0 *)
Definition libm_angles (lm : Libm) (d : R) : Prop :=
  (forall x : f32, is_finite x = true -> Rabs (B2R x) <= 1 ->
     is_finite (lm_asin lm x) = true /\ Rabs (B2R (lm_asin lm x) - asin (B2R x)) <= d) /\
  (forall y x : f32, is_finite y = true -> is_finite x = true -> 0 < B2R x * B2R x + B2R y * B2R y ->
     is_finite (lm_atan2 lm y x) = true /\
     exists t, B2R x = sqrt (B2R x * B2R x + B2R y * B2R y) * cos t /\
               B2R y = sqrt (B2R x * B2R x + B2R y * B2R y) * sin t /\ Rabs (B2R (lm_atan2 lm y x) - t) <= d).
