(** Specification vocabulary for the first-order methods: what is asked of pow, and attitudes turned on the left. *)
From Coq Require Import List Reals.
From Flocq Require Import Core BinarySingleNaN.
From Verif Require Import M_Base M_Arith M_F32 S_Spec S_Linalg S_Norm S_Quat S_Sensors S_Ar.
Import ListNotations.
Local Open Scope R_scope.

(** pow with exponent 1 is finite and off by a factor of at most 1 + d for finite arguments *)
Definition pow_one (lm : Libm) (d : R) : Prop :=
  forall x : f32, is_finite x = true ->
  is_finite (lm_pow lm x (f1 (A := F32 lm))) = true /\ Rabs (B2R (lm_pow lm x (f1 (A := F32 lm))) - B2R x) <= d * Rabs (B2R x).
(** the attitude after turning at the given rates, one period each, about the axes of the reference frame *)
Definition turns_left (t : R) (q : quat) (ws : list (nat -> R)) : quat := fold_left (fun q w => qmul (turn w t) q) ws q.
