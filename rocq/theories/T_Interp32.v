(** Generated by tools/gen_properties.py from P_Interp32.v: property theorems only. *)

From Coq Require Import List Arith ZArith Reals Lia Bool Lra SpecFloat.
From Flocq Require Import Core BinarySingleNaN.
From Verif Require Import M_Base M_Arith M_Utils M_Vector M_Matrix M_F32
  S_Spec S_Linalg S_Norm S_Quat S_F32 S_Track S_Interp32 P_Inst P_InstF.
Import ListNotations.
Local Open Scope R_scope.

From Verif Require Import P_Interp32.

(** C76: every component of the f32 linear interpolation is within 2e-7 of the larger end, plus 2^-140 *)
Theorem C76_lerp :
  forall (lm : Libm) (self v1 v2 : Vec (T (Arith := F32 lm))) (n : nat) (s a b : nat -> R) (k : T (Arith := F32 lm)) (M : R),
  vec_f self n s -> vec_f v1 n a -> vec_f v2 n b -> is_finite (k : f32) = true -> 0 <= B2R (k : f32) <= 1 ->
  (forall i, (i < n)%nat -> Rabs (a i) <= M /\ Rabs (b i) <= M) -> M <= bpow radix2 100 ->
  exists v' r, v_lerp v1 v2 k self = (v', Ok tt) /\ vec_f v' n r /\
    forall i, (i < n)%nat -> Rabs (r i - ((1 - B2R (k : f32)) * a i + B2R (k : f32) * b i)) <= 2 / 10000000 * M + tiny.
Proof. exact l_lerp32. Qed.
Print Assumptions C76_lerp.

(** C76: at 0 and at 1 it is exactly the first and the second end, for all finite f32 vectors *)
Theorem C76_lerp_ends :
  forall (lm : Libm) (self v1 v2 : Vec (T (Arith := F32 lm))) (n : nat) (s a b : nat -> R) (k : T (Arith := F32 lm)),
  vec_f self n s -> vec_f v1 n a -> vec_f v2 n b -> is_finite (k : f32) = true ->
  (B2R (k : f32) = 0 -> exists v', v_lerp v1 v2 k self = (v', Ok tt) /\ vec_f v' n a) /\
  (B2R (k : f32) = 1 -> exists v', v_lerp v1 v2 k self = (v', Ok tt) /\ vec_f v' n b).
Proof. exact l_lerp32_ends. Qed.
Print Assumptions C76_lerp_ends.

(** C76: with sine and arc cosine accurate to d, the spherical interpolation of two f32 vectors of unit length (to 1e-3), at an
    angle whose sine s is at least 1/10, is off by at most 10 (d + 1e-6) / s^3 in every component *)
Theorem C76_slerp :
  forall (lm : Libm) (self v1 v2 : Vec (T (Arith := F32 lm))) (n : nat) (x a b : nat -> R) (k : T (Arith := F32 lm)) (d : R),
  vec_f self n x -> vec_f v1 n a -> vec_f v2 n b -> is_finite (k : f32) = true -> 0 <= B2R (k : f32) <= 1 ->
  libm_accurate lm d 5 -> acos_accurate lm d -> 0 <= d <= 4 / 100000 ->
  Rabs (rnorm n a - 1) <= / 1000 -> Rabs (rnorm n b - 1) <= / 1000 ->
  let t := acos (rdot n a b) in / 10 <= sin t ->
  exists v' r, v_slerp v1 v2 k self = (v', Ok tt) /\ vec_f v' n r /\
    forall i, (i < n)%nat -> Rabs (r i - great_circle (B2R (k : f32)) t (a i) (b i)) <= 10 * (d + / 1000000) / (sin t * sin t * sin t).
Proof. exact l_slerp32. Qed.
Print Assumptions C76_slerp.

(** C76, violation for a whole class: whenever the computed scalar product is 1 or more, spherical interpolation fails with a NaN
    error, for every fraction, although the two vectors are the same direction; sine and arc cosine as in IEEE 754 *)
Theorem C76_parallel :
  forall (lm : Libm) (self v1 v2 : Vec (T (Arith := F32 lm))) (n : nat) (x a b : nat -> R) (k s : T (Arith := F32 lm)),
  acos_edge lm -> vec_f self n x -> vec_f v1 n a -> vec_f v2 n b -> is_finite (k : f32) = true -> 0 <= B2R (k : f32) <= 1 ->
  v_dot_product v1 v2 = Ok s -> is_finite (s : f32) = true -> 1 <= B2R (s : f32) ->
  v_slerp v1 v2 k self = (self, Err (UtilsErr Nan)).
Proof. exact l_slerp32_nan. Qed.
Print Assumptions C76_parallel.

(** ... so interpolating from the attitude 1 to the attitude 1 fails with every such libm *)
Theorem C76_parallel_refuted :
  forall (lm : Libm), acos_edge lm -> exists v : Vec (T (Arith := F32 lm)), quat_f v qone /\
  forall k : T (Arith := F32 lm), is_finite (k : f32) = true -> 0 <= B2R (k : f32) <= 1 -> v_slerp v v k v = (v, Err (UtilsErr Nan)).
Proof. exact l_slerp32_nan_w. Qed.
Print Assumptions C76_parallel_refuted.

Example C76_example :
  exists lm, acos_edge lm /\ libm_accurate lm (5 / 10000000) 5 /\ acos_accurate lm (5 / 10000000) /\
  exists (v1 v2 : Vec (T (Arith := F32 lm))) (k : T (Arith := F32 lm)) (a b : nat -> R), vec_f v1 4 a /\ vec_f v2 4 b /\
  is_finite (k : f32) = true /\ B2R (k : f32) = 1 / 2 /\ rnorm 4 a = 1 /\ rnorm 4 b = 1 /\ sin (acos (rdot 4 a b)) = 1.
Proof. exact (ex_intro _ edge_libm ex_interp32). Qed.
