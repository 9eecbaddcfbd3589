(** Generated by tools/gen_properties.py from P_Interp.v: property theorems only. *)

From Coq Require Import List Arith ZArith Reals Lia Bool Lra.
From Flocq Require Import Core BinarySingleNaN.
From Verif Require Import M_Base M_Arith M_Utils M_Vector M_Matrix M_F32 M_RX S_Spec S_Linalg S_Norm P_Inst.
Import ListNotations.
Local Open Scope R_scope.

From Verif Require Import P_Interp.

(** C30, f32: alpha outside [0,1], infinite or NaN is refused and nothing is changed *)
Theorem C30_alpha_f32 :
  forall (lm : Libm), let A := F32 lm in forall (self v1 v2 : Vec T) (alpha : f32),
  ~ (is_finite alpha = true /\ 0 <= B2R alpha <= 1) ->
  v_lerp v1 v2 (alpha : T) self = (self, Err InvalidAlpha) /\
  v_slerp v1 v2 (alpha : T) self = (self, Err InvalidAlpha).
Proof. exact l_alpha32. Qed.
Print Assumptions C30_alpha_f32.

Theorem C30_alpha_real :
  forall (self v1 v2 : Vec (T (Arith := RX))) (alpha : R), ~ (0 <= alpha <= 1) ->
  v_lerp (A := RX) v1 v2 (Some alpha) self = (self, Err InvalidAlpha) /\
  v_slerp (A := RX) v1 v2 (Some alpha) self = (self, Err InvalidAlpha).
Proof. exact l_alpha_real. Qed.
Print Assumptions C30_alpha_real.

(** C30: [lerp] is (1-alpha) a + alpha b *)
Theorem C30_lerp :
  forall (self v1 v2 : Vec (T (Arith := RX))) (n : nat) (f a b : nat -> R) (alpha : R),
  vec_r self n f -> vec_r v1 n a -> vec_r v2 n b -> 0 <= alpha <= 1 ->
  exists s', v_lerp (A := RX) v1 v2 (Some alpha) self = (s', Ok tt) /\
    vec_r s' n (fun i => (1 - alpha) * a i + alpha * b i).
Proof. exact l_lerp. Qed.
Print Assumptions C30_lerp.

(** C30: [lerp] hits its end points, exactly *)
Theorem C30_lerp_end_points :
  forall (self v1 v2 : Vec (T (Arith := RX))) (n : nat) (f a b : nat -> R),
  vec_r self n f -> vec_r v1 n a -> vec_r v2 n b ->
  exists s0 s1, v_lerp (A := RX) v1 v2 f0 self = (s0, Ok tt) /\ vec_r s0 n a /\
    v_lerp (A := RX) v1 v2 f1 self = (s1, Ok tt) /\ vec_r s1 n b.
Proof. exact l_lerp_ends. Qed.
Print Assumptions C30_lerp_end_points.

(** C30: [slerp] between unit vectors at an angle strictly between 0 and pi: the result is a
    unit vector in their plane, at angle alpha*theta from the first. *)
Theorem C30_slerp :
  forall (self v1 v2 : Vec (T (Arith := RX))) (n : nat) (f a b : nat -> R) (alpha theta : R),
  vec_r self n f -> vec_r v1 n a -> vec_r v2 n b -> 0 <= alpha <= 1 ->
  rnorm n a = 1 -> rnorm n b = 1 -> 0 < theta < PI -> rdot n a b = cos theta ->
  exists s' s, v_slerp (A := RX) v1 v2 (Some alpha) self = (s', Ok tt) /\ vec_r s' n s /\
    (forall i, (i < n)%nat -> s i = sin ((1 - alpha) * theta) / sin theta * a i + sin (alpha * theta) / sin theta * b i) /\
    rnorm n s = 1 /\ rdot n a s = cos (alpha * theta) /\ rdot n s b = cos ((1 - alpha) * theta).
Proof. exact l_slerp. Qed.
Print Assumptions C30_slerp.

Theorem C30_slerp_end_points :
  forall (self v1 v2 : Vec (T (Arith := RX))) (n : nat) (f a b : nat -> R),
  vec_r self n f -> vec_r v1 n a -> vec_r v2 n b ->
  rnorm n a = 1 -> rnorm n b = 1 -> -1 < rdot n a b < 1 ->
  exists s0 s1, v_slerp (A := RX) v1 v2 f0 self = (s0, Ok tt) /\ vec_r s0 n a /\
    v_slerp (A := RX) v1 v2 f1 self = (s1, Ok tt) /\ vec_r s1 n b.
Proof. exact l_slerp_ends. Qed.
Print Assumptions C30_slerp_end_points.

(** C30, violation: [slerp] between a unit vector and itself never succeeds, for any alpha in [0,1] *)
Theorem C30_slerp_identical :
  forall (self v1 v2 : Vec (T (Arith := RX))) (n : nat) (f a : nat -> R) (alpha : R),
  vec_r self n f -> vec_r v1 n a -> vec_r v2 n a -> 0 <= alpha <= 1 -> rnorm n a = 1 ->
  v_slerp (A := RX) v1 v2 (Some alpha) self = (self, Err (UtilsErr Nan)).
Proof. exact l_slerp_same. Qed.
Print Assumptions C30_slerp_identical.

Theorem C30_slerp_identical_refuted :
  exists (v : Vec (T (Arith := RX))), vec_r v 2 (fun i => nth i [3 / 5; 4 / 5] 0) /\
  rnorm 2 (fun i => nth i [3 / 5; 4 / 5] 0) = 1 /\
  v_slerp (A := RX) v v (Some (1 / 2)) v = (v, Err (UtilsErr Nan)).
Proof. exact l_slerp_same_w. Qed.
Print Assumptions C30_slerp_identical_refuted.

Example C30_example :
  let a := rvec [1; 0] in let b := rvec [0; 1] in
  vec_r a 2 (fun i => nth i [1; 0] 0) /\ vec_r b 2 (fun i => nth i [0; 1] 0) /\
  rnorm 2 (fun i => nth i [1; 0] 0) = 1 /\ rnorm 2 (fun i => nth i [0; 1] 0) = 1 /\
  0 < PI / 2 < PI /\ rdot 2 (fun i => nth i [1; 0] 0) (fun i => nth i [0; 1] 0) = cos (PI / 2).
Proof.
  cbv zeta. split; [apply (rvec_is [1; 0]); cbn; lia|]. split; [apply (rvec_is [0; 1]); cbn; lia|].
  split. { unfold rnorm, rdot. cbn. replace (0 + 1 * 1 + 0 * 0) with 1 by ring. apply sqrt_1. }
  split. { unfold rnorm, rdot. cbn. replace (0 + 0 * 0 + 1 * 1) with 1 by ring. apply sqrt_1. }
  split. { pose proof PI_RGT_0. lra. }
  rewrite cos_PI2. unfold rdot. cbn. ring.
Qed.
