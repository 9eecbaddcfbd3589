(** Generated by tools/gen_properties.py from P_Twin.v: property theorems only. *)

From Coq Require Import Reals List Arith Lia Lra.
From Flocq Require Import Core BinarySingleNaN.
From Verif Require Import M_Base M_Arith M_Vector M_Sensors M_Ar M_Aqua M_F32 S_Spec S_Linalg S_Norm S_Quat S_Sensors S_Ar S_Aqua S_F32 S_Reading S_Rest S_Twin P_Inst P_InstF P_Rest32.
Import ListNotations.
Local Open Scope R_scope.

From Verif Require Import P_Twin.

(** C90, whatever the arithmetic: as long as no acceleration is farther from the reference than the first threshold, every
    call returns the same on a filter with an adaptive gain and on one with a fixed gain, and leaves the same state *)
Theorem C90_calls :
  forall (A : Arith) (OK : ArithOk A) (l : list aq_call) (s s0 : Aqua), aq_hist s Live -> alike s s0 -> all_calm l s ->
  let (s', os) := aq_calls l s in
  let (s0', os0) := aq_calls l s0 in
  os0 = os /\ alike s' s0' /\ aq_alpha s' = aq_alpha s.
Proof. exact l_twin_calls. Qed.
Print Assumptions C90_calls.

(** C90: two filters initialised with the same good arguments but for the flag are such a pair *)
Theorem C90_start :
  forall (A : Arith) (OK : ArithOk A) (s : Aqua) (a : aq_args) (b : bool), aq_hist s Fresh -> args_ok a ->
  let (s1, o1) := aq_init_with a s in
  let (s2, o2) := aq_init_with (with_flag b a) s in
  o1 = Ok tt /\ o2 = Ok tt /\ aq_hist s1 Live /\ aq_hist s2 Live /\ alike s1 s2 /\ aq_adaptive s1 = ia_adaptive a /\ aq_adaptive s2 = b.
Proof. exact l_twin_start. Qed.
Print Assumptions C90_start.

(** C90, at rest in f32: a filter with an adaptive gain settles like one with a fixed gain (C66_settles), and the gain stays as it was,
    provided the reference suits the accelerations the correction needs: those of length about one *)
Theorem C90_settles :
  forall (ka kb h d : R), 0 < ka <= 1 -> 0 < kb <= 1 -> 0 < h -> 0 < d ->
  exists N, forall (lm : Libm) (s s0 : Aqua (A := F32 lm)) (cg ca cm : Config (A := F32 lm)) (q t : quat) (ts ta tm e eta mu : R) (z : nat -> nat -> T (Arith := F32 lm)),
  aq_hist s Live -> alike s s0 -> marg32 s0 cg ca cm q ts ka ta kb tm -> unitq t -> (forall n, resting cg ca cm t h ts e eta mu (z n)) ->
  quiet ka kb h e eta mu -> near_truth q t h -> steady s ->
  forall n, (N <= n)%nat -> exists s' v q', run_with z n s = Some s' /\ aq_get_attitude s' = Ok v /\ quat_f v q' /\ Rabs (qnorm q' - 1) < / 1000000 /\
    aq_alpha s' = aq_alpha s /\ tilt_error q' t <= tilt_rest ka e eta + d /\ heading_error q' t <= heading_rest ka kb h e eta mu + d.
Proof. exact l_twin_settles. Qed.
Print Assumptions C90_settles.

(** C90, violation, whatever libm returns: with the reference that is the default (9.81) such an acceleration switches the gain off: an update
    that succeeds leaves a gain of zero (or NaN), for ever *)
Theorem C90_reference :
  forall (lm : Libm) (s : Aqua (A := F32 lm)) (ca : Config (A := F32 lm)), aq_hist s Live -> aq_mode s = MARG -> aq_adaptive s = true ->
  aq_get_accelerometer_config s = Ok ca -> aq_g s = lit (Arith := F32 lm) 981 100 ->
  is_finite (aq_t1 s : f32) = true -> is_finite (aq_t2 s : f32) = true -> B2R (aq_t1 s : f32) <= B2R (aq_t2 s : f32) <= 4 / 5 ->
  forall (gx gy gz : option (T (Arith := F32 lm))) (ax ay az mx my mz : T (Arith := F32 lm)) (a : nat -> R),
  reading Acc ca ax ay az a -> Rabs (rnorm 3 a - 1) <= 69 / 1000 ->
  let (s', o) := aq_update gx gy gz ax ay az mx my mz s in
  o = Ok tt -> forall s2, aq_later s' s2 -> dead_gain (aq_alpha s2).
Proof. exact l_twin_reference. Qed.
Print Assumptions C90_reference.

(** a filter with an adaptive gain and reference 1, its twin with a fixed gain, and measurements at rest *)
Example C90_example : forall lm, exists (s s0 : Aqua (A := F32 lm)) ts ka ta kb tm,
  aq_hist s Live /\ aq_adaptive s = true /\ aq_adaptive s0 = false /\ alike s s0 /\ steady s /\
  marg32 s0 default_config default_config default_config qone ts ka ta kb tm /\ unitq ex_t /\
  resting (lm := lm) default_config default_config default_config ex_t (3 / 5) ts 0 0 0 (ex_z lm) /\
  quiet ka kb (3 / 5) 0 0 0 /\ near_truth qone ex_t (3 / 5) /\ heading_error qone ex_t = 9 / 41 /\
  99 / 10000 <= ka < 2 / 100 /\ 99 / 10000 <= kb.
Proof. exact rest_ex_one. Qed.

(** C90, violation, whatever libm returns: a new filter with an adaptive gain, the default reference and an acceleration of length one straight down: the
    update succeeds, and the gain is zero from then on *)
Theorem C90_default_refuted :
  forall (lm : Libm), exists (s : Aqua (A := F32 lm)) (x y w : T (Arith := F32 lm)), aq_hist s Live /\ aq_mode s = MARG /\ aq_adaptive s = true /\
  aq_g s = lit (Arith := F32 lm) 981 100 /\ fltb (f0 (A := F32 lm)) (aq_alpha s) = true /\ aq_get_accelerometer_config s = Ok default_config /\
  reading Acc default_config x x y (triple 0 0 (-1)) /\
  let (s', o) := aq_update (Some x) (Some x) (Some x) x x y w x x s in
  o = Ok tt /\ forall s2, aq_later s' s2 -> dead_gain (aq_alpha s2).
Proof. exact l_twin_default. Qed.
Print Assumptions C90_default_refuted.

(** an update with an acceleration of 9.81 that leaves the adaptive gain of a new filter alone *)
Example C90_example_calm : forall lm, exists (s : Aqua (A := F32 lm)) (q : aq_call (A := F32 lm)), aq_hist s Live /\ aq_mode s = MARG /\ aq_adaptive s = true /\
  ~ is_init q /\ snd (aq_do q s) = Ok tt /\ all_calm [q] s.
Proof. exact calm_ex. Qed.
