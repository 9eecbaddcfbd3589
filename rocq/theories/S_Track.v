(** Specification vocabulary for tracking: what is asked of sin and cos, runs of the angular-rate filter, and the
    attitude they should lead to. *)
From Coq Require Import List Reals ZArith.
From Flocq Require Import Core BinarySingleNaN.
From Verif Require Import M_Base M_Arith M_Vector M_Quaternion M_Sensors M_Ar M_F32 S_Spec S_Linalg S_Norm S_Quat S_Sensors S_Ar.
Import ListNotations.
Local Open Scope R_scope.

(** sin and cos are finite and off by at most d for finite arguments up to B *)
Definition libm_accurate (lm : Libm) (d B : R) : Prop :=
  forall x : f32, is_finite x = true -> Rabs (B2R x) <= B ->
  (is_finite (lm_sin lm x) = true /\ Rabs (B2R (lm_sin lm x) - sin (B2R x)) <= d) /\
  (is_finite (lm_cos lm x) = true /\ Rabs (B2R (lm_cos lm x) - cos (B2R x)) <= d).

Section Run.
  Context {lm : Libm}.
  (** the gyrometer reports the rate [w] *)
  Definition reports (g : Sensor (A := F32 lm)) (w : nat -> R) : Prop :=
    forall i, (i < 3)%nat -> exists x : f32, sensor_get Gyr i g = Ok x /\ is_finite x = true /\ B2R x = w i.
  (** a sequence of successful updates, and the corrected rates the gyrometer reported after each *)
  Inductive ar_run (ck : bool) : AR (A := F32 lm) -> list (nat -> R) -> AR (A := F32 lm) -> Prop :=
  | run_nil s : ar_run ck s [] s
  | run_cons s gx gy gz w s1 ws s' : ar_update ck gx gy gz s = (s1, Ok tt) -> reports (ar_gyr s1) w ->
      ar_run ck s1 ws s' -> ar_run ck s (w :: ws) s'.
End Run.

(** the attitude after turning at the given rates, one period each *)
Definition turns (t : R) (q : quat) (ws : list (nat -> R)) : quat := fold_left (fun q w => qmul q (turn w t)) ws q.
Fixpoint sum_map {X} (f : X -> R) (l : list X) : R := match l with [] => 0 | x :: l => f x + sum_map f l end.
