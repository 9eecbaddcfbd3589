(** Specification vocabulary for raw sensor readings: their exact calibrated value, and how strongly the calibration
    mixes opposing axes. *)
From Coq Require Import Reals Arith.
From Flocq Require Import Core BinarySingleNaN.
From Verif Require Import M_Base M_Arith M_Sensors M_F32 S_Spec S_Linalg S_Norm S_Sensors S_Ar.
Local Open Scope R_scope.

(** the contribution of axis a to the reported axis b, and the calibrated value of axis b, both exact *)
Definition contribution {lm : Libm} (k : kind) (c : Config (A := F32 lm)) (raw : nat -> T (Arith := F32 lm)) (b a : nat) : R :=
  B2R (coefficient (A := F32 lm) k c a b : f32) * (B2R (raw a : f32) - B2R (bias (A := F32 lm) c a : f32)).
Definition calibrated {lm : Libm} (k : kind) (c : Config (A := F32 lm)) (raw : nat -> T (Arith := F32 lm)) (b : nat) : R :=
  contribution k c raw b 0 + contribution k c raw b 1 + contribution k c raw b 2.
(** a finite reading, and a configuration, of ordinary size *)
Definition ordinary {lm : Libm} (k : kind) (c : Config (A := F32 lm)) (raw : nat -> T (Arith := F32 lm)) : Prop :=
  (forall a, (a < 3)%nat -> is_finite (raw a : f32) = true /\ Rabs (B2R (raw a : f32)) <= 2 ^ 60 /\ Rabs (B2R (bias (A := F32 lm) c a : f32)) <= 2 ^ 60) /\
  (forall a b, (a < 3)%nat -> (b < 3)%nat -> Rabs (B2R (coefficient (A := F32 lm) k c a b : f32)) <= 2 ^ 50).
(** no axis is the difference of contributions beyond K times the length of the whole *)
Definition mixing {lm : Libm} (k : kind) (c : Config (A := F32 lm)) (raw : nat -> T (Arith := F32 lm)) (K : R) : Prop :=
  forall b, (b < 3)%nat -> Rabs (contribution k c raw b 0) + Rabs (contribution k c raw b 1) + Rabs (contribution k c raw b 2) <= K * rnorm 3 (calibrated k c raw).
