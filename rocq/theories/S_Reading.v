(** Specification vocabulary for measurements in f32: raw values that a calibrated sensor accepts, and the real
    vector that the corrected values stand for. *)
From Coq Require Import Reals Arith.
From Flocq Require Import Core BinarySingleNaN.
From Verif Require Import M_Base M_Arith M_Sensors M_F32 S_Spec S_Sensors S_Ar.
Local Open Scope R_scope.

(** raw values [x y z] are finite, so are the unbiased and the corrected values, and the latter are [u] *)
Definition reading {lm : Libm} (k : kind) (c : Config (A := F32 lm)) (x y z : T (Arith := F32 lm)) (u : nat -> R) : Prop :=
  raw_finite (raw3 x y z) /\ unbiased_finite c (raw3 x y z) /\ corrected_finite k c (raw3 x y z) /\
  forall i, (i < 3)%nat -> B2R (corrected k c (raw3 x y z) 3 i : f32) = u i.
