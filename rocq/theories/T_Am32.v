(** Generated by tools/gen_properties.py from P_Am32.v: property theorems only. *)

From Coq Require Import List Arith ZArith NArith Reals Lia Bool Lra SpecFloat.
From Flocq Require Import Core BinarySingleNaN.
From Verif Require Import M_Base M_Arith M_Utils M_Vector M_Matrix M_Quaternion M_Sensors M_Ar M_Aqua M_F32
  S_Spec S_Linalg S_Norm S_Quat S_Sensors S_Ar S_Aqua S_F32 S_Reading P_Inst P_InstF.
Import ListNotations.
Local Open Scope R_scope.

From Verif Require Import P_Am32.

(** C63: one AM update of a live filter in f32, whatever the library functions. If the corrected acceleration and field
    have lengths between 2 EPSILON and 2^60 and the field is at least a thousandth of its length away from the
    vertical, the update succeeds; the attitude has norm 1 up to 1e-6, turns the measured acceleration straight down
    up to 3e-5, and leaves a field whose second component is at most 1e-4 of its length and whose first is positive *)
Theorem C63_attitude :
  forall (lm : Libm) (s : Aqua (A := F32 lm)) (ca cm : Config (A := F32 lm)) (gx gy gz : option (T (Arith := F32 lm)))
    (ax ay az mx my mz : T (Arith := F32 lm)) (a m : nat -> R),
  aq_hist s Live -> aq_mode s = AM -> aq_get_accelerometer_config s = Ok ca -> aq_get_magnetometer_config s = Ok cm ->
  reading Acc ca ax ay az a -> reading Mag cm mx my mz m ->
  2 * eps <= rnorm 3 a <= bpow radix2 60 -> 2 * eps <= rnorm 3 m <= bpow radix2 60 ->
  / 1000 * / 1000 * (rdot 3 a a * rdot 3 m m) <= rdot 3 a a * rdot 3 m m - rdot 3 a m * rdot 3 a m ->
  exists s' v q, aq_update gx gy gz ax ay az mx my mz s = (s', Ok tt) /\ aq_get_attitude s' = Ok v /\ quat_f v q /\
    Rabs (qnorm q - 1) < / 1000000 /\
    vdist 3 (qrot (qconj (qunit q)) (fun i => a i / rnorm 3 a)) (triple 0 0 (-1)) <= 3 / 100000 /\
    Rabs (qrot (qconj (qunit q)) m 1%nat) <= 1 / 10000 * rnorm 3 m /\ 0 < qrot (qconj (qunit q)) m 0%nat.
Proof. exact l_am32. Qed.
Print Assumptions C63_attitude.

(** C63, violation: "a measurement without a usable acceleration is refused, or reported differently from a usable one" is
    false. In free fall (acceleration exactly zero) the update of a live filter succeeds, and reports exactly the
    attitude that an acceleration of 1 along the third axis gives, i.e. a half turn about the first axis *)
Theorem C63_free_fall_refuted :
  forall lm, exists s s1 v1 s2 v2, aq_hist (A := F32 lm) s Live /\ aq_mode s = AM /\
    aq_get_accelerometer_config s = Ok default_config /\ aq_get_magnetometer_config s = Ok default_config /\
    reading (lm := lm) Acc default_config (z32 0) (z32 0) (z32 0) (triple 0 0 0) /\
    reading (lm := lm) Acc default_config (z32 0) (z32 0) (z32 1) (triple 0 0 1) /\
    reading (lm := lm) Mag default_config (z32 1) (z32 0) (z32 0) (triple 1 0 0) /\
    aq_update (A := F32 lm) None None None (z32 0) (z32 0) (z32 0) (z32 1) (z32 0) (z32 0) s = (s1, Ok tt) /\
    aq_get_attitude s1 = Ok v1 /\ quat_f v1 (Quat 0 1 0 0) /\
    aq_update (A := F32 lm) None None None (z32 0) (z32 0) (z32 1) (z32 1) (z32 0) (z32 0) s = (s2, Ok tt) /\
    aq_get_attitude s2 = Ok v2 /\ quat_f v2 (Quat 0 1 0 0).
Proof. exact l_fall32. Qed.
Print Assumptions C63_free_fall_refuted.

Example C63_example : forall lm, exists s : Aqua (A := F32 lm), aq_hist s Live /\ aq_mode s = AM /\
  aq_get_accelerometer_config s = Ok default_config /\ aq_get_magnetometer_config s = Ok default_config /\
  reading (lm := lm) Acc default_config (z32 0) (z32 3) (z32 4) (triple 0 3 4) /\
  reading (lm := lm) Mag default_config (z32 1) (z32 2) (z32 2) (triple 1 2 2) /\
  2 * eps <= rnorm 3 (triple 0 3 4) <= bpow radix2 60 /\ 2 * eps <= rnorm 3 (triple 1 2 2) <= bpow radix2 60 /\
  (let a := triple 0 3 4 in let m := triple 1 2 2 in
   / 1000 * / 1000 * (rdot 3 a a * rdot 3 m m) <= rdot 3 a a * rdot 3 m m - rdot 3 a m * rdot 3 a m).
Proof. exact am32_example_holds. Qed.
