(** Generated by tools/gen_properties.py from P_AquaG.v: property theorems only. *)

From Coq Require Import List Arith ZArith NArith Reals Lia Bool Lra SpecFloat.
From Flocq Require Import Core BinarySingleNaN.
From Verif Require Import M_Base M_Arith M_Utils M_Vector M_Matrix M_Quaternion M_Sensors M_Ar M_Aqua M_F32 M_RX
  S_Spec S_Linalg S_Norm S_Quat S_Sensors S_Ar S_Aqua P_Inst.
Import ListNotations.
Local Open Scope nat_scope.

From Verif Require Import P_AquaG.

(** C49, for every arithmetic and after any history, mode MARG.  A successful update leaves a gain in [0, 1].  With an adaptive gain it is the one
    of the formula [new_gain] (with the thresholds in increasing order); a failed update leaves the old gain or
    already the new one.  Without an adaptive gain the gain is the one given to [init], and updates only succeed if it is in [0, 1]. *)
Theorem C49_gain :
  forall (A : Arith) (OK : ArithOk A) (s : Aqua) (ca : Config), aq_hist s Live -> aq_mode s = MARG -> aq_get_accelerometer_config s = Ok ca ->
  forall (gx gy gz : option T) (ax ay az mx my mz : T),
  let n := acc_norm (corrected Acc ca (raw3 ax ay az) 3) in
  let new := new_gain (aq_t1 s) (aq_t2 s) (aq_g s) (aq_alpha s) n in
  let (s', o) := aq_update gx gy gz ax ay az mx my mz s in
  (o = Ok tt -> fleb f0 (aq_alpha s') = true /\ fleb (aq_alpha s') f1 = true) /\
  (aq_adaptive s = false -> aq_alpha s' = aq_alpha s) /\
  (aq_adaptive s = true -> (o = Ok tt -> fleb (aq_t2 s) (aq_t1 s) = false /\ aq_alpha s' = new) /\
     (o <> Ok tt -> aq_alpha s' = aq_alpha s \/ aq_alpha s' = new)).
Proof. exact l_aq_gain. Qed.
Print Assumptions C49_gain.

(** C51, for every libm and after any history, in either mode: after a successful update the attitude has a norm within 1e-6 of 1 - or is zero *)
Theorem C51_unit :
  forall (lm : Libm) (s : Aqua (A := F32 lm)), aq_hist s Live ->
  forall (gx gy gz : option (T (Arith := F32 lm))) (ax ay az mx my mz : T (Arith := F32 lm)),
  let (s', o) := aq_update gx gy gz ax ay az mx my mz s in
  o = Ok tt -> exists v g, aq_get_attitude s' = Ok v /\ vec_is (A := F32 lm) v 4 g /\ good g.
Proof. exact l_aq_unit. Qed.
Print Assumptions C51_unit.

(** C51: if the attitude is unit (or zero) - in particular if the filter was initialised with a unit quaternion - it stays so along every further
    history of calls in which no update fails *)
Theorem C51_history :
  forall (lm : Libm) (s0 s : Aqua (A := F32 lm)) (f : nat -> f32), aq_hist s0 Live -> vec_is (A := F32 lm) (aq_attitude s0) 4 f -> good f -> aq_smooth lm s0 s ->
  exists v g, aq_get_attitude s = Ok v /\ vec_is (A := F32 lm) v 4 g /\ good g.
Proof. exact l_aq_history. Qed.
Print Assumptions C51_history.

(** C49, for every arithmetic: a gain that is not >= 0 (negative or NaN) makes every update with an undisturbed acceleration fail, and stays *)
Theorem C49_negative :
  forall (A : Arith) (OK : ArithOk A) (s : Aqua) (ca : Config), aq_hist s Live -> aq_mode s = MARG -> aq_adaptive s = true ->
  aq_get_accelerometer_config s = Ok ca -> fleb f0 (aq_alpha s) = false ->
  forall (gx gy gz : option T) (ax ay az mx my mz : T),
  let n := acc_norm (corrected Acc ca (raw3 ax ay az) 3) in
  fleb (fabs ((n - aq_g s) / aq_g s)%F) (aq_t1 s) = true ->
  let (s', o) := aq_update gx gy gz ax ay az mx my mz s in o <> Ok tt /\ aq_alpha s' = aq_alpha s.
Proof. exact l_aq_negative. Qed.
Print Assumptions C49_negative.

(** C49, violation in f32 whatever libm returns: once the gain is a zero (or NaN) it never recovers, whatever is called, for ever.  (A positive gain becomes zero as soon
    as one acceleration has a relative error of at least the second threshold.) *)
Theorem C49_dead :
  forall (lm : Libm) (s0 s : Aqua (A := F32 lm)), aq_hist s0 Live -> dead_gain (aq_alpha s0) -> aq_later s0 s -> dead_gain (aq_alpha s).
Proof. exact l_aq_dead. Qed.
Print Assumptions C49_dead.

(** C49, violation in f32 whatever libm returns: with a gain in [0, 1] and a positive first threshold, no update with a relative error of the acceleration strictly between the
    thresholds leaves a positive gain: if it succeeds at all the gain is zero, and by C49_dead for ever *)
Theorem C49_between_f32 :
  forall (lm : Libm) (s : Aqua (A := F32 lm)) (ca : Config (A := F32 lm)), let A := F32 lm in
  aq_hist s Live -> aq_mode s = MARG -> aq_adaptive s = true -> aq_get_accelerometer_config s = Ok ca ->
  fltb f0 (aq_t1 s) = true -> fleb f0 (aq_alpha s) = true -> fleb (aq_alpha s) f1 = true ->
  forall (gx gy gz : option T) (ax ay az mx my mz : T),
  let err := fabs ((acc_norm (corrected Acc ca (raw3 ax ay az) 3) - aq_g s) / aq_g s)%F in
  fltb (aq_t1 s) err = true -> fltb err (aq_t2 s) = true ->
  let (s', o) := aq_update gx gy gz ax ay az mx my mz s in o = Ok tt -> dead_gain (aq_alpha s').
Proof. exact l_aq_between. Qed.
Print Assumptions C49_between_f32.

(** C49, violation in exact arithmetic: with a positive gain and first threshold, an update with a relative error of the acceleration strictly between the
    thresholds never succeeds: the formula gives a negative gain *)
Theorem C49_between_real :
  forall (s : Aqua (A := RX)) (ca : Config (A := RX)) (al t1 t2 err : R), aq_hist s Live -> aq_mode s = MARG -> aq_adaptive s = true -> aq_get_accelerometer_config s = Ok ca ->
  aq_alpha s = Some al -> aq_t1 s = Some t1 -> aq_t2 s = Some t2 -> (0 < al)%R -> (0 < t1)%R ->
  forall (gx gy gz : option (T (Arith := RX))) (ax ay az mx my mz : T (Arith := RX)),
  fabs (Arith := RX) (fdiv (Arith := RX) (fsub (Arith := RX) (acc_norm (A := RX) (corrected (A := RX) Acc ca (raw3 (A := RX) ax ay az) 3)) (aq_g s)) (aq_g s)) = Some err ->
  (t1 < err < t2)%R ->
  new_gain (A := RX) (aq_t1 s) (aq_t2 s) (aq_g s) (aq_alpha s) (acc_norm (A := RX) (corrected (A := RX) Acc ca (raw3 (A := RX) ax ay az) 3)) = Some (al * (t1 - err) / t1)%R /\
  (al * (t1 - err) / t1 < 0)%R /\
  snd (aq_update (A := RX) gx gy gz ax ay az mx my mz s) <> Ok tt.
Proof. exact l_aq_between_real. Qed.
Print Assumptions C49_between_real.

(** an initialised filter with an adaptive gain: the hypotheses of C49_gain and C49_between_f32 *)
Example C49_example :
  forall lm : Libm, exists s : Aqua (A := F32 lm), aq_hist s Live /\ aq_mode s = MARG /\ aq_adaptive s = true /\ aq_get_accelerometer_config s = Ok default_config /\
  fltb (f0 (A := F32 lm)) (aq_t1 s) = true /\ fltb (aq_t1 s) (aq_t2 s) = true /\ fleb (f0 (A := F32 lm)) (aq_alpha s) = true /\ fleb (aq_alpha s) (f1 (A := F32 lm)) = true.
Proof. exact aq_adapt_example. Qed.

(** C49, violation, whatever libm returns: a new filter with an adaptive gain of 0.01 and thresholds 0.1 and 0.2 gets one measurement with an acceleration
    of 8.3 instead of 9.81 (relative error 0.154): the update fails, a negative gain is stored, and the next update fails although its acceleration is perfect *)
Theorem C49_between_refuted :
  forall (lm : Libm), exists s : Aqua (A := F32 lm), aq_hist s Live /\ aq_mode s = MARG /\ aq_adaptive s = true /\
  fltb (f0 (A := F32 lm)) (aq_alpha s) = true /\
  let l x := lit (Arith := F32 lm) x 100 in
  let z := Some (l 0%Z) in
  let r1 := aq_update z z z (l 0%Z) (l 0%Z) (l (-830)%Z) (l 100%Z) (l 0%Z) (l 0%Z) s in
  let r2 := aq_update z z z (l 0%Z) (l 0%Z) (l (-981)%Z) (l 100%Z) (l 0%Z) (l 0%Z) (fst r1) in
  let r0 := aq_update z z z (l 0%Z) (l 0%Z) (l (-981)%Z) (l 100%Z) (l 0%Z) (l 0%Z) s in
  snd r0 = Ok tt /\ snd r1 = Err (LinErr InvalidAlpha) /\ fltb (aq_alpha (fst r1)) (f0 (A := F32 lm)) = true /\ snd r2 = Err (LinErr InvalidAlpha).
Proof. exact l_aq_between_wit. Qed.
Print Assumptions C49_between_refuted.

(** C49, violation, whatever libm returns: the same filter gets one measurement with an acceleration of 5.0: the update succeeds, and from then on the gain
    is zero for ever, whatever is called: the accelerometer never corrects the attitude again *)
Theorem C49_dead_refuted :
  forall (lm : Libm), exists (s : Aqua (A := F32 lm)) (gx gy gz : option (T (Arith := F32 lm))) (ax ay az mx my mz : T (Arith := F32 lm)),
  aq_hist s Live /\ aq_mode s = MARG /\ aq_adaptive s = true /\ fltb (f0 (A := F32 lm)) (aq_alpha s) = true /\
  snd (aq_update gx gy gz ax ay az mx my mz s) = Ok tt /\
  forall s', aq_later (fst (aq_update gx gy gz ax ay az mx my mz s)) s' -> dead_gain (aq_alpha s').
Proof. exact l_aq_dead_wit. Qed.
Print Assumptions C49_dead_refuted.

(** an initialised filter with a unit attitude: the hypotheses of C51 *)
Example C51_example : forall lm : Libm, exists s : Aqua (A := F32 lm), aq_hist s Live /\ vec_is (A := F32 lm) (aq_attitude s) 4 (quad (f1 (A := F32 lm)) (f0 (A := F32 lm)) (f0 (A := F32 lm)) (f0 (A := F32 lm))) /\
  good (quad (f1 (A := F32 lm)) (f0 (A := F32 lm)) (f0 (A := F32 lm)) (f0 (A := F32 lm))).
Proof. exact aq_unit_example. Qed.
