(** Generated by tools/gen_properties.py from P_TwinR.v: property theorems only. *)

From Coq Require Import List Arith ZArith Reals Lia Bool Lra.
From Verif Require Import M_Base M_Arith M_Utils M_Vector M_Matrix M_Quaternion M_Sensors M_Ar M_Aqua M_RX
  S_Spec S_Linalg S_Norm S_Quat S_Sensors S_Ar S_Aqua S_AquaM S_Twin P_Inst.
Import ListNotations.
Local Open Scope R_scope.

From Verif Require Import P_TwinR.

(** C90 in exact arithmetic: a filter with an adaptive gain, thresholds in order and a reference g with |1 - g| <= t1 g settles its tilt at rest
    as one with a fixed gain does (C57_tilt), and its gain stays as it was *)
Theorem C90_tilt :
  forall (s s0 s' : Aqua (A := RX)) (cg ca cm : Config (A := RX)) (gx gy gz ax ay az mx my mz : T (Arith := RX)) (w a m : nat -> R)
    (q : quat) (ts k ta kb tm g t1 t2 : R) (n : nat),
  aq_hist s Live -> alike s s0 -> aq_g s = Some g -> aq_t1 s = Some t1 -> aq_t2 s = Some t2 -> t1 < t2 -> 0 < g -> Rabs (1 - g) <= t1 * g ->
  marg_state s0 cg ca cm q ts ta kb tm -> aq_adaptive s0 = false -> aq_alpha s0 = Some k -> 0 <= k <= 1 ->
  measures Gyr cg gx gy gz w -> measures Acc ca ax ay az a -> measures Mag cm mx my mz m ->
  (forall i, (i < 3)%nat -> w i = 0) -> rnorm 3 a = 1 ->
  qrot (qconj (qnormalized q)) a 2%nat < 0 ->
  aq_run gx gy gz ax ay az mx my mz n s s' ->
  exists q', marg_state s' cg ca cm q' ts ta kb tm /\ aq_alpha s' = Some k /\
    0 <= 1 + qrot (qconj (qnormalized q')) a 2%nat <= (1 - k * k) ^ n * (1 + qrot (qconj (qnormalized q)) a 2%nat).
Proof. exact l_twin_tilt. Qed.
Print Assumptions C90_tilt.

(** C90 in exact arithmetic: so a filter with an adaptive gain, thresholds in order and a reference g with |1 - g| <= t1 g converges at rest
    from a level attitude as one with a fixed gain does (C57_heading), and its gain stays as it was *)
Theorem C90_heading :
  forall (s s0 : Aqua (A := RX)) (cg ca cm : Config (A := RX)) (gx gy gz ax ay az mx my mz : T (Arith := RX)) (w a m : nat -> R)
    (q : quat) (ts k ta kb tm g t1 t2 : R) (n : nat),
  aq_hist s Live -> alike s s0 -> aq_g s = Some g -> aq_t1 s = Some t1 -> aq_t2 s = Some t2 -> t1 < t2 -> 0 < g -> Rabs (1 - g) <= t1 * g ->
  marg_state s0 cg ca cm q ts ta kb tm -> aq_adaptive s0 = false -> aq_alpha s0 = Some k -> 0 <= k <= 1 ->
  measures Gyr cg gx gy gz w -> measures Acc ca ax ay az a -> measures Mag cm mx my mz m ->
  (forall i, (i < 3)%nat -> w i = 0) -> rnorm 3 a = 1 -> 1 / 10000 < rnorm 3 m ->
  qrot (qconj (qnormalized q)) a 2%nat = -1 ->
  let b := qrot (qconj (qnormalized q)) m in
  let r := sqrt (b 0%nat * b 0%nat + b 1%nat * b 1%nat) in
  0 < b 0%nat \/ b 1%nat <> 0 ->
  exists s' q', aq_run gx gy gz ax ay az mx my mz n s s' /\ marg_state s' cg ca cm q' ts ta kb tm /\ aq_alpha s' = Some k /\
    qrot (qconj (qnormalized q')) a 2%nat = -1 /\ qrot (qconj (qnormalized q')) m 2%nat = b 2%nat /\
    0 <= r - qrot (qconj (qnormalized q')) m 0%nat <= (1 - kb * kb) ^ n * (r - b 0%nat).
Proof. exact l_twin_heading. Qed.
Print Assumptions C90_heading.

(** a filter with an adaptive gain and reference 1.05, its twin and measurements meeting the hypotheses of C90_heading *)
Example C90_example_heading : exists s s0 : Aqua (A := RX), aq_hist s Live /\ aq_adaptive s = true /\ alike s s0 /\ aq_g s = Some (21 / 20) /\ aq_t1 s = Some (1 / 10) /\ aq_t2 s = Some (1 / 5) /\
  1 / 10 < 1 / 5 /\ Rabs (1 - 21 / 20) <= 1 / 10 * (21 / 20) /\
  marg_state s0 default_config default_config default_config qone (1 / 100) (9 / 10) (1 / 2) (9 / 10) /\
  aq_adaptive s0 = false /\ aq_alpha s0 = Some (1 / 3) /\ rnorm 3 (triple 0 0 (-1)) = 1 /\ 1 / 10000 < rnorm 3 (triple 1 2 2) /\
  qrot (qconj (qnormalized qone)) (triple 0 0 (-1)) 2%nat = -1 /\ 0 < qrot (qconj (qnormalized qone)) (triple 1 2 2) 0%nat /\
  measures Gyr (default_config (A := RX)) (Some 0) (Some 0) (Some 0) (triple 0 0 0) /\
  measures Acc (default_config (A := RX)) (Some 0) (Some 0) (Some (-1)) (triple 0 0 (-1)) /\
  measures Mag (default_config (A := RX)) (Some 1) (Some 2) (Some 2) (triple 1 2 2).
Proof. exact twin_ex_heading_h. Qed.
