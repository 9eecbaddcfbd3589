(** Generated by tools/gen_properties.py from P_AquaN.v: property theorems only. *)

From Coq Require Import List Arith ZArith NArith Reals Lia Bool Lra.
From Flocq Require Import Core.
From Verif Require Import M_Base M_Arith M_Utils M_Vector M_Matrix M_Quaternion M_Sensors M_Ar M_Aqua M_RX
  S_Spec S_Linalg S_Norm S_Quat S_Sensors S_Ar S_Aqua S_AquaM P_Inst.
Import ListNotations.
Local Open Scope R_scope.

From Verif Require Import P_AquaN.

(** C57: while the sensor is at rest, with a fixed accelerometer gain k, the tilt error (one plus the z
    component of the measured gravity turned by the attitude) shrinks at least by the factor 1 - k^2 at
    every update, as long as it starts below a quarter turn. *)
Theorem C57_tilt :
  forall (s s' : Aqua (A := RX)) (cg ca cm : Config (A := RX)) (gx gy gz ax ay az mx my mz : T (Arith := RX)) (w a m : nat -> R)
    (q : quat) (ts k ta kb tm : R) (n : nat),
  marg_state s cg ca cm q ts ta kb tm -> aq_adaptive s = false -> aq_alpha s = Some k -> 0 <= k <= 1 ->
  measures Gyr cg gx gy gz w -> measures Acc ca ax ay az a -> measures Mag cm mx my mz m ->
  (forall i, (i < 3)%nat -> w i = 0) -> rnorm 3 a = 1 ->
  qrot (qconj (qnormalized q)) a 2%nat < 0 ->
  aq_run gx gy gz ax ay az mx my mz n s s' ->
  exists q', marg_state s' cg ca cm q' ts ta kb tm /\ aq_adaptive s' = false /\ aq_alpha s' = Some k /\
    0 <= 1 + qrot (qconj (qnormalized q')) a 2%nat <= (1 - k * k) ^ n * (1 + qrot (qconj (qnormalized q)) a 2%nat).
Proof. exact l_tilt_converges. Qed.
Print Assumptions C57_tilt.

(** C57: if moreover the attitude is level (the measured gravity turned by it is straight down) and the
    turned field has a horizontal part that does not point exactly backwards, then any number of updates
    succeeds, the attitude stays level, and the heading error (horizontal field strength minus the x
    component of the turned field) shrinks at least by the factor 1 - beta^2 at every update. *)
Theorem C57_heading :
  forall (s : Aqua (A := RX)) (cg ca cm : Config (A := RX)) (gx gy gz ax ay az mx my mz : T (Arith := RX)) (w a m : nat -> R)
    (q : quat) (ts k ta kb tm : R) (n : nat),
  marg_state s cg ca cm q ts ta kb tm -> aq_adaptive s = false -> aq_alpha s = Some k -> 0 <= k <= 1 ->
  measures Gyr cg gx gy gz w -> measures Acc ca ax ay az a -> measures Mag cm mx my mz m ->
  (forall i, (i < 3)%nat -> w i = 0) -> rnorm 3 a = 1 -> 1 / 10000 < rnorm 3 m ->
  qrot (qconj (qnormalized q)) a 2%nat = -1 ->
  let b := qrot (qconj (qnormalized q)) m in
  let r := sqrt (b 0%nat * b 0%nat + b 1%nat * b 1%nat) in
  0 < b 0%nat \/ b 1%nat <> 0 ->
  exists s' q', aq_run gx gy gz ax ay az mx my mz n s s' /\ marg_state s' cg ca cm q' ts ta kb tm /\
    qrot (qconj (qnormalized q')) a 2%nat = -1 /\ qrot (qconj (qnormalized q')) m 2%nat = b 2%nat /\
    0 <= r - qrot (qconj (qnormalized q')) m 0%nat <= (1 - kb * kb) ^ n * (r - b 0%nat).
Proof. exact l_heading_converges. Qed.
Print Assumptions C57_heading.

(** a filter, measurements and a run meeting the hypotheses of C57_tilt *)
Example C57_example : exists s s' : Aqua (A := RX), marg_state s default_config default_config default_config qone (1 / 100) (9 / 10) (1 / 2) (9 / 10) /\
  aq_adaptive s = false /\ aq_alpha s = Some (1 / 3) /\ rnorm 3 (triple (3 / 5) 0 (- (4 / 5))) = 1 /\
  qrot (qconj (qnormalized qone)) (triple (3 / 5) 0 (- (4 / 5))) 2%nat < 0 /\
  measures Gyr (default_config (A := RX)) (Some 0) (Some 0) (Some 0) (triple 0 0 0) /\
  measures Acc (default_config (A := RX)) (Some (3 / 5)) (Some 0) (Some (- (4 / 5))) (triple (3 / 5) 0 (- (4 / 5))) /\
  measures Mag (default_config (A := RX)) (Some 0) (Some 1) (Some 0) (triple 0 1 0) /\
  aq_run (Some 0) (Some 0) (Some 0) (Some (3 / 5)) (Some 0) (Some (- (4 / 5))) (Some 0) (Some 1) (Some 0) 1 s s'.
Proof. exact still_ex_h. Qed.

(** a filter and measurements meeting the hypotheses of C57_heading *)
Example C57_example_heading : exists s : Aqua (A := RX), marg_state s default_config default_config default_config qone (1 / 100) (9 / 10) (1 / 2) (9 / 10) /\
  aq_adaptive s = false /\ aq_alpha s = Some (1 / 3) /\ rnorm 3 (triple 0 0 (-1)) = 1 /\ 1 / 10000 < rnorm 3 (triple 1 2 2) /\
  qrot (qconj (qnormalized qone)) (triple 0 0 (-1)) 2%nat = -1 /\ 0 < qrot (qconj (qnormalized qone)) (triple 1 2 2) 0%nat /\
  measures Gyr (default_config (A := RX)) (Some 0) (Some 0) (Some 0) (triple 0 0 0) /\
  measures Acc (default_config (A := RX)) (Some 0) (Some 0) (Some (-1)) (triple 0 0 (-1)) /\
  measures Mag (default_config (A := RX)) (Some 1) (Some 2) (Some 2) (triple 1 2 2).
Proof. exact still_ex_heading_h. Qed.
