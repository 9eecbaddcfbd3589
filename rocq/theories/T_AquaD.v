(** Generated by tools/gen_properties.py from P_AquaD.v: property theorems only. *)

From Coq Require Import List Arith ZArith NArith Reals Lia Bool Lra.
From Flocq Require Import Core.
From Verif Require Import M_Base M_Arith M_Utils M_Vector M_Matrix M_Quaternion M_Sensors M_Ar M_Aqua M_RX
  S_Spec S_Linalg S_Norm S_Quat S_Sensors S_Ar S_Aqua S_AquaM P_Inst.
Import ListNotations.
Local Open Scope R_scope.

From Verif Require Import P_AquaD.

(** C59: with both correction gains zero an update is the prediction alone, whatever the other sensors
    measure and whether or not the update reports an error. *)
Theorem C59_gyro :
  forall (s : Aqua (A := RX)) (cg ca cm : Config (A := RX)) (gx gy gz ax ay az mx my mz : T (Arith := RX)) (w a m : nat -> R)
    (q : quat) (ts ta tm : R),
  marg_state s cg ca cm q ts ta 0 tm -> gain_for s 1 0 ->
  measures Gyr cg gx gy gz w -> measures Acc ca ax ay az a -> measures Mag cm mx my mz m -> rnorm 3 a = 1 ->
  marg_state (fst (aq_update (Some gx) (Some gy) (Some gz) ax ay az mx my mz s)) cg ca cm (predicted q w ts) ts ta 0 tm.
Proof. exact l_gyro_only. Qed.
Print Assumptions C59_gyro.

(** C59: the prediction is a turn about the measured rate, and its angle 2 atan(|w| t / 2) is the angle
    |w| t of the sensor up to a third-order term.  It multiplies the attitude on the right, as in the
    AngularRate filter. *)
Theorem C59_turn :
  forall (q : quat) (w : nat -> R) (t : R), 0 < qnorm q -> 0 < rnorm 3 w -> 0 <= t ->
  let x := rnorm 3 w * t in let a := 2 * atan (x / 2) in
  predicted q w t = qmul (qnormalized q) (turn w (a / rnorm 3 w)) /\ x - x * x * x / 12 <= a <= x.
Proof. exact l_predicted_turn. Qed.
Print Assumptions C59_turn.

(** C59: the corrections treat the attitude as the rotation from the global to the sensor frame (they aim
    at R(q)^T a = (0, 0, -1)), for which the rate acts on the left with the opposite sign.  So the
    prediction moves the attitude away from the truth: the filter is initialised level, the sensor turns
    about its x axis by the angle whose cosine is 4/5 and the gyrometer reports exactly that turn.
    Without gyrometer the tilt error would be 1 - 4/5 = 1/5; after the update it is 18/25; with the
    opposite rate it would be 0. *)
Theorem C59_wrong_way_refuted :
  exists s : Aqua (A := RX), marg_state s default_config default_config default_config qone 1 (9 / 10) 0 (9 / 10) /\ gain_for s 1 0 /\
  let a := triple 0 (- (3 / 5)) (- (4 / 5)) in
  rnorm 3 a = 1 /\ cos (2 * atan (2 / 3 / 2)) = 4 / 5 /\
  (forall i, (i < 3)%nat -> qrot (qconj (turn (triple (2 / 3) 0 0) (2 * atan (2 / 3 / 2) / (2 / 3)))) (triple 0 0 (-1)) i = a i) /\
  1 + qrot (qconj qone) a 2%nat = 1 / 5 /\
  forall mx my mz : R, exists p r : quat,
  marg_state (fst (aq_update (A := RX) (Some (Some (2 / 3))) (Some (Some 0)) (Some (Some 0)) (Some 0) (Some (- (3 / 5))) (Some (- (4 / 5))) (Some mx) (Some my) (Some mz) s))
    default_config default_config default_config p 1 (9 / 10) 0 (9 / 10) /\
  marg_state (fst (aq_update (A := RX) (Some (Some (- (2 / 3)))) (Some (Some 0)) (Some (Some 0)) (Some 0) (Some (- (3 / 5))) (Some (- (4 / 5))) (Some mx) (Some my) (Some mz) s))
    default_config default_config default_config r 1 (9 / 10) 0 (9 / 10) /\
  unitq p /\ unitq r /\ 1 + qrot (qconj p) a 2%nat = 18 / 25 /\ 1 + qrot (qconj r) a 2%nat = 0.
Proof. exact l_gyro_wrong_way. Qed.
Print Assumptions C59_wrong_way_refuted.

(** a filter and measurements meeting the hypotheses of C59_gyro *)
Example C59_example : exists s : Aqua (A := RX), marg_state s default_config default_config default_config qone 1 (9 / 10) 0 (9 / 10) /\ gain_for s 1 0 /\
  measures Gyr (default_config (A := RX)) (Some (1 / 10)) (Some 2) (Some 0) (triple (1 / 10) 2 0) /\
  measures Acc (default_config (A := RX)) (Some (3 / 5)) (Some 0) (Some (- (4 / 5))) (triple (3 / 5) 0 (- (4 / 5))) /\
  measures Mag (default_config (A := RX)) (Some 1) (Some 2) (Some 2) (triple 1 2 2) /\ rnorm 3 (triple (3 / 5) 0 (- (4 / 5))) = 1.
Proof. exact gyro_ex_h. Qed.
