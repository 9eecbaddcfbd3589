(** Generated by tools/gen_properties.py from P_AquaR.v: property theorems only. *)

From Coq Require Import List Arith ZArith NArith Reals Lia Bool Lra.
From Verif Require Import M_Base M_Arith M_Utils M_Vector M_Matrix M_Quaternion M_Sensors M_Ar M_Aqua M_RX
  S_Spec S_Linalg S_Norm S_Quat S_Sensors S_Ar S_Aqua P_Inst.
Import ListNotations.
Local Open Scope R_scope.

From Verif Require Import P_AquaR.

(** Mode AM in exact arithmetic, for every state and every pair of measurements whose acceleration is
    longer than EPSILON.  If the magnetic field is longer than EPSILON and not parallel to the
    acceleration, the update succeeds and the attitude is the unit quaternion whose inverse rotation
    takes the acceleration to (0, 0, -1) and the field to the half plane y = 0, x > 0.  Otherwise the
    update fails with a numeric error and keeps the attitude. *)
Theorem C47_attitude :
  forall (s : Aqua (A := RX)) (ca cm : Config (A := RX)) (gx gy gz : option (T (Arith := RX))) (ax ay az mx my mz : T (Arith := RX)) (a m : nat -> R),
  aq_hist s Live -> aq_mode s = AM -> aq_get_accelerometer_config s = Ok ca -> aq_get_magnetometer_config s = Ok cm ->
  (forall i, (i < 3)%nat -> corrected Acc ca (raw3 ax ay az) 3 i = Some (a i)) ->
  (forall i, (i < 3)%nat -> corrected Mag cm (raw3 mx my mz) 3 i = Some (m i)) ->
  eps < rnorm 3 a ->
  let (s', o) := aq_update gx gy gz ax ay az mx my mz s in
  (eps < rnorm 3 m -> rdot 3 a m * rdot 3 a m < rdot 3 a a * rdot 3 m m ->
     o = Ok tt /\
     exists v q, aq_get_attitude s' = Ok v /\ quat_r v q /\ unitq q /\
       (forall i, (i < 3)%nat -> qrot (qconj q) (fun k => a k / rnorm 3 a) i = triple 0 0 (-1) i) /\
       qrot (qconj q) m 1%nat = 0 /\ 0 < qrot (qconj q) m 0%nat) /\
  (rnorm 3 m <= eps \/ rdot 3 a m * rdot 3 a m = rdot 3 a a * rdot 3 m m ->
     (exists e, o = Err e /\ is_utils e) /\ aq_get_attitude s' = aq_get_attitude s).
Proof. exact l_aq_attitude. Qed.
Print Assumptions C47_attitude.

(** a filter and measurements meeting the hypotheses: acceleration (0, 3, 4) and field (1, 2, 2) *)
Example C47_example : exists s : Aqua (A := RX), aq_hist s Live /\ aq_mode s = AM /\
  aq_get_accelerometer_config s = Ok default_config /\ aq_get_magnetometer_config s = Ok default_config /\
  (forall i, (i < 3)%nat -> corrected Acc default_config (raw3 (A := RX) (Some 0) (Some 3) (Some 4)) 3 i = Some (triple 0 3 4 i)) /\
  (forall i, (i < 3)%nat -> corrected Mag default_config (raw3 (A := RX) (Some 1) (Some 2) (Some 2)) 3 i = Some (triple 1 2 2 i)) /\
  eps < rnorm 3 (triple 0 3 4) /\ eps < rnorm 3 (triple 1 2 2) /\
  rdot 3 (triple 0 3 4) (triple 1 2 2) * rdot 3 (triple 0 3 4) (triple 1 2 2) < rdot 3 (triple 0 3 4) (triple 0 3 4) * rdot 3 (triple 1 2 2) (triple 1 2 2).
Proof. exact attitude_ex_h. Qed.
