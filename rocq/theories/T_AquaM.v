(** Generated by tools/gen_properties.py from P_AquaM.v: property theorems only. *)

From Coq Require Import List Arith ZArith NArith Reals Lia Bool Lra.
From Flocq Require Import Core.
From Verif Require Import M_Base M_Arith M_Utils M_Vector M_Matrix M_Quaternion M_Sensors M_Ar M_Aqua M_RX
  S_Spec S_Linalg S_Norm S_Quat S_Sensors S_Ar S_Aqua S_AquaM P_Inst.
Import ListNotations.
Local Open Scope R_scope.

From Verif Require Import P_AquaM.

(** Mode MARG in exact arithmetic, for every reachable filter, every attitude that is not tiny, every
    angular rate, every acceleration of norm one and every field, with gains in [0, 1] and thresholds
    in [0, 1).  Write g for the acceleration in the frame of the predicted attitude; 1 + g_z is one
    minus the cosine of the tilt error.  The accelerometer correction multiplies it by the factor
    [remaining] of the gain, and if g points down it does so by a rotation about a horizontal axis
    perpendicular to g that keeps the horizontal direction of g.  The magnetometer correction is a rotation about the
    vertical: it keeps every vertical component, multiplies one minus the cosine of the heading error
    by its own factor and does not overshoot.  It fails exactly if the field has no horizontal part or
    points exactly backwards, and then the attitude is the tilt-corrected one.  A correction of gain 0
    changes nothing. *)
Theorem C56_update :
  forall (s : Aqua (A := RX)) (cg ca cm : Config (A := RX)) (gx gy gz ax ay az mx my mz : T (Arith := RX)) (w a m : nat -> R)
    (q : quat) (ts k ta kb tm : R),
  marg_state s cg ca cm q ts ta kb tm -> gain_for s 1 k -> 0 <= k <= 1 ->
  measures Gyr cg gx gy gz w -> measures Acc ca ax ay az a -> measures Mag cm mx my mz m -> rnorm 3 a = 1 ->
  let qh := predicted q w ts in
  let g := qrot (qconj qh) a in
  exists c : quat, let p := qmul qh c in let ga := qrot (qconj p) a in let b := qrot (qconj p) m in
    let r := sqrt (b 0%nat * b 0%nat + b 1%nat * b 1%nat) in
    unitq p /\ (k = 0 -> p = qh) /\ 1 + ga 2%nat = remaining k ta (half_cos g) * (1 + g 2%nat) /\
    (g 2%nat < 0 -> Qz c = 0 /\ Qx c * g 0%nat + Qy c * g 1%nat = 0 /\ exists x, 0 <= x /\ ga 0%nat = x * g 0%nat /\ ga 1%nat = x * g 1%nat) /\
    let (s', o) := aq_update (Some gx) (Some gy) (Some gz) ax ay az mx my mz s in
    aq_alpha s' = Some k /\ aq_same_settings s s' /\
    (1 / 10000 < rnorm 3 m -> 0 < b 0%nat \/ b 1%nat <> 0 ->
       o = Ok tt /\ exists q', marg_state s' cg ca cm q' ts ta kb tm /\ unitq q' /\ (kb = 0 -> q' = p) /\
       (forall u, qrot (qconj q') u 2%nat = qrot (qconj p) u 2%nat) /\
       r - qrot (qconj q') m 0%nat = remaining kb tm (sqrt ((1 + b 0%nat / r) / 2)) * (r - b 0%nat) /\
       0 <= b 1%nat * qrot (qconj q') m 1%nat) /\
    (rnorm 3 m <= 1 / 10000 \/ (b 0%nat <= 0 /\ b 1%nat = 0) ->
       (exists e, o = Err e /\ is_utils e) /\ marg_state s' cg ca cm p ts ta kb tm).
Proof. exact l_marg. Qed.
Print Assumptions C56_update.

(** C56: the factor by which a correction reduces an error: at most 1 - k^2 when the rotation chosen by
    the filter is at most a half turn, 1 for gain 0, and 0 for gain 1.  The rotation chosen for the tilt
    is at most a half turn if the predicted gravity has a negative z component, or else a non-negative
    y component. *)
Theorem C56_factor :
  forall (g : nat -> R) (k t c : R), g 0%nat * g 0%nat + g 1%nat * g 1%nat + g 2%nat * g 2%nat = 1 ->
  0 <= k <= 1 -> 0 <= t < 1 -> 0 <= c <= 1 ->
  0 <= remaining k t c <= 1 - k * k /\ remaining 0 t c = 1 /\ remaining 1 t c = 0 /\
  -1 < half_cos g <= 1 /\ remaining 0 t (half_cos g) = 1 /\ remaining 1 t (half_cos g) = 0 /\
  (g 2%nat < 0 \/ 0 <= g 1%nat -> 0 <= half_cos g).
Proof. exact l_factor. Qed.
Print Assumptions C56_factor.

(** C56: for other predicted gravities the correction can turn the wrong way: the filter is initialised with
    the identity and gain 1/3, the sensor is at rest on its side.  The predicted tilt is off by a quarter
    turn; after the update, whatever the magnetometer measures, it is off by a half turn. *)
Theorem C56_wrong_way_refuted :
  exists s : Aqua (A := RX), marg_state s default_config default_config default_config qone (1 / 100) (9 / 10) (1 / 2) (9 / 10) /\
  gain_for s 1 (1 / 3) /\ rnorm 3 (triple 0 (-1) 0) = 1 /\
  predicted qone (triple 0 0 0) (1 / 100) = qone /\ qrot (qconj qone) (triple 0 (-1) 0) 2%nat = 0 /\
  forall mx my mz : R,
  let s' := fst (aq_update (A := RX) (Some (Some 0)) (Some (Some 0)) (Some (Some 0)) (Some 0) (Some (-1)) (Some 0) (Some mx) (Some my) (Some mz) s) in
  exists q', quat_r (aq_attitude s') q' /\ unitq q' /\ qrot (qconj q') (triple 0 (-1) 0) 2%nat = 1.
Proof. exact l_wrong_way. Qed.
Print Assumptions C56_wrong_way_refuted.

(** a filter and measurements meeting the hypotheses of C56_update *)
Example C56_example : exists s : Aqua (A := RX), marg_state s default_config default_config default_config qone (1 / 100) (9 / 10) (1 / 2) (9 / 10) /\
  gain_for s 1 (1 / 3) /\ measures Gyr (default_config (A := RX)) (Some (1 / 10)) (Some 0) (Some 0) (triple (1 / 10) 0 0) /\
  measures Acc (default_config (A := RX)) (Some (3 / 5)) (Some 0) (Some (- (4 / 5))) (triple (3 / 5) 0 (- (4 / 5))) /\
  measures Mag (default_config (A := RX)) (Some 1) (Some 2) (Some 2) (triple 1 2 2) /\ rnorm 3 (triple (3 / 5) 0 (- (4 / 5))) = 1.
Proof. exact marg_ex_h. Qed.
