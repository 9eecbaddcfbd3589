(** Generated by tools/gen_properties.py from P_AquaU.v: property theorems only. *)

From Coq Require Import List Arith ZArith NArith Reals Lia Bool Lra.
From Flocq Require Import Core.
From Verif Require Import M_Base M_Arith M_Utils M_Vector M_Matrix M_Quaternion M_Sensors M_Ar M_Aqua M_RX
  S_Spec S_Linalg S_Norm S_Quat S_Sensors S_Ar S_Aqua S_AquaM P_Inst.
Import ListNotations.
Local Open Scope R_scope.

From Verif Require Import P_AquaU.

(** C58: mode MARG in exact arithmetic with an acceleration of any norm above EPSILON.  If the predicted
    gravity g has a negative z component and the half-angle sqrt((1 - g_z)/2) computed from it is above the
    threshold, the tilt correction is a turn about a horizontal axis perpendicular to g
    that lowers (never raises) the z component of g; what is left of the horizontal part is given by a
    formula that depends on the norm of the acceleration, and with gain 1 it is zero exactly when the norm is 1
    or g is vertical. *)
Theorem C58_scaled :
  forall (s : Aqua (A := RX)) (cg ca cm : Config (A := RX)) (gx gy gz ax ay az mx my mz : T (Arith := RX)) (w a m : nat -> R)
    (q : quat) (ts k ta kb tm : R),
  marg_state s cg ca cm q ts ta kb tm -> gain_for s (rnorm 3 a) k -> 0 <= k <= 1 ->
  measures Gyr cg gx gy gz w -> measures Acc ca ax ay az a -> measures Mag cm mx my mz m -> 1 / 10000 < rnorm 3 a ->
  let qh := predicted q w ts in
  let g := qrot (qconj qh) a in
  let l := sqrt ((1 - g 2%nat) / 2) in
  g 2%nat < 0 -> ta < l ->
  let h := g 0%nat * g 0%nat + g 1%nat * g 1%nat in let x := 1 - k + k * l in let y := k / (2 * l) in
  exists c : quat, let p := qmul qh c in let ga := qrot (qconj p) a in let b := qrot (qconj p) m in
    unitq p /\ Qz c = 0 /\ Qx c * g 0%nat + Qy c * g 1%nat = 0 /\
    (forall i, (i < 2)%nat -> (x * x + y * y * h) * ga i = (x * x - y * y * h + 2 * x * y * g 2%nat) * g i) /\
    (x * x + y * y * h) * ga 2%nat = (x * x - y * y * h) * g 2%nat - 2 * x * y * h /\
    ga 2%nat <= g 2%nat /\ (0 < k -> 0 < h -> ga 2%nat < g 2%nat) /\
    (k = 1 -> 0 < h -> (ga 0%nat = 0 /\ ga 1%nat = 0 <-> rnorm 3 a = 1)) /\
    let (s', o) := aq_update (Some gx) (Some gy) (Some gz) ax ay az mx my mz s in
    (1 / 10000 < rnorm 3 m -> 0 < b 0%nat \/ b 1%nat <> 0 ->
       o = Ok tt /\ exists q', marg_state s' cg ca cm q' ts ta kb tm /\ unitq q' /\ forall u, qrot (qconj q') u 2%nat = qrot (qconj p) u 2%nat) /\
    (rnorm 3 m <= 1 / 10000 \/ (b 0%nat <= 0 /\ b 1%nat = 0) ->
       (exists e, o = Err e /\ is_utils e) /\ marg_state s' cg ca cm p ts ta kb tm).
Proof. exact l_scaled. Qed.
Print Assumptions C58_scaled.

(** C58: with a strong acceleration (far from norm one) whose predicted z component is not negative and whose
    predicted y component is below -sqrt(2 (1 + g_z)), every update fails with a NaN error and leaves the attitude as it was. *)
Theorem C58_fails :
  forall (s : Aqua (A := RX)) (cg ca cm : Config (A := RX)) (gx gy gz ax ay az mx my mz : T (Arith := RX)) (w a m : nat -> R)
    (q : quat) (ts k ta kb tm : R),
  marg_state s cg ca cm q ts ta kb tm -> gain_for s (rnorm 3 a) k -> 0 <= k <= 1 ->
  measures Gyr cg gx gy gz w -> measures Acc ca ax ay az a -> measures Mag cm mx my mz m ->
  let g := qrot (qconj (predicted q w ts)) a in
  0 <= g 2%nat -> g 1%nat < - sqrt (2 * (1 + g 2%nat)) ->
  let (s', o) := aq_update (Some gx) (Some gy) (Some gz) ax ay az mx my mz s in
  o = Err (LinErr (UtilsErr Nan)) /\ aq_attitude s' = aq_attitude s.
Proof. exact l_strong_fails. Qed.
Print Assumptions C58_fails.

(** C58: a sensor that reports m/s^2, at rest on its side: every update of a filter started with the identity
    fails with a NaN error, whatever the magnetometer measures and whatever the gain. *)
Theorem C58_gravity_refuted :
  exists a : R, a = - (981 / 100) /\ forall k kb : R, 0 <= k <= 1 -> 0 <= kb <= 1 ->
  exists s : Aqua (A := RX), marg_state s default_config default_config default_config qone (1 / 100) (9 / 10) kb (9 / 10) /\ aq_alpha s = Some k /\
  forall mx my mz : R, let (s', o) := aq_update (A := RX) (Some (Some 0)) (Some (Some 0)) (Some (Some 0)) (Some 0) (Some a) (Some 0) (Some mx) (Some my) (Some mz) s in
  o = Err (LinErr (UtilsErr Nan)) /\ aq_attitude s' = aq_attitude s.
Proof. exact l_gravity_fails. Qed.
Print Assumptions C58_gravity_refuted.

(** C58: with a sensor that reports m/s^2, even gain 1 does not level the attitude in one update (with an
    acceleration of norm one it does, C56). *)
Theorem C58_level_refuted :
  exists s : Aqua (A := RX), marg_state s default_config default_config default_config qone (1 / 100) (9 / 10) (1 / 2) (9 / 10) /\ aq_adaptive s = false /\ aq_alpha s = Some 1 /\
  let a := triple (981 / 100 * (3 / 5)) 0 (- (981 / 100 * (4 / 5))) in rnorm 3 a = 981 / 100 /\
  forall mx my mz : R, exists q', marg_state (fst (aq_update (A := RX) (Some (Some 0)) (Some (Some 0)) (Some (Some 0))
      (Some (981 / 100 * (3 / 5))) (Some 0) (Some (- (981 / 100 * (4 / 5)))) (Some mx) (Some my) (Some mz) s))
      default_config default_config default_config q' (1 / 100) (9 / 10) (1 / 2) (9 / 10) /\
    unitq q' /\ - (981 / 100) < qrot (qconj q') a 2%nat.
Proof. exact l_gravity_not_level. Qed.
Print Assumptions C58_level_refuted.

(** a filter and measurements meeting the hypotheses of C58_scaled *)
Example C58_example : exists s : Aqua (A := RX), marg_state s default_config default_config default_config qone (1 / 100) (9 / 10) (1 / 2) (9 / 10) /\
  let a := triple (981 / 100 * (3 / 5)) 0 (- (981 / 100 * (4 / 5))) in gain_for s (rnorm 3 a) (1 / 10) /\
  measures Gyr (default_config (A := RX)) (Some 0) (Some 0) (Some 0) (triple 0 0 0) /\
  measures Acc (default_config (A := RX)) (Some (981 / 100 * (3 / 5))) (Some 0) (Some (- (981 / 100 * (4 / 5)))) a /\
  measures Mag (default_config (A := RX)) (Some 1) (Some 2) (Some 2) (triple 1 2 2) /\ 1 / 10000 < rnorm 3 a /\
  let g := qrot (qconj (predicted qone (triple 0 0 0) (1 / 100))) a in g 2%nat < 0 /\ 9 / 10 < sqrt ((1 - g 2%nat) / 2).
Proof. exact scaled_ex_h. Qed.
