(** Generated by tools/gen_properties.py from P_ArR.v: property theorems only. *)

From Coq Require Import List Arith ZArith NArith Reals Lia Bool Lra.
From Flocq Require Import Core.
From Verif Require Import M_Base M_Arith M_Utils M_Vector M_Matrix M_Quaternion M_Sensors M_Ar M_RX
  S_Spec S_Linalg S_Norm S_Quat S_Sensors S_Ar.
Import ListNotations.
Local Open Scope R_scope.

From Verif Require Import P_ArR.

(** C43, in exact arithmetic and after any history: a ClosedForm update at the corrected rate w over the period t
    multiplies the normalised attitude on the right by the turn of angle |w| t about w, if |w| exceeds EPSILON;
    otherwise it leaves the attitude unchanged *)
Theorem C43_closed_form :
  forall (ck : bool) (s : AR (A := RX)) (c : Config) (q : quat) (w : nat -> R) (t : R) (gx gy gz : T),
  ar_hist ck s Live -> ar_method s = ClosedForm -> ar_ts s = Some t -> quat_r (ar_attitude s) q ->
  sensor_get_config Gyr (ar_gyr s) = Ok c -> (forall b, (b < 3)%nat -> corrected Gyr c (raw3 gx gy gz) 3 b = Some (w b)) ->
  exists s', ar_update ck gx gy gz s = (s', Ok tt) /\
    (rnorm 3 w <= eps -> ar_attitude s' = ar_attitude s) /\
    (eps < rnorm 3 w -> eps < qnorm q -> quat_r (ar_attitude s') (qmul (qnormalized q) (turn w t))) /\
    (eps < rnorm 3 w -> qnorm q <= eps -> quat_r (ar_attitude s') qzero).
Proof. exact l_closed_form. Qed.
Print Assumptions C43_closed_form.

(** C43: n updates at a constant rate, from a unit attitude, are one turn over n periods - for every n *)
Theorem C43_repeat :
  forall (ck : bool) (s : AR (A := RX)) (c : Config) (q : quat) (w : nat -> R) (t : R) (gx gy gz : T),
  ar_hist ck s Live -> ar_method s = ClosedForm -> ar_ts s = Some t -> quat_r (ar_attitude s) q -> unitq q ->
  sensor_get_config Gyr (ar_gyr s) = Ok c -> (forall b, (b < 3)%nat -> corrected Gyr c (raw3 gx gy gz) 3 b = Some (w b)) ->
  eps < rnorm 3 w ->
  forall n, exists s', ar_repeat ck gx gy gz n s s' /\ quat_r (ar_attitude s') (qmul q (turn w (INR n * t))).
Proof. exact l_repeat. Qed.
Print Assumptions C43_repeat.

(** C43: the turn is the right one: along q (turn w t) the kinematic equation q' = 1/2 q (0, w) holds for every t,
    starting at q *)
Theorem C43_kinematics :
  forall (q : quat) (w : nat -> R), rnorm 3 w <> 0 ->
  qmul q (turn w 0) = q /\
  forall (t : R) (i : nat), (i < 4)%nat ->
  derivable_pt_lim (fun t => qf (qmul q (turn w t)) i) t (qf (qscale (1 / 2) (qmul (qmul q (turn w t)) (purer w))) i).
Proof. exact l_kinematics. Qed.
Print Assumptions C43_kinematics.
