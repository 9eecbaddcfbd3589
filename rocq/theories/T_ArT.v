(** Generated by tools/gen_properties.py from P_ArT.v: property theorems only. *)

From Coq Require Import List Arith ZArith NArith Reals Lia Bool Lra.
From Flocq Require Import Core BinarySingleNaN.
From Verif Require Import M_Base M_Arith M_Utils M_Vector M_Matrix M_Quaternion M_Sensors M_Ar M_F32 M_RX
  S_Spec S_Linalg S_Norm S_Quat S_Sensors S_Ar.
Import ListNotations.
Local Open Scope R_scope.

From Verif Require Import P_ArT.

(** C44, in exact arithmetic and after any history: a Taylor update of order at most 20 multiplies the attitude by
    I + sum over k of the k-th powers of the CELLS of t/2 Omega over k!, and normalises *)
Theorem C44_taylor :
  forall (ck : bool) (s : AR (A := RX)) (c : Config) (q : quat) (w : nat -> R) (t : R) (gx gy gz : T),
  ar_hist ck s Live -> ar_method s = TaylorSeries -> (ar_order s <= 20)%nat -> ar_ts s = Some t -> quat_r (ar_attitude s) q ->
  sensor_get_config Gyr (ar_gyr s) = Ok c -> (forall b, (b < 3)%nat -> corrected Gyr c (raw3 gx gy gz) 3 b = Some (w b)) ->
  let p := qapp (taylor_cells (ar_order s) t w) q in
  exists s', ar_update ck gx gy gz s = (s', Ok tt) /\
    (rnorm 3 w <= eps -> ar_attitude s' = ar_attitude s) /\
    (eps < rnorm 3 w -> eps < qnorm p -> quat_r (ar_attitude s') (qnormalized p)) /\
    (eps < rnorm 3 w -> qnorm p <= eps -> quat_r (ar_attitude s') qzero).
Proof. exact l_taylor. Qed.
Print Assumptions C44_taylor.

(** C44: of order 1 that is the normalised q + t/2 q (0, w), the correct first-order step for body rates *)
Theorem C44_taylor_1 :
  forall (ck : bool) (s : AR (A := RX)) (c : Config) (q : quat) (w : nat -> R) (t : R) (gx gy gz : T),
  ar_hist ck s Live -> ar_method s = TaylorSeries -> ar_order s = 1%nat -> ar_ts s = Some t -> quat_r (ar_attitude s) q ->
  sensor_get_config Gyr (ar_gyr s) = Ok c -> (forall b, (b < 3)%nat -> corrected Gyr c (raw3 gx gy gz) 3 b = Some (w b)) ->
  eps < rnorm 3 w -> eps < qnorm q ->
  exists s', ar_update ck gx gy gz s = (s', Ok tt) /\
    quat_r (ar_attitude s') (qnormalized (qadd q (qscale (t / 2) (qmul q (purer w))))).
Proof. exact l_taylor_1. Qed.
Print Assumptions C44_taylor_1.

(** C44, violation: the Euler method computes the normalised q + t/2 (0, w) q instead - the product is taken on the
    wrong side, which is the step for rates given in the reference frame *)
Theorem C44_euler :
  forall (ck : bool) (s : AR (A := RX)) (c : Config) (q : quat) (w : nat -> R) (t : R) (gx gy gz : T),
  ar_hist ck s Live -> ar_method s = Euler -> ar_ts s = Some t -> quat_r (ar_attitude s) q ->
  sensor_get_config Gyr (ar_gyr s) = Ok c -> (forall b, (b < 3)%nat -> corrected Gyr c (raw3 gx gy gz) 3 b = Some (w b)) ->
  eps < rnorm 3 w -> eps < qnorm q ->
  exists s', ar_update ck gx gy gz s = (s', Ok tt) /\
    quat_r (ar_attitude s') (qnormalized (qadd q (qscale (t / 2) (qmul (purer w) q)))).
Proof. exact l_euler_step. Qed.
Print Assumptions C44_euler.

(** C44, violation: so the two first-order methods disagree whenever the axis of the attitude is not that of the rate *)
Theorem C44_euler_differs :
  forall (ck : bool) (s1 s2 : AR (A := RX)) (c : Config) (q : quat) (w : nat -> R) (t : R) (gx gy gz : T),
  ar_hist ck s1 Live -> ar_method s1 = TaylorSeries -> ar_order s1 = 1%nat -> ar_ts s1 = Some t -> quat_r (ar_attitude s1) q ->
  ar_hist ck s2 Live -> ar_method s2 = Euler -> ar_ts s2 = Some t -> quat_r (ar_attitude s2) q ->
  sensor_get_config Gyr (ar_gyr s1) = Ok c -> sensor_get_config Gyr (ar_gyr s2) = Ok c ->
  (forall b, (b < 3)%nat -> corrected Gyr c (raw3 gx gy gz) 3 b = Some (w b)) ->
  eps < rnorm 3 w -> eps < qnorm q -> t <> 0 ->
  ~ (Qy q * w 2%nat = Qz q * w 1%nat /\ Qz q * w 0%nat = Qx q * w 2%nat /\ Qx q * w 1%nat = Qy q * w 0%nat) ->
  exists s1' s2' q1 q2, ar_update ck gx gy gz s1 = (s1', Ok tt) /\ ar_update ck gx gy gz s2 = (s2', Ok tt) /\
    quat_r (ar_attitude s1') q1 /\ quat_r (ar_attitude s2') q2 /\ q1 <> q2.
Proof. exact l_euler_differs. Qed.
Print Assumptions C44_euler_differs.

(** ... for instance from the attitude i, turning at one radian per second about j *)
Theorem C44_euler_refuted :
  exists (s1 s2 s1' s2' : AR (A := RX)) (q1 q2 : quat), let ck := true in
  ar_hist ck s1 Live /\ ar_method s1 = TaylorSeries /\ ar_order s1 = 1%nat /\ ar_ts s1 = Some 1 /\ quat_r (ar_attitude s1) q_i /\
  ar_hist ck s2 Live /\ ar_method s2 = Euler /\ ar_ts s2 = Some 1 /\ quat_r (ar_attitude s2) q_i /\
  ar_update (A := RX) ck (Some 0) (Some 1) (Some 0) s1 = (s1', Ok tt) /\ ar_update (A := RX) ck (Some 0) (Some 1) (Some 0) s2 = (s2', Ok tt) /\
  quat_r (ar_attitude s1') q1 /\ quat_r (ar_attitude s2') q2 /\ q1 <> q2.
Proof. exact l_euler_w. Qed.
Print Assumptions C44_euler_refuted.

(** C44, violation: of order 2, squaring cell by cell, a fast rotation can be missed altogether: from the identity,
    one period at 4 rad/s about -x (over one second) leaves the attitude exactly the identity *)
Theorem C44_taylor_2_refuted :
  exists (s s' : AR (A := RX)), let ck := true in
  ar_hist ck s Live /\ ar_method s = TaylorSeries /\ ar_order s = 2%nat /\ ar_ts s = Some 1 /\ quat_r (ar_attitude s) qone /\
  sensor_get_config Gyr (ar_gyr s) = Ok default_config /\
  ar_update (A := RX) ck (Some (-4)) (Some 0) (Some 0) s = (s', Ok tt) /\ quat_r (ar_attitude s') qone /\
  turn (triple (-4) 0 0) 1 <> qone /\ turn (triple (-4) 0 0) 1 <> qneg qone.
Proof. exact l_taylor_2. Qed.
Print Assumptions C44_taylor_2_refuted.

(** C44, violation: with overflow checks, a Taylor update of order 21 or more that sees rotation always panics
    (the factorial overflows u64) *)
Theorem C44_taylor_panics :
  forall (s : AR (A := RX)) (c : Config) (q : quat) (w : nat -> R) (t : R) (gx gy gz : T),
  ar_hist true s Live -> ar_method s = TaylorSeries -> (21 <= ar_order s)%nat -> ar_ts s = Some t -> quat_r (ar_attitude s) q ->
  sensor_get_config Gyr (ar_gyr s) = Ok c -> (forall b, (b < 3)%nat -> corrected Gyr c (raw3 gx gy gz) 3 b = Some (w b)) ->
  eps < rnorm 3 w -> snd (ar_update true gx gy gz s) = Panic.
Proof. exact l_taylor_panics. Qed.
Print Assumptions C44_taylor_panics.

(** C44, violation: in f32, the methods that are not implemented are accepted by [init]; they fail only at updates that
    see rotation, leaving the attitude unchanged, and pass at the others *)
Theorem C44_unsupported :
  forall (lm : Libm) (ck : bool) (s : AR (A := F32 lm)) (c : Config (A := F32 lm)) (gx gy gz : f32), let A := F32 lm in
  ar_hist ck s Live -> ar_method s = AdamsBashforth \/ ar_method s = RungeKutta ->
  sensor_get_config Gyr (ar_gyr s) = Ok c ->
  raw_finite (raw3 gx gy gz) -> unbiased_finite c (raw3 gx gy gz) -> corrected_finite Gyr c (raw3 gx gy gz) ->
  let (s', o) := ar_update ck gx gy gz s in
  ar_attitude s' = ar_attitude s /\
  o = if (rate_norm (corrected Gyr c (raw3 gx gy gz) 3) >? EPSILON)%F then Err ARMethodError else Ok tt.
Proof. exact l_unsupported. Qed.
Print Assumptions C44_unsupported.

(** a filter in exact arithmetic meeting the hypotheses of the theorems above *)
Example C43_example : forall (ck : bool) (m : NIM) (order : nat), exists s : AR (A := RX),
  ar_hist ck s Live /\ ar_method s = m /\ ar_order s = order /\ ar_ts s = Some (1 / 100) /\ quat_r (ar_attitude s) q_k /\
  sensor_get_config Gyr (ar_gyr s) = Ok default_config /\
  (forall b, (b < 3)%nat -> corrected Gyr default_config (raw3 (A := RX) (Some 3) (Some 0) (Some 4)) 3 b = Some (triple 3 0 4 b)) /\
  eps < rnorm 3 (triple 3 0 4).
Proof.
  intros ck m order. destruct (started_r ck q_k (1 / 100) m order) as (s & H & Q & C & T & M & O). exists s.
  split; [auto|]. split; [auto|]. split; [auto|]. split; [auto|]. split; [auto|]. split; [auto|]. split; [apply default_corrected|].
  exact rnorm_304.
Qed.
