(** Specification vocabulary for the corrections of the Aqua filter in mode MARG: real numbers
    only, independent of the code. *)
From Coq Require Import Reals.
From Flocq Require Import Core.
From Verif Require Import M_Base M_Arith M_Vector M_Sensors M_Ar M_Aqua M_RX S_Spec S_Linalg S_Norm S_Quat S_Sensors S_Ar S_Aqua.
Local Open Scope R_scope.

(** one explicit Euler step of q' = 1/2 q (0, w) over the time t, normalised *)
Definition predicted (q : quat) (w : nat -> R) (t : R) : quat :=
  qnormalized (qadd q (qscale (t / 2) (qmul q (purer w)))).
(** cosine of half the angle of the rotation chosen to take the unit vector g to (0, 0, -1) *)
Definition half_cos (g : nat -> R) : R :=
  if Rlt_bool (g 2%nat) 0 then sqrt ((1 - g 2%nat) / 2) else g 1%nat / (2 * sqrt ((1 + g 2%nat) / 2)).
(** what is left of an error (one minus the cosine of the angle to the target) after a correction of
    gain k, where c is the cosine of half that angle: straight interpolation from the identity if c is
    above the threshold t, interpolation along the arc otherwise *)
Definition remaining (k t c : R) : R :=
  if Rlt_bool t c then (1 - k) * (1 - k) / ((1 - k) * (1 - k) + 2 * k * (1 - k) * c + k * k)
  else let a := sin ((1 - k) * acos c) / sin (acos c) in a * a.
(** k is the gain of the accelerometer correction for an acceleration of norm n: the stored gain, or
    the adapted one, which needs t1 < t2 *)
Definition gain_for (s : Aqua (A := RX)) (n k : R) : Prop :=
  if aq_adaptive s
  then fleb (Arith := RX) (aq_t2 s) (aq_t1 s) = false /\
       new_gain (A := RX) (aq_t1 s) (aq_t2 s) (aq_g s) (aq_alpha s) (Some n) = Some k
  else aq_alpha s = Some k.

(** a reachable filter in mode MARG: its sensor configurations, its attitude q (not tiny), sampling
    period, thresholds in [0, 1) and magnetometer gain in [0, 1] *)
Record marg_state (s : Aqua (A := RX)) (cg ca cm : Config (A := RX)) (q : quat) (ts ta kb tm : R) : Prop := {
  ms_hist : aq_hist s Live;
  ms_mode : aq_mode s = MARG;
  ms_gyr : aq_get_gyrometer_config s = Ok cg;
  ms_acc : aq_get_accelerometer_config s = Ok ca;
  ms_mag : aq_get_magnetometer_config s = Ok cm;
  ms_att : quat_r (aq_attitude s) q;
  ms_norm : 1 / 10000 < qnorm q;
  ms_ts : aq_ts s = Some ts;
  ms_t_acc : aq_t_acc s = Some ta;
  ms_ta : 0 <= ta < 1;
  ms_beta : aq_beta s = Some kb;
  ms_kb : 0 <= kb <= 1;
  ms_t_mag : aq_t_mag s = Some tm;
  ms_tm : 0 <= tm < 1
}.
(** the corrected measurement of the raw values (x, y, z) is the real vector u *)
Definition measures (k : kind) (c : Config (A := RX)) (x y z : T (Arith := RX)) (u : nat -> R) : Prop :=
  forall i, (i < 3)%nat -> corrected k c (raw3 x y z) 3 i = Some (u i).
(** n successive successful updates with the same measurements *)
Inductive aq_run (gx gy gz ax ay az mx my mz : T (Arith := RX)) : nat -> Aqua (A := RX) -> Aqua (A := RX) -> Prop :=
| run_0 s : aq_run gx gy gz ax ay az mx my mz 0 s s
| run_S n s s1 s' : aq_run gx gy gz ax ay az mx my mz n s s1 ->
    aq_update (Some gx) (Some gy) (Some gz) ax ay az mx my mz s1 = (s', Ok tt) ->
    aq_run gx gy gz ax ay az mx my mz (S n) s s'.
