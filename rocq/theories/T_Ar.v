(** Generated by tools/gen_properties.py from P_Ar.v: property theorems only. *)

From Coq Require Import List Arith ZArith NArith Reals Lia Bool Lra SpecFloat.
From Flocq Require Import Core BinarySingleNaN.
From Verif Require Import M_Base M_Arith M_Utils M_Vector M_Matrix M_Quaternion M_Sensors M_Ar M_F32 M_RX
  S_Spec S_Linalg S_Norm S_Quat S_Sensors S_Ar P_Inst.
Import ListNotations.
Local Open Scope nat_scope.

From Verif Require Import P_Ar.

(** C41, for every arithmetic and after any history of calls: before a successful [init] every update and
    [get_attitude] is refused and changes nothing; [init] succeeds exactly when its arguments are finite and then
    [get_attitude] returns exactly the quaternion given; after that [init] is refused, updates keep the settings
    and the calibration, and never panic except for the Taylor method of order 21 or more.  A filter that was
    given a quaternion that is not finite is stuck: every later [init] fails. *)
Theorem C41_lifecycle :
  forall (A : Arith) (OK : ArithOk A) (ck : bool) (s : AR) (p : phase), ar_hist ck s p ->
  forall (gx gy gz qw qx qy qz : T) (c : Config) (ts : T) (m : NIM) (order : nat),
  match p with
  | Fresh =>
      ar_update ck gx gy gz s = (s, Err ARFilterNotInit) /\ ar_get_attitude s = Err ARFilterNotInit /\
      let (s', o) := ar_init qw qx qy qz c ts m order s in
      (cfg_finite c -> quat_finite qw qx qy qz -> o = Ok tt /\ ar_ts s' = ts /\ ar_method s' = m /\ ar_order s' = order /\
         sensor_get_config Gyr (ar_gyr s') = Ok c /\ exists v, ar_get_attitude s' = Ok v /\ vec_is v 4 (quad qw qx qy qz)) /\
      (~ (cfg_finite c /\ quat_finite qw qx qy qz) -> exists e, o = Err e /\ is_utils e)
  | Stuck =>
      ar_update ck gx gy gz s = (s, Err ARFilterNotInit) /\ ar_get_attitude s = Err ARFilterNotInit /\
      ar_init qw qx qy qz c ts m order s = (s, Err GyrAlreadyInit)
  | Live =>
      ar_init qw qx qy qz c ts m order s = (s, Err ARFilterAlreadyInit) /\
      (exists v f, ar_get_attitude s = Ok v /\ vec_is v 4 f) /\
      let (s', o) := ar_update ck gx gy gz s in
      (o <> Panic -> ar_ts s' = ar_ts s /\ ar_method s' = ar_method s /\ ar_order s' = ar_order s /\
         sensor_get_config Gyr (ar_gyr s') = sensor_get_config Gyr (ar_gyr s)) /\
      (o = Panic -> ck = true /\ ar_method s = TaylorSeries /\ 21 <= ar_order s)
  end.
Proof. exact l_ar_lifecycle. Qed.
Print Assumptions C41_lifecycle.

(** C41, violation: one [init] with a NaN quaternion on a new filter, with overflow checks or without, and
    a stuck filter is reached: no [init] will ever succeed again *)
Theorem C41_stuck_refuted :
  forall (lm : Libm) (ck : bool), exists s : AR (A := F32 lm), ar_hist ck s Stuck /\
  forall s', ar_later ck s s' -> forall qw qx qy qz c ts m order, snd (ar_init qw qx qy qz c ts m order s') = Err GyrAlreadyInit.
Proof. exact l_ar_stuck. Qed.
Print Assumptions C41_stuck_refuted.
