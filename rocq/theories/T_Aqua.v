(** Generated by tools/gen_properties.py from P_Aqua.v: property theorems only. *)

From Coq Require Import List Arith ZArith NArith Reals Lia Bool Lra SpecFloat.
From Flocq Require Import Core BinarySingleNaN.
From Verif Require Import M_Base M_Arith M_Utils M_Vector M_Matrix M_Quaternion M_Sensors M_Ar M_Aqua M_F32
  S_Spec S_Linalg S_Quat S_Sensors S_Ar S_Aqua P_Inst.
Import ListNotations.
Local Open Scope nat_scope.

From Verif Require Import P_Aqua.

(** C46, for every arithmetic and after any history of calls.  Before the first [init]: updates, [get_attitude] and every access to a
    sensor configuration are refused and change nothing; [init] succeeds exactly when its arguments satisfy [args_ok], and then
    the filter has recorded them and [get_attitude] returns the quaternion given (the identity when none is).
    VIOLATION: a filter whose first [init] failed is stuck, every later [init] fails.  After a successful [init]: another [init] is
    refused, updates never panic, keep all settings and sensor configurations, and keep the gain unless it is adaptive. *)
Theorem C46_lifecycle :
  forall (A : Arith) (OK : ArithOk A) (s : Aqua) (p : phase), aq_hist s p ->
  forall (a : aq_args) (gx gy gz : option T) (ax ay az mx my mz : T) (c : Config),
  match p with
  | Fresh =>
      aq_update gx gy gz ax ay az mx my mz s = (s, Err AquaFilterNotInit) /\ aq_get_attitude s = Err AquaFilterNotInit /\
      aq_get_gyrometer_config s = Err GyrNotInit /\ aq_get_accelerometer_config s = Err AccNotInit /\ aq_get_magnetometer_config s = Err MagNotInit /\
      aq_set_gyrometer_config c s = (s, Err GyrNotInit) /\ aq_set_accelerometer_config c s = (s, Err AccNotInit) /\ aq_set_magnetometer_config c s = (s, Err MagNotInit) /\
      let (s', o) := aq_init_with a s in
      (args_ok a -> o = Ok tt /\ (exists v, aq_get_attitude s' = Ok v /\ vec_is v 4 (args_attitude a)) /\
         aq_mode s' = ia_mode a /\ aq_ts s' = ia_ts a /\ aq_adaptive s' = ia_adaptive a /\ aq_alpha s' = ia_alpha a /\ aq_beta s' = ia_beta a /\
         aq_t1 s' = ia_t1 a /\ aq_t2 s' = ia_t2 a /\ aq_t_acc s' = ia_t_acc a /\ aq_t_mag s' = ia_t_mag a /\
         aq_g s' = unwrap_or (ia_g a) (aq_g s) /\ aq_h s' = unwrap_or (ia_h a) (aq_h s) /\
         (ia_mode a = MARG -> exists c, ia_gyr a = Some c /\ aq_get_gyrometer_config s' = Ok c) /\
         aq_get_accelerometer_config s' = Ok (ia_acc a) /\ aq_get_magnetometer_config s' = Ok (ia_mag a)) /\
      (~ args_ok a -> exists e, o = Err e /\ bad_init a e)
  | Stuck =>
      aq_update gx gy gz ax ay az mx my mz s = (s, Err AquaFilterNotInit) /\ aq_get_attitude s = Err AquaFilterNotInit /\
      aq_init_with a s = (s, Err (LinErr AlreadyInit))
  | Live =>
      aq_init_with a s = (s, Err AquaFilterAlreadyInit) /\ (exists v f, aq_get_attitude s = Ok v /\ vec_is v 4 f) /\
      let (s', o) := aq_update gx gy gz ax ay az mx my mz s in
      o <> Panic /\ aq_same_settings s s' /\ aq_same_configs s s' /\ (aq_adaptive s = false \/ aq_mode s = AM -> aq_alpha s' = aq_alpha s) /\
      exists v f, aq_get_attitude s' = Ok v /\ vec_is v 4 f
  end.
Proof. exact l_aq_lifecycle. Qed.
Print Assumptions C46_lifecycle.

(** C46: once the filter is initialised a sensor in use can be re-configured with any finite configuration, which
    is then the one read back; a configuration that is not finite is refused.  The gyrometer of a filter in mode AM is
    not in use: it cannot be configured.  Nothing but that sensor changes. *)
Theorem C46_configure :
  forall (A : Arith) (OK : ArithOk A) (s : Aqua) (c : Config), aq_hist s Live ->
  (let (s', o) := aq_set_accelerometer_config c s in
   (cfg_finite c -> o = Ok tt /\ aq_get_accelerometer_config s' = Ok c) /\ (~ cfg_finite c -> exists e, o = Err e /\ is_utils e) /\
   aq_same_settings s s' /\ aq_alpha s' = aq_alpha s /\ aq_attitude s' = aq_attitude s /\ aq_gyr s' = aq_gyr s /\ aq_mag s' = aq_mag s) /\
  (let (s', o) := aq_set_magnetometer_config c s in
   (cfg_finite c -> o = Ok tt /\ aq_get_magnetometer_config s' = Ok c) /\ (~ cfg_finite c -> exists e, o = Err e /\ is_utils e) /\
   aq_same_settings s s' /\ aq_alpha s' = aq_alpha s /\ aq_attitude s' = aq_attitude s /\ aq_gyr s' = aq_gyr s /\ aq_acc s' = aq_acc s) /\
  match aq_mode s with
  | AM => aq_set_gyrometer_config c s = (s, Err GyrNotInit) /\ aq_get_gyrometer_config s = Err GyrNotInit
  | MARG =>
      let (s', o) := aq_set_gyrometer_config c s in
      (cfg_finite c -> o = Ok tt /\ aq_get_gyrometer_config s' = Ok c) /\ (~ cfg_finite c -> exists e, o = Err e /\ is_utils e) /\
      aq_same_settings s s' /\ aq_alpha s' = aq_alpha s /\ aq_attitude s' = aq_attitude s /\ aq_acc s' = aq_acc s /\ aq_mag s' = aq_mag s
  end.
Proof. exact l_aq_configure. Qed.
Print Assumptions C46_configure.

(** C46, violation: on a new filter, forget the gyrometer configuration in one [init] in mode MARG (error NoGyroconfig): whatever
    is called afterwards, no [init] ever succeeds again *)
Theorem C46_stuck_refuted :
  forall (lm : Libm), exists (s0 : Aqua (A := F32 lm)) (a : aq_args (A := F32 lm)),
  aq_hist s0 Fresh /\ snd (aq_init_with a s0) = Err NoGyroconfig /\
  forall s', aq_later (fst (aq_init_with a s0)) s' -> forall a', aq_init_with a' s' = (s', Err (LinErr AlreadyInit)).
Proof. exact l_aq_stuck. Qed.
Print Assumptions C46_stuck_refuted.

(** C46, violation: a NaN sampling period, gains outside [0, 1], thresholds in the wrong order and interpolation thresholds
    outside [0, 1] are all accepted *)
Theorem C46_unchecked_refuted :
  forall (lm : Libm), exists (s0 : Aqua (A := F32 lm)) (a : aq_args (A := F32 lm)), aq_hist s0 Fresh /\
  snd (aq_init_with a s0) = Ok tt /\
  fnan (Arith := F32 lm) (ia_ts a) = true /\ fltb (Arith := F32 lm) (ia_alpha a) f0 = true /\ fltb (Arith := F32 lm) f1 (ia_beta a) = true /\
  fltb (Arith := F32 lm) (ia_t2 a) (ia_t1 a) = true /\ fltb (Arith := F32 lm) f1 (ia_t_acc a) = true /\ fnan (Arith := F32 lm) (ia_t_mag a) = true.
Proof. exact l_aq_unchecked. Qed.
Print Assumptions C46_unchecked_refuted.

(** C48, for every arithmetic, so in f32 whatever libm returns: take two filters in mode AM after any two histories, with the same
    accelerometer and magnetometer calibration, and give both the same accelerometer and magnetometer measurements (and anything at all
    for the gyrometer): one update succeeds exactly when the other does, and then both report the same attitude. *)
Theorem C48_history_free :
  forall (A : Arith) (OK : ArithOk A) (s1 s2 : Aqua), aq_hist s1 Live -> aq_hist s2 Live -> aq_mode s1 = AM -> aq_mode s2 = AM ->
  aq_get_accelerometer_config s1 = aq_get_accelerometer_config s2 -> aq_get_magnetometer_config s1 = aq_get_magnetometer_config s2 ->
  forall (gx gy gz gx' gy' gz' : option T) (ax ay az mx my mz : T),
  let (s1', o1) := aq_update gx gy gz ax ay az mx my mz s1 in
  let (s2', o2) := aq_update gx' gy' gz' ax ay az mx my mz s2 in
  o1 = Ok tt -> o2 = Ok tt /\ exists v, aq_get_attitude s1' = Ok v /\ aq_get_attitude s2' = Ok v.
Proof. exact l_aq_history_free. Qed.
Print Assumptions C48_history_free.

(** C50, for every arithmetic and after any history: in mode MARG an update without any gyrometer measurement fails with
    NoGyroRawMeasurements, with an incomplete one InvalidGyroRawMeasurements, and neither changes anything *)
Theorem C50_gyro :
  forall (A : Arith) (OK : ArithOk A) (s : Aqua), aq_hist s Live -> aq_mode s = MARG ->
  forall (gx gy gz : option T) (ax ay az mx my mz : T), gx = None \/ gy = None \/ gz = None ->
  aq_update gx gy gz ax ay az mx my mz s =
  (s, Err (match gx, gy, gz with None, None, None => NoGyroRawMeasurements | _, _, _ => InvalidGyroRawMeasurements end)).
Proof. exact l_aq_gyro. Qed.
Print Assumptions C50_gyro.

(** C50: an update with a measurement that is not finite, or whose calibration is not finite, fails with an error about a NaN or infinite value
    and leaves the attitude and the gain alone *)
Theorem C50_not_finite :
  forall (A : Arith) (OK : ArithOk A) (s : Aqua) (ca cm : Config), aq_hist s Live ->
  aq_get_accelerometer_config s = Ok ca -> aq_get_magnetometer_config s = Ok cm ->
  forall (gx gy gz ax ay az mx my mz : T),
  let good k c x y z := raw_finite (raw3 x y z) /\ unbiased_finite c (raw3 x y z) /\ corrected_finite k c (raw3 x y z) in
  (~ good Acc ca ax ay az \/ ~ good Mag cm mx my mz \/
   (aq_mode s = MARG /\ forall cg, aq_get_gyrometer_config s = Ok cg -> ~ good Gyr cg gx gy gz)) ->
  let (s', o) := aq_update (Some gx) (Some gy) (Some gz) ax ay az mx my mz s in
  (exists e, o = Err e /\ is_utils e) /\ aq_attitude s' = aq_attitude s /\ aq_alpha s' = aq_alpha s.
Proof. exact l_aq_not_finite. Qed.
Print Assumptions C50_not_finite.

(** C50: the only errors of an update of an initialised filter; an AM update can only fail because of a NaN or infinite value *)
Theorem C50_errors :
  forall (A : Arith) (OK : ArithOk A) (s : Aqua), aq_hist s Live ->
  forall (gx gy gz : option T) (ax ay az mx my mz : T) (e : AhrsError), snd (aq_update gx gy gz ax ay az mx my mz s) = Err e ->
  match aq_mode s with
  | AM => is_utils e
  | MARG => is_utils e \/ e = NoGyroRawMeasurements \/ e = InvalidGyroRawMeasurements \/ e = LinErr InvalidAlpha \/
            e = InvalidAquaInterpolationTreshold \/ e = InvalidAdaptiveGainTresholds
  end.
Proof. exact l_aq_errors. Qed.
Print Assumptions C50_errors.

(** C50, violation, whatever libm returns: a filter in mode MARG, default calibration and settings, gets one update with a magnetometer reading
    of zero: the update fails with a NaN error, but the attitude has been changed *)
Theorem C50_overwritten_refuted :
  forall (lm : Libm), exists (s : Aqua (A := F32 lm)) (gx gy gz ax ay az mx my mz : T (Arith := F32 lm)), aq_hist s Live /\ aq_mode s = MARG /\
  snd (aq_update (Some gx) (Some gy) (Some gz) ax ay az mx my mz s) = Err (LinErr (UtilsErr Nan)) /\
  aq_get_attitude (fst (aq_update (Some gx) (Some gy) (Some gz) ax ay az mx my mz s)) <> aq_get_attitude s.
Proof. exact l_aq_overwritten. Qed.
Print Assumptions C50_overwritten_refuted.

(** two filters with different histories and different attitudes satisfy the hypotheses of C48, and the update succeeds (test by computation) *)
Example C48_example :
  forall lm : Libm, exists s1 s2 : Aqua (A := F32 lm), aq_hist s1 Live /\ aq_hist s2 Live /\ aq_mode s1 = AM /\ aq_mode s2 = AM /\
  aq_get_accelerometer_config s1 = aq_get_accelerometer_config s2 /\ aq_get_magnetometer_config s1 = aq_get_magnetometer_config s2 /\
  aq_get_attitude s1 <> aq_get_attitude s2 /\ snd (up32 lm None 1 2 (-98) 3 4 5 s1) = Ok tt.
Proof. exact aq_example. Qed.

(** an initialised filter in mode MARG: the hypotheses of C46 (Live) and C50 *)
Example C50_example :
  forall lm : Libm, exists s : Aqua (A := F32 lm), aq_hist s Live /\ aq_mode s = MARG /\ aq_get_gyrometer_config s = Ok default_config.
Proof. exact aq_example_marg. Qed.
