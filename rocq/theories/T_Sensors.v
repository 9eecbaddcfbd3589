(** Generated by tools/gen_properties.py from P_Sensors.v: property theorems only. *)

From Coq Require Import List Arith ZArith Reals Lia Bool SpecFloat.
From Flocq Require Import Core BinarySingleNaN.
From Verif Require Import M_Base M_Arith M_Utils M_Vector M_Matrix M_Sensors M_F32 M_RX
  S_Spec S_Linalg S_Sensors P_Inst.
Import ListNotations.
Local Open Scope nat_scope.

From Verif Require Import P_Sensors.

(** C38, for every arithmetic: a new sensor exists, is not initialised, and holds zero measurements *)
Theorem C38_new :
  forall (A : Arith) (OK : ArithOk A) (k : kind),
  exists s, sensor_new = Ok s /\ sreach k s /\ s_initialized s = false.
Proof. exact l_new. Qed.
Print Assumptions C38_new.

(** C38, for every arithmetic and after any history: [init] of an uninitialised sensor and [set_config] of an
    initialised one succeed exactly when every field is finite, and then [get_config] returns
    exactly the configuration given *)
Theorem C38_config :
  forall (A : Arith) (OK : ArithOk A) (k : kind) (s : Sensor) (c : Config), sreach k s ->
  forall (q : call), (s_initialized s = false /\ q = CInit c) \/ (s_initialized s = true /\ q = CSet c) ->
  let (s', o) := do_call k q s in
  ((forall x, In x (fields c) -> valid x) -> o = Ok tt /\ s_initialized s' = true /\ sensor_get_config k s' = Ok c) /\
  (~ (forall x, In x (fields c) -> valid x) -> exists e, o = Err e /\ is_utils e).
Proof. exact l_config. Qed.
Print Assumptions C38_config.

(** C38, for every arithmetic and after any history: an update of a configured sensor succeeds exactly when every
    value it computes is finite; the measurements reported are then the products of the
    coefficients with (raw - bias), summed from left to right.  No update changes the configuration *)
Theorem C38_update :
  forall (A : Arith) (OK : ArithOk A) (k : kind) (s : Sensor) (c : Config) (raw : nat -> T), sreach k s ->
  sensor_get_config k s = Ok c ->
  let (s', o) := sensor_update k (raw 0) (raw 1) (raw 2) s in
  (raw_finite raw /\ unbiased_finite c raw /\ corrected_finite k c raw -> o = Ok tt /\
     forall b, b < 3 -> sensor_get k b s' =
       Ok (f0 + coefficient k c 0 b * (raw 0 - bias c 0) + coefficient k c 1 b * (raw 1 - bias c 1)
              + coefficient k c 2 b * (raw 2 - bias c 2))%F) /\
  (~ (raw_finite raw /\ unbiased_finite c raw /\ corrected_finite k c raw) -> exists e, o = Err e /\ is_utils e) /\
  sensor_get_config k s' = Ok c.
Proof. exact l_update. Qed.
Print Assumptions C38_update.

(** C39, for every arithmetic: an uninitialised sensor rejects update, set_config, get_config and reads with its own
    NotInit error, an initialised one rejects init; the sensor is unchanged.  It stays initialised for ever *)
Theorem C39_lifecycle :
  forall (A : Arith) (OK : ArithOk A) (k : kind) (s : Sensor) (c : Config) (x y z : T) (a : nat) (q : call), sreach k s ->
  (s_initialized s = false -> sensor_update k x y z s = (s, Err (not_init k)) /\ sensor_set_config k c s = (s, Err (not_init k)) /\
     sensor_get_config k s = Err (not_init k) /\ sensor_get k a s = Err (not_init k)) /\
  (s_initialized s = true -> sensor_init k c s = (s, Err (already_init k)) /\ s_initialized (fst (do_call k q s)) = true) /\
  not_init Gyr = GyrNotInit /\ not_init Acc = AccNotInit /\ not_init Mag = MagNotInit /\
  already_init Gyr = GyrAlreadyInit /\ already_init Acc = AccAlreadyInit /\ already_init Mag = MagAlreadyInit.
Proof. exact l_lifecycle. Qed.
Print Assumptions C39_lifecycle.

(** C39, for every arithmetic and after any history: an update with a non-finite raw value leaves the reported
    measurements as they were.  Violation: when raw - bias is not finite the axes before it are
    reported without correction, and when only the product is not finite all three are *)
Theorem C39_failed_update :
  forall (A : Arith) (OK : ArithOk A) (k : kind) (s : Sensor) (c : Config) (raw cor : nat -> T), sreach k s ->
  sensor_get_config k s = Ok c -> (forall a, a < 3 -> sensor_get k a s = Ok (cor a)) ->
  let s' := fst (sensor_update k (raw 0) (raw 1) (raw 2) s) in
  (~ raw_finite raw -> forall a, a < 3 -> sensor_get k a s' = Ok (cor a)) /\
  (raw_finite raw -> forall i, i < 3 -> ~ valid (unbiased c raw i) -> (forall a, a < i -> valid (unbiased c raw a)) ->
     forall a, a < 3 -> sensor_get k a s' = Ok (if (a <? i)%nat then raw a - bias c a else cor a)%F) /\
  (raw_finite raw -> unbiased_finite c raw -> ~ corrected_finite k c raw ->
     forall a, a < 3 -> sensor_get k a s' = Ok (raw a - bias c a)%F).
Proof. exact l_failed_update. Qed.
Print Assumptions C39_failed_update.

(** C39, violation, for every arithmetic: a [set_config] that fails leaves the sensor initialised with the new values of
    the fields before the first non-finite one and the old values of the others *)
Theorem C39_set_config_not_atomic :
  forall (A : Arith) (OK : ArithOk A) (k : kind) (s : Sensor) (c c0 : Config) (n : nat), sreach k s ->
  sensor_get_config k s = Ok c0 -> n < 12 -> ~ valid (nth n (fields c) f0) -> (forall i, i < n -> valid (nth i (fields c) f0)) ->
  let (s', o) := sensor_set_config k c s in
  (exists e, o = Err e /\ is_utils e) /\ s_initialized s' = true /\
  exists c', sensor_get_config k s' = Ok c' /\ fields c' = firstn n (fields c) ++ skipn n (fields c0).
Proof. exact l_set_config_partial. Qed.
Print Assumptions C39_set_config_not_atomic.

(** C40, for every arithmetic: for the accelerometer and the gyrometer the field ab is the coefficient of axis a in the
    reported axis b *)
Theorem C40_acc_gyr :
  forall (A : Arith) (OK : ArithOk A) (k : kind) (s s' : Sensor) (c : Config) (x y z : T), sreach k s -> k <> Mag ->
  sensor_get_config k s = Ok c -> sensor_update k x y z s = (s', Ok tt) ->
  sensor_get k 0 s' = Ok (f0 + cf_x c * (x - cf_bx c) + cf_yx c * (y - cf_by c) + cf_zx c * (z - cf_bz c))%F /\
  sensor_get k 1 s' = Ok (f0 + cf_xy c * (x - cf_bx c) + cf_y c * (y - cf_by c) + cf_zy c * (z - cf_bz c))%F /\
  sensor_get k 2 s' = Ok (f0 + cf_xz c * (x - cf_bx c) + cf_yz c * (y - cf_by c) + cf_z c * (z - cf_bz c))%F.
Proof. exact l_naming. Qed.
Print Assumptions C40_acc_gyr.

(** C40, violation, for every arithmetic: in the magnetometer xy is the coefficient of y in x, xz that of x in y, yx that
    of z in x, yz that of x in z, zx that of z in y and zy that of y in z *)
Theorem C40_mag :
  forall (A : Arith) (OK : ArithOk A) (s s' : Sensor) (c : Config) (x y z : T), sreach Mag s ->
  sensor_get_config Mag s = Ok c -> sensor_update Mag x y z s = (s', Ok tt) ->
  sensor_get Mag 0 s' = Ok (f0 + cf_x c * (x - cf_bx c) + cf_xy c * (y - cf_by c) + cf_yx c * (z - cf_bz c))%F /\
  sensor_get Mag 1 s' = Ok (f0 + cf_xz c * (x - cf_bx c) + cf_y c * (y - cf_by c) + cf_zx c * (z - cf_bz c))%F /\
  sensor_get Mag 2 s' = Ok (f0 + cf_yz c * (x - cf_bx c) + cf_zy c * (y - cf_by c) + cf_z c * (z - cf_bz c))%F.
Proof. exact l_naming_mag. Qed.
Print Assumptions C40_mag.

(** C38, binary32: with the default configuration every update with finite measurements succeeds and reports the raw
    measurements as real numbers (only the sign of a zero may change) *)
Theorem C38_default :
  forall (lm : Libm) (k : kind) (s : Sensor (A := F32 lm)) (raw : nat -> f32), sreach k s ->
  sensor_get_config k s = Ok default_config -> (forall a, a < 3 -> is_finite (raw a) = true) ->
  let (s', o) := sensor_update (A := F32 lm) k (raw 0) (raw 1) (raw 2) s in
  o = Ok tt /\ forall a, a < 3 -> exists r : f32, sensor_get k a s' = Ok r /\ B2R r = B2R (raw a) /\
     (raw a <> B754_zero true -> r = raw a).
Proof. exact l_default. Qed.
Print Assumptions C38_default.

(** C40, violation for every libm: two magnetometer configurations that differ in the xz coefficient only (0 and 1);
    the measurement (2, 3, 5) is reported as (2, 3, 5) and as (2, 5, 5): y changes, z does not *)
Theorem C40_mag_xz_refuted :
  forall lm : Libm, exists c0 c1 : Config (A := F32 lm),
  let obs_ c := match sensor_new (A := F32 lm) with
                | Ok s => let s1 := fst (sensor_init (A := F32 lm) Mag c s) in
                          let s2 := fst (sensor_update (A := F32 lm) Mag (z32 2) (z32 3) (z32 5) s1) in
                          (obs (sensor_get (A := F32 lm) Mag 0 s2), obs (sensor_get (A := F32 lm) Mag 1 s2), obs (sensor_get (A := F32 lm) Mag 2 s2))
                | _ => (Panic, Panic, Panic) end in
  cf_xz c0 = z32 0 /\ cf_xz c1 = z32 1 /\
  mkConfig (cf_x c0) (cf_y c0) (cf_z c0) (cf_xy c0) (cf_xz c1) (cf_yx c0) (cf_yz c0) (cf_zx c0) (cf_zy c0) (cf_bx c0) (cf_by c0) (cf_bz c0) = c1 /\
  obs_ c0 = (Ok (sf 2), Ok (sf 3), Ok (sf 5)) /\ obs_ c1 = (Ok (sf 2), Ok (sf 5), Ok (sf 5)).
Proof. exact l_mag_xz. Qed.
Print Assumptions C40_mag_xz_refuted.

(** C39, violation for every libm: with the x scale 2^100 and the y bias 1, the update (2^100, 3, 5) fails (the product
    overflows) and the sensor then reports (2^100, 2, 5): the measurement without its scale *)
Theorem C39_uncorrected_refuted :
  forall lm : Libm, exists c : Config (A := F32 lm),
  match sensor_new (A := F32 lm) with
  | Ok s => let s1 := fst (sensor_init (A := F32 lm) Acc c s) in
            let (s2, o) := sensor_update (A := F32 lm) Acc (z32 (2 ^ 100)) (z32 3) (z32 5) s1 in
            o = Err (LinErr (UtilsErr Inf)) /\
            obs (sensor_get (A := F32 lm) Acc 0 s2) = Ok (sf (2 ^ 100)) /\ obs (sensor_get (A := F32 lm) Acc 1 s2) = Ok (sf 2) /\ obs (sensor_get (A := F32 lm) Acc 2 s2) = Ok (sf 5)
  | _ => False end.
Proof. exact l_uncorrected. Qed.
Print Assumptions C39_uncorrected_refuted.

(** the hypotheses are met: an accelerometer with scales 2, 3, 1, xy = 1 and biases 1, 0, 1 reports (2, 7, 4) for
    (2, 2, 5); a [set_config] whose y scale is NaN then leaves the new x scale 5 and the old y scale 3
    (test by evaluation) *)
Example C38_C39_C40_example : forall lm : Libm,
  let cfg x y : Config (A := F32 lm) := mkConfig (A := F32 lm) x y (z32 1) (z32 1) (z32 0) (z32 0) (z32 0) (z32 0) (z32 0) (z32 1) (z32 0) (z32 1) in
  match sensor_new (A := F32 lm) with
  | Ok s => let s1 := fst (sensor_init (A := F32 lm) Acc (cfg (z32 2) (z32 3)) s) in
            let s2 := fst (sensor_update (A := F32 lm) Acc (z32 2) (z32 2) (z32 5) s1) in
            let s3 := fst (sensor_set_config (A := F32 lm) Acc (cfg (z32 5) nan32) s2) in
            obs (sensor_get (A := F32 lm) Acc 0 s2) = Ok (sf 2) /\ obs (sensor_get (A := F32 lm) Acc 1 s2) = Ok (sf 7) /\ obs (sensor_get (A := F32 lm) Acc 2 s2) = Ok (sf 4) /\
            rmap (fun c => map B2SF (firstn 2 (fields (A := F32 lm) c : list f32))) (sensor_get_config (A := F32 lm) Acc s3) = Ok (map sf [5; 3]%Z)
  | _ => False end.
Proof. intros lm. vm_compute. repeat split. Qed.
