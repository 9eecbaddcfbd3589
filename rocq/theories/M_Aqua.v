(** Model of open_ahrs/src/aqua.rs. *)
From Coq Require Import List Arith ZArith NArith Bool.
From Verif Require Import M_Base M_Arith M_Utils M_Vector M_Matrix M_Quaternion M_Sensors M_Ar.
Import ListNotations.

(** open_ahrs/src/aqua.rs:21-24 *)
Inductive Mode := MARG | AM.

Section F32.
  Context {A : Arith}.
  Notation V := (Vec T).
  Notation M := (Mat T).

  (** open_ahrs/src/aqua.rs:27-51 *)
  Record Aqua := mkAqua {
    aq_mode : Mode;
    aq_gyr : Sensor;
    aq_acc : Sensor;
    aq_mag : Sensor;
    aq_attitude : V;
    aq_ts : T;
    aq_adaptive : bool;
    aq_alpha : T;
    aq_beta : T;
    aq_t1 : T;
    aq_t2 : T;
    aq_t_acc : T;
    aq_t_mag : T;
    aq_g : T;
    aq_h : T;
    aq_initialized : bool
  }.
  Notation "'SQ' X" := (ST Aqua AhrsError X) (at level 10).
  Definition aq_put_gyr (g : Sensor) (s : Aqua) : Aqua :=
    mkAqua (aq_mode s) g (aq_acc s) (aq_mag s) (aq_attitude s) (aq_ts s) (aq_adaptive s) (aq_alpha s)
      (aq_beta s) (aq_t1 s) (aq_t2 s) (aq_t_acc s) (aq_t_mag s) (aq_g s) (aq_h s) (aq_initialized s).
  Definition aq_put_acc (a : Sensor) (s : Aqua) : Aqua :=
    mkAqua (aq_mode s) (aq_gyr s) a (aq_mag s) (aq_attitude s) (aq_ts s) (aq_adaptive s) (aq_alpha s)
      (aq_beta s) (aq_t1 s) (aq_t2 s) (aq_t_acc s) (aq_t_mag s) (aq_g s) (aq_h s) (aq_initialized s).
  Definition aq_put_mag (m : Sensor) (s : Aqua) : Aqua :=
    mkAqua (aq_mode s) (aq_gyr s) (aq_acc s) m (aq_attitude s) (aq_ts s) (aq_adaptive s) (aq_alpha s)
      (aq_beta s) (aq_t1 s) (aq_t2 s) (aq_t_acc s) (aq_t_mag s) (aq_g s) (aq_h s) (aq_initialized s).
  Definition aq_put_attitude (v : V) (s : Aqua) : Aqua :=
    mkAqua (aq_mode s) (aq_gyr s) (aq_acc s) (aq_mag s) v (aq_ts s) (aq_adaptive s) (aq_alpha s)
      (aq_beta s) (aq_t1 s) (aq_t2 s) (aq_t_acc s) (aq_t_mag s) (aq_g s) (aq_h s) (aq_initialized s).
  Definition aq_put_alpha (x : T) (s : Aqua) : Aqua :=
    mkAqua (aq_mode s) (aq_gyr s) (aq_acc s) (aq_mag s) (aq_attitude s) (aq_ts s) (aq_adaptive s) x
      (aq_beta s) (aq_t1 s) (aq_t2 s) (aq_t_acc s) (aq_t_mag s) (aq_g s) (aq_h s) (aq_initialized s).
  Definition aq_on_gyr {B} (c : ST Sensor AhrsError B) : SQ B := zoom aq_gyr aq_put_gyr c.
  Definition aq_on_acc {B} (c : ST Sensor AhrsError B) : SQ B := zoom aq_acc aq_put_acc c.
  Definition aq_on_mag {B} (c : ST Sensor AhrsError B) : SQ B := zoom aq_mag aq_put_mag c.
  Definition aq_on_attitude {B} (c : ST V LinalgError B) : SQ B :=
    sla (zoom aq_attitude aq_put_attitude c).

  (** open_ahrs/src/aqua.rs:55-84 *)
  Definition aq_new : res AhrsError Aqua :=
    let? gyr := sensor_new in
    let? acc := sensor_new in
    let? mag := sensor_new in
    Ok (mkAqua MARG gyr acc mag vnew (lit 1 100) true (lit 1 100) (lit 1 100) (lit 1 10)
          (lit 2 10) (lit 9 10) (lit 9 10) (lit 981 100) (lit 48 1) false).

  (** open_ahrs/src/aqua.rs:87-167.  The [else] branch of lines 127-130 is unreachable:
      Mode has two variants. *)
  Definition aq_init (mode : Mode) (qw qx qy qz : option T) (gyrometer_config : option Config)
    (accelerometer_config magnetometer_config : Config) (ts : T) (adaptive : bool)
    (alpha beta t1 t2 t_acc t_mag : T) (g h : option T) : SQ unit := fun self =>
    if aq_initialized self then (self, Err AquaFilterAlreadyInit)
    else
      (aq_on_attitude (v_init 4) ;;!
       aq_on_attitude q_fill_identity ;;!
       match mode with
       | MARG =>
           match gyrometer_config with
           | None => sthrow NoGyroconfig
           | Some config =>
               aq_on_gyr (sensor_init Gyr config) ;;!
               aq_on_acc (sensor_init Acc accelerometer_config) ;;!
               aq_on_mag (sensor_init Mag magnetometer_config)
           end
       | AM =>
           aq_on_acc (sensor_init Acc accelerometer_config) ;;!
           aq_on_mag (sensor_init Mag magnetometer_config)
       end ;;!
       match qw, qx, qy, qz with
       | Some qw, Some qx, Some qy, Some qz => aq_on_attitude (q_fillq qw qx qy qz)
       | None, None, None, None => sret tt
       | _, _, _, _ => sthrow InvalidInitQuaternion
       end ;;!
       modify (fun s =>
         mkAqua mode (aq_gyr s) (aq_acc s) (aq_mag s) (aq_attitude s) ts adaptive alpha beta
           t1 t2 t_acc t_mag (unwrap_or g (aq_g s)) (unwrap_or h (aq_h s)) true)) self.

  (** open_ahrs/src/aqua.rs:170-203 *)
  Definition aq_set_accelerometer_config (c : Config) : SQ unit := aq_on_acc (sensor_set_config Acc c).
  Definition aq_set_gyrometer_config (c : Config) : SQ unit := aq_on_gyr (sensor_set_config Gyr c).
  Definition aq_set_magnetometer_config (c : Config) : SQ unit := aq_on_mag (sensor_set_config Mag c).
  Definition aq_get_accelerometer_config (self : Aqua) := sensor_get_config Acc (aq_acc self).
  Definition aq_get_gyrometer_config (self : Aqua) := sensor_get_config Gyr (aq_gyr self).
  Definition aq_get_magnetometer_config (self : Aqua) := sensor_get_config Mag (aq_mag self).

  (** open_ahrs/src/aqua.rs:206-230 *)
  Definition aq_interpolate (quat : V) (alpha treshold : T) : res AhrsError V :=
    if negb (in_range treshold f0 f1) then Err InvalidAquaInterpolationTreshold
    else la (
      let? identity := exec (v_init 4 ;;! q_fill_identity) vnew in
      let? interpolated := exec (v_init 4) vnew in
      let? qw := q_get_qw quat in
      if (qw >? treshold)%F
      then exec (v_lerp identity quat alpha ;;! v_normalize) interpolated
      else exec (v_slerp identity quat alpha) interpolated).

  (** open_ahrs/src/aqua.rs:233-256 *)
  Definition aq_calculate_adaptative_gain (self : Aqua) (gain : T) (vect_global : V)
    (vect_norm_reference : T) : res AhrsError T :=
    if (aq_t2 self <=? aq_t1 self)%F then Err InvalidAdaptiveGainTresholds
    else
      let? vect_norm := la (v_calculate_norm vect_global) in
      let norm_error := fabs ((vect_norm - vect_norm_reference) / vect_norm_reference)%F in
      let new_gain := if (aq_t1 self <? norm_error)%F && (norm_error <? aq_t2 self)%F
                      then (gain * (aq_t1 self - norm_error) / aq_t1 self)%F else f0 in
      Ok (if (norm_error <=? aq_t1 self)%F then gain else new_gain).

  (** the partial orientation from an acceleration, open_ahrs/src/aqua.rs:386-398 and
      458-470 *)
  Definition acc_quat_of (ax ay az : T) : T * T * T * T :=
    if (az <? f0)%F then
      let l1 := fsqrt ((f1 - az) / f2)%F in
      (l1, ay / (f2 * l1), (- ax) / (f2 * l1), f0)%F
    else
      let l2 := fsqrt ((f1 + az) / f2)%F in
      (ay / (f2 * l2), l2, f0, (- ax) / (f2 * l2))%F.

  (** lines 438-441 = 486-489 *)
  Definition mag_quat_pos (lx ly gamma : T) : T * T * T * T :=
    (fsqrt (gamma + lx * fsqrt gamma) / fsqrt (f2 * gamma), f0, f0,
     ly / (fsqrt f2 * fsqrt (gamma + lx * fsqrt gamma)))%F.
  (** lines 491-494 *)
  Definition mag_quat_neg (lx ly gamma : T) : T * T * T * T :=
    (ly / (fsqrt f2 * fsqrt (gamma - lx * fsqrt gamma)), f0, f0,
     fsqrt (gamma - lx * fsqrt gamma) / fsqrt (f2 * gamma))%F.

  (** [let mut v = Vector::new(); v.init(3)?; v.set_element(0, x)?; ..] *)
  Definition vec3 (x y z : T) : res LinalgError V :=
    exec (v_init 3 ;;! v_set 0 x ;;! v_set 1 y ;;! v_set 2 z) vnew.
  (** [let mut q = Vector::new(); q.init(4)?; q.fillq(..)?] *)
  Definition quat4 (q : T * T * T * T) : res LinalgError V :=
    let '(qw, qx, qy, qz) := q in exec (v_init 4 ;;! q_fillq qw qx qy qz) vnew.
  (** [let mut dcm = quat.convert_to_dcm()?; dcm.transpose()?;
       temp.mul(&dcm, &v.convert_to_matrix()?)?; temp.col_to_vector(0)?];
      temp is a 3x1 matrix that the multiplication overwrites completely *)
  Definition to_global (quat v : V) (temp : M) : res LinalgError (V * M) :=
    let? dcm := q_convert_to_dcm quat in
    let? dcm := exec m_transpose dcm in
    let? vm := v_convert_to_matrix v in
    let? temp := exec (m_mul dcm vm) temp in
    let? g := m_col_to_vector temp 0 in
    Ok (g, temp).

  (** open_ahrs/src/aqua.rs:344-455: body of the MARG branch *)
  Definition aq_update_marg (a_local m_local : V) (temp : M) : SQ unit :=
    let! p := reads (fun s => sensor_get Gyr 0 (aq_gyr s)) in
    let! q := reads (fun s => sensor_get Gyr 1 (aq_gyr s)) in
    let! r := reads (fun s => sensor_get Gyr 2 (aq_gyr s)) in
    lift (la (vec3 p q r)) ;;!
    let! omega := lift (calculate_omega_matrix p q r) in
    let! omega := lift (la (exec (m_mul_by_scalar_in_place fhalf) omega)) in
    let! derivative := reads (fun s => la (let? am := v_convert_to_matrix (aq_attitude s) in
                                           m_mul_new omega am)) in
    let! delta := lift (la (m_col_to_vector derivative 0)) in
    let! delta := reads (fun s => la (exec (v_mul_by_scalar_in_place (aq_ts s)) delta)) in
    let! gyr_quat := reads (fun s => la (exec (v_init 4 ;;! v_add (aq_attitude s) delta ;;!
                                               v_normalize) vnew)) in
    let! (a_global, temp) := lift (la (to_global gyr_quat a_local temp)) in
    let! gx := lift (la (v_get a_global 0)) in
    let! gy := lift (la (v_get a_global 1)) in
    let! gz := lift (la (v_get a_global 2)) in
    let! acc_quat := lift (la (quat4 (acc_quat_of gx gy gz))) in
    (fun s => (if aq_adaptive s then
                 let! alpha := reads (fun s => aq_calculate_adaptative_gain s (aq_alpha s) a_local (aq_g s)) in
                 modify (aq_put_alpha alpha)
               else sret tt) s) ;;!
    let! acc_quat_interpolated := reads (fun s => aq_interpolate acc_quat (aq_alpha s) (aq_t_acc s)) in
    aq_on_attitude (q_mul gyr_quat acc_quat_interpolated) ;;!
    let! (m_global, temp) := reads (fun s => la (to_global (aq_attitude s) m_local temp)) in
    let! lx := lift (la (v_get m_global 0)) in
    let! ly := lift (la (v_get m_global 1)) in
    let gamma := (lx*lx + ly*ly)%F in
    let! mag_quat := lift (la (quat4 (mag_quat_pos lx ly gamma))) in
    let! mag_quat_interpolated := reads (fun s => aq_interpolate mag_quat (aq_beta s) (aq_t_mag s)) in
    let! dup := reads (fun s => la (v_duplicate (aq_attitude s))) in
    aq_on_attitude (q_mul dup mag_quat_interpolated).

  (** open_ahrs/src/aqua.rs:457-499: body of the AM branch *)
  Definition aq_update_am (ax ay az : T) (m_local : V) (temp : M) : SQ unit :=
    let! acc_quat := lift (la (quat4 (acc_quat_of ax ay az))) in
    let! (m_global, temp) := lift (la (to_global acc_quat m_local temp)) in
    let! lx := lift (la (v_get m_global 0)) in
    let! ly := lift (la (v_get m_global 1)) in
    let gamma := (lx*lx + ly*ly)%F in
    let! mag_quat := lift (la (quat4 (if (lx >=? f0)%F then mag_quat_pos lx ly gamma
                                      else mag_quat_neg lx ly gamma))) in
    aq_on_attitude (q_mul acc_quat mag_quat).

  (** open_ahrs/src/aqua.rs:259-505 *)
  Definition aq_update (gx gy gz : option T) (ax ay az mx my mz : T) : SQ unit := fun self =>
    if negb (aq_initialized self) then (self, Err AquaFilterNotInit)
    else
      (match aq_mode self with
       | MARG =>
           match gx, gy, gz with
           | Some gx, Some gy, Some gz => aq_on_gyr (sensor_update Gyr gx gy gz)
           | None, None, None => sthrow NoGyroRawMeasurements
           | _, _, _ => sthrow InvalidGyroRawMeasurements
           end
       | AM => sret tt
       end ;;!
       aq_on_acc (sensor_update Acc ax ay az) ;;!
       aq_on_mag (sensor_update Mag mx my mz) ;;!
       let! ax := reads (fun s => sensor_get Acc 0 (aq_acc s)) in
       let! ay := reads (fun s => sensor_get Acc 1 (aq_acc s)) in
       let! az := reads (fun s => sensor_get Acc 2 (aq_acc s)) in
       let! a_local := lift (la (vec3 ax ay az)) in
       let! a_local_norm := lift (la (v_calculate_norm a_local)) in
       let! (ax, ay, az) := lift (
         if (a_local_norm >? EPSILON)%F then
           la (let? x := v_get a_local 0 in
               let? y := v_get a_local 1 in
               let? z := v_get a_local 2 in
               Ok (x / a_local_norm, y / a_local_norm, z / a_local_norm)%F)
         else Ok (ax, ay, az)) in
       let! mx := reads (fun s => sensor_get Mag 0 (aq_mag s)) in
       let! my := reads (fun s => sensor_get Mag 1 (aq_mag s)) in
       let! mz := reads (fun s => sensor_get Mag 2 (aq_mag s)) in
       let! m_local := lift (la (vec3 mx my mz)) in
       let! m_local := lift (la (exec v_normalize m_local)) in
       let! temp := lift (la (exec (m_init 3 1) mnew)) in
       match aq_mode self with
       | MARG => aq_update_marg a_local m_local temp
       | AM => aq_update_am ax ay az m_local temp
       end ;;!
       aq_on_attitude v_normalize) self.

  (** open_ahrs/src/aqua.rs:507-515 *)
  Definition aq_get_attitude (self : Aqua) : res AhrsError V :=
    if negb (aq_initialized self) then Err AquaFilterNotInit
    else la (v_duplicate (aq_attitude self)).
End F32.
