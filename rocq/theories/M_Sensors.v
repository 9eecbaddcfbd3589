(** Model of open_ahrs/src/common.rs (errors, Omega matrix), gyrometer.rs,
    accelerometer.rs and magnetometer.rs. *)
From Coq Require Import List Arith ZArith NArith Bool.
From Verif Require Import M_Base M_Arith M_Utils M_Vector M_Matrix.
Import ListNotations.

(** open_ahrs/src/common.rs:22-57 (variants that no modelled function constructs are
    kept, the doc comments dropped) *)
Inductive AhrsError :=
| GyrNotInit | GyrAlreadyInit | InvalidCorrectionMatrix | InvalidStaticBiases
| AccNotInit | AccAlreadyInit | MagNotInit | MagAlreadyInit
| ARFilterAlreadyInit | ARFilterNotInit | ARMethodError
| AquaFilterAlreadyInit | AquaFilterNotInit | NoGyroconfig | InvalidAquaMode
| InvalidInitQuaternion | InvalidAquaInterpolationTreshold | InvalidAdaptiveGainTresholds
| NoGyroRawMeasurements | InvalidGyroRawMeasurements
| DavenportFilterAlreadyInit | InvalidDavenportWeights | DavenportFilterNotInit
| LinErr (e : LinalgError).

Section F32.
  Context {A : Arith}.
  Notation V := (Vec T).
  Notation M := (Mat T).

  (** [?] on a linalg call inside open_ahrs (common.rs:59-63) *)
  Definition la {B} (r : res LinalgError B) : res AhrsError B := map_err LinErr r.
  Definition sla {S B} (c : ST S LinalgError B) : ST S AhrsError B := smap_err LinErr c.

  (** open_ahrs/src/common.rs:166-196 *)
  Definition calculate_omega_matrix (p q r : T) : res AhrsError M :=
    la (exec (m_init 4 4 ;;!
          m_set 0 0 f0 ;;! m_set 1 0 p ;;! m_set 2 0 q ;;! m_set 3 0 r ;;!
          m_set 0 1 (- p)%F ;;! m_set 1 1 f0 ;;! m_set 2 1 (- r)%F ;;! m_set 3 1 q ;;!
          m_set 0 2 (- q)%F ;;! m_set 1 2 r ;;! m_set 2 2 f0 ;;! m_set 3 2 (- p)%F ;;!
          m_set 0 3 (- r)%F ;;! m_set 1 3 (- q)%F ;;! m_set 2 3 p ;;! m_set 3 3 f0) mnew).

  (** The three sensors have the same code up to the error variants and the cells used
      for the six off-diagonal coefficients; [kind] selects them. *)
  Inductive kind := Gyr | Acc | Mag.
  Definition not_init (k : kind) : AhrsError :=
    match k with Gyr => GyrNotInit | Acc => AccNotInit | Mag => MagNotInit end.
  Definition already_init (k : kind) : AhrsError :=
    match k with Gyr => GyrAlreadyInit | Acc => AccAlreadyInit | Mag => MagAlreadyInit end.

  (** gyrometer.rs:9-27, accelerometer.rs:9-27, magnetometer.rs:9-27 *)
  Record Config := mkConfig {
    cf_x : T; cf_y : T; cf_z : T;                 (** *_axis_scale_correction *)
    cf_xy : T; cf_xz : T; cf_yx : T; cf_yz : T; cf_zx : T; cf_zy : T;
                                 (** *_axes_misalignment_correction / *_soft_iron_correction *)
    cf_bx : T; cf_by : T; cf_bz : T               (** *_static_bias / *_hard_iron_bias *)
  }.

  (** gyrometer.rs:30-53, accelerometer.rs:30-53, magnetometer.rs:30-53 *)
  Definition default_config : Config :=
    mkConfig f1 f1 f1 f0 f0 f0 f0 f0 f0 f0 f0 f0.

  (** gyrometer.rs:56-75, accelerometer.rs:56-75, magnetometer.rs:56-82 *)
  Record Sensor := mkSensor {
    s_mat : M;          (** scale_and_axes_misalignment_correction / scale_and_soft_iron_correction *)
    s_bias : V;         (** static_biases / hard_iron_biases *)
    s_raw : V;          (** raw_measurements *)
    s_cor : V;          (** corrected_measurements *)
    s_initialized : bool
  }.
  Notation "'SS' X" := (ST Sensor AhrsError X) (at level 10).
  Definition on_mat {B} (c : ST M LinalgError B) : SS B :=
    sla (zoom s_mat (fun m s => mkSensor m (s_bias s) (s_raw s) (s_cor s) (s_initialized s)) c).
  Definition on_bias {B} (c : ST V LinalgError B) : SS B :=
    sla (zoom s_bias (fun v s => mkSensor (s_mat s) v (s_raw s) (s_cor s) (s_initialized s)) c).
  Definition on_raw {B} (c : ST V LinalgError B) : SS B :=
    sla (zoom s_raw (fun v s => mkSensor (s_mat s) (s_bias s) v (s_cor s) (s_initialized s)) c).
  Definition on_cor {B} (c : ST V LinalgError B) : SS B :=
    sla (zoom s_cor (fun v s => mkSensor (s_mat s) (s_bias s) (s_raw s) v (s_initialized s)) c).

  (** gyrometer.rs:79-106, accelerometer.rs:79-106, magnetometer.rs:86-113 *)
  Definition sensor_new : res AhrsError Sensor :=
    exec (on_mat (m_init 3 3 ;;! m_fill_identity) ;;!
          on_bias (v_init 3 ;;! v_fill f0) ;;!
          on_raw (v_init 3 ;;! v_fill f0) ;;!
          on_cor (v_init 3 ;;! v_fill f0))
         (mkSensor mnew vnew vnew vnew false).

  (** cells of the off-diagonal coefficients, in the order xy, xz, yx, yz, zx, zy:
      gyrometer.rs:114-119, accelerometer.rs:114-119, magnetometer.rs:121-126 *)
  Definition cells (k : kind) : (nat*nat) * (nat*nat) * (nat*nat) * (nat*nat) * (nat*nat) * (nat*nat) :=
    match k with
    | Gyr | Acc => ((1,0), (2,0), (0,1), (2,1), (0,2), (1,2))
    | Mag => ((0,1), (1,0), (0,2), (2,0), (1,2), (2,1))
    end.

  (** gyrometer.rs:109-126, accelerometer.rs:109-126, magnetometer.rs:116-133 *)
  Definition private_set_config (k : kind) (c : Config) : SS unit :=
    let '(xy, xz, yx, yz, zx, zy) := cells k in
    let setm (rc : nat * nat) (x : T) : SS unit := on_mat (m_set (fst rc) (snd rc) x) in
    setm (0,0) (cf_x c) ;;! setm (1,1) (cf_y c) ;;! setm (2,2) (cf_z c) ;;!
    setm xy (cf_xy c) ;;! setm xz (cf_xz c) ;;! setm yx (cf_yx c) ;;!
    setm yz (cf_yz c) ;;! setm zx (cf_zx c) ;;! setm zy (cf_zy c) ;;!
    on_bias (v_set 0 (cf_bx c)) ;;! on_bias (v_set 1 (cf_by c)) ;;! on_bias (v_set 2 (cf_bz c)).

  (** gyrometer.rs:129-139, accelerometer.rs:129-139, magnetometer.rs:136-146 *)
  Definition sensor_init (k : kind) (c : Config) : SS unit := fun self =>
    if s_initialized self then (self, Err (already_init k))
    else (private_set_config k c ;;!
          modify (fun s => mkSensor (s_mat s) (s_bias s) (s_raw s) (s_cor s) true)) self.

  (** gyrometer.rs:142-152, accelerometer.rs:142-152, magnetometer.rs:149-159 *)
  Definition sensor_set_config (k : kind) (c : Config) : SS unit := fun self =>
    if s_initialized self then private_set_config k c self
    else (self, Err (not_init k)).

  (** gyrometer.rs:155-181, accelerometer.rs:155-181, magnetometer.rs:162-188 *)
  Definition sensor_get_config (k : kind) (self : Sensor) : res AhrsError Config :=
    if s_initialized self then
      let '(xy, xz, yx, yz, zx, zy) := cells k in
      let get (rc : nat * nat) := m_get (s_mat self) (fst rc) (snd rc) in
      la (let? x := get (0,0) in let? y := get (1,1) in let? z := get (2,2) in
          let? vxy := get xy in let? vxz := get xz in let? vyx := get yx in
          let? vyz := get yz in let? vzx := get zx in let? vzy := get zy in
          let? bx := v_get (s_bias self) 0 in
          let? by_ := v_get (s_bias self) 1 in
          let? bz := v_get (s_bias self) 2 in
          Ok (mkConfig x y z vxy vxz vyx vyz vzx vzy bx by_ bz))
    else Err (not_init k).

  (** gyrometer.rs:184-191, accelerometer.rs:184-191, magnetometer.rs:191-198 *)
  Definition sensor_correct : SS unit :=
    let! raw := reads (fun s => Ok (s_raw s)) in
    let! bias := reads (fun s => Ok (s_bias s)) in
    let! mat := reads (fun s => Ok (s_mat s)) in
    on_cor (v_sub raw bias) ;;!
    let! cm := reads (fun s => la (v_convert_to_matrix (s_cor s))) in
    let! dup := lift (la (m_duplicate cm)) in
    let! cm := lift (la (exec (m_mul mat dup) cm)) in
    on_cor (m_get_col cm 0).

  (** gyrometer.rs:194-209, accelerometer.rs:194-209, magnetometer.rs:201-216 *)
  Definition sensor_update (k : kind) (x y z : T) : SS unit := fun self =>
    if negb (s_initialized self) then (self, Err (not_init k))
    else (on_raw (v_set 0 x) ;;! on_raw (v_set 1 y) ;;! on_raw (v_set 2 z) ;;!
          sensor_correct) self.

  (** gyrometer.rs:212-248, accelerometer.rs:212-248, magnetometer.rs:219-255 *)
  Definition sensor_get (k : kind) (axis : nat) (self : Sensor) : res AhrsError T :=
    if negb (s_initialized self) then Err (not_init k)
    else la (v_get (s_cor self) axis).
End F32.
