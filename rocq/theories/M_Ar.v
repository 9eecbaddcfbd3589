(** Model of open_ahrs/src/ar.rs, davenport.rs and of generate_random_attitudes
    (open_ahrs/src/common.rs). *)
From Coq Require Import List Arith ZArith NArith Bool.
From Verif Require Import M_Base M_Arith M_Utils M_Vector M_Matrix M_Quaternion M_Sensors.
Import ListNotations.

(** open_ahrs/src/common.rs:11-17 *)
Inductive NIM := ClosedForm | TaylorSeries | Euler | AdamsBashforth | RungeKutta.

Section F32.
  Context {A : Arith}.
  Notation V := (Vec T).
  Notation M := (Mat T).

  (** open_ahrs/src/ar.rs:16-26 *)
  Record AR := mkAR {
    ar_gyr : Sensor;
    ar_attitude : V;
    ar_ts : T;
    ar_method : NIM;
    ar_order : nat;
    ar_initialized : bool
  }.
  Notation "'SA' X" := (ST AR AhrsError X) (at level 10).
  Definition ar_on_gyr {B} (c : ST Sensor AhrsError B) : SA B :=
    zoom ar_gyr (fun g s => mkAR g (ar_attitude s) (ar_ts s) (ar_method s) (ar_order s) (ar_initialized s)) c.
  Definition ar_on_attitude {B} (c : ST V LinalgError B) : SA B :=
    sla (zoom ar_attitude (fun v s => mkAR (ar_gyr s) v (ar_ts s) (ar_method s) (ar_order s) (ar_initialized s)) c).

  (** open_ahrs/src/ar.rs:30-45 *)
  Definition ar_new : res AhrsError AR :=
    let? gyr := sensor_new in
    Ok (mkAR gyr vnew (lit 1 100) ClosedForm 1 false).

  (** open_ahrs/src/ar.rs:48-72 *)
  Definition ar_init (qw qx qy qz : T) (gyrometer_config : Config) (ts : T)
    (method : NIM) (order : nat) : SA unit := fun self =>
    if ar_initialized self then (self, Err ARFilterAlreadyInit)
    else (ar_on_gyr (sensor_init Gyr gyrometer_config) ;;!
          ar_on_attitude (v_init 4) ;;!
          ar_on_attitude (q_fillq qw qx qy qz) ;;!
          modify (fun s => mkAR (ar_gyr s) (ar_attitude s) ts method order true)) self.

  (** open_ahrs/src/ar.rs:123-132: the Taylor loop on [temp] *)
  Definition taylor_terms (ck : bool) (omega : M) (order : nat) : ST M AhrsError unit :=
    for_ (range 1 (order + 1)) (fun n =>
      let! s := lift (la (m_duplicate omega)) in
      let! s := lift (la (exec (m_power_elements (fofnat n)) s)) in
      let! factor := lift (la (factorial ck n)) in
      let! s := lift (la (exec (m_mul_by_scalar_in_place (f1 / fofN factor)%F) s)) in
      sla (m_add_in_place s)).

  (** open_ahrs/src/ar.rs:110-160: new components, for a rotating system *)
  Definition ar_step (ck : bool) (method : NIM) (order : nat) (ts : T) (attitude : V)
    (temp : M) (w : V) (w_norm p q r : T) : res AhrsError (T * T * T * T) :=
    let? qw := la (q_get_qw attitude) in
    let? qx := la (q_get_qx attitude) in
    let? qy := la (q_get_qy attitude) in
    let? qz := la (q_get_qz attitude) in
    let theta := (w_norm * ts / f2)%F in
    let? omega := calculate_omega_matrix p q r in
    let apply (temp : M) :=
      la (let? am := v_convert_to_matrix attitude in
          let? a := m_mul_new temp am in
          let? qw := m_get a 0 0 in
          let? qx := m_get a 1 0 in
          let? qy := m_get a 2 0 in
          let? qz := m_get a 3 0 in Ok (qw, qx, qy, qz)) in
    match method with
    | ClosedForm =>
        let? temp := la (exec (m_mul_by_scalar_in_place (fcos theta)) temp) in
        let? omega := la (exec (m_mul_by_scalar_in_place (fsin theta / w_norm)%F) omega) in
        let? temp := la (exec (m_add_in_place omega) temp) in
        apply temp
    | TaylorSeries =>
        let? omega := la (exec (m_mul_by_scalar_in_place (fhalf * ts)%F) omega) in
        let? temp := exec (taylor_terms ck omega order) temp in
        apply temp
    | Euler =>
        la (let? w := exec (v_reinit 4 ;;! q_fillq f0 p q r ;;!
                            v_mul_by_scalar_in_place (fhalf * ts)%F) w in
            let? delta := exec (v_init 4 ;;! q_mul w attitude) vnew in
            let? dw := q_get_qw delta in
            let? dx := q_get_qx delta in
            let? dy := q_get_qy delta in
            let? dz := q_get_qz delta in
            Ok (qw + dw, qx + dx, qy + dy, qz + dz)%F)
    | AdamsBashforth | RungeKutta => Err ARMethodError
    end.

  (** open_ahrs/src/ar.rs:75-169.  The components of the previous attitude are read
      before the norm test (lines 94-97). *)
  Definition ar_update (ck : bool) (gx gy gz : T) : SA unit := fun self =>
    if negb (ar_initialized self) then (self, Err ARFilterNotInit)
    else
      (let! temp := lift (la (exec (m_init 4 4 ;;! m_fill_identity) mnew)) in
       ar_on_gyr (sensor_update Gyr gx gy gz) ;;!
       let! p := reads (fun s => sensor_get Gyr 0 (ar_gyr s)) in
       let! q := reads (fun s => sensor_get Gyr 1 (ar_gyr s)) in
       let! r := reads (fun s => sensor_get Gyr 2 (ar_gyr s)) in
       reads (fun s => la (q_get_qw (ar_attitude s))) ;;!
       reads (fun s => la (q_get_qx (ar_attitude s))) ;;!
       reads (fun s => la (q_get_qy (ar_attitude s))) ;;!
       reads (fun s => la (q_get_qz (ar_attitude s))) ;;!
       let! w := lift (la (exec (v_init 3 ;;! v_set 0 p ;;! v_set 1 q ;;! v_set 2 r) vnew)) in
       let! w_norm := lift (la (v_calculate_norm w)) in
       if (w_norm >? EPSILON)%F then
         let! (qw, qx, qy, qz) := reads (fun s =>
           ar_step ck (ar_method s) (ar_order s) (ar_ts s) (ar_attitude s) temp w w_norm p q r) in
         ar_on_attitude (q_fillq qw qx qy qz) ;;!
         ar_on_attitude v_normalize
       else sret tt) self.

  (** open_ahrs/src/ar.rs:171-180 *)
  Definition ar_get_attitude (self : AR) : res AhrsError V :=
    if negb (ar_initialized self) then Err ARFilterNotInit
    else la (v_duplicate (ar_attitude self)).

  (** open_ahrs/src/davenport.rs:18-32 *)
  Record Davenport := mkDav {
    dv_acc : Sensor;
    dv_mag : Sensor;
    dv_attitude : V;
    dv_w1 : T;
    dv_w2 : T;
    dv_g : T;
    dv_mdip : T;
    dv_initialized : bool
  }.
  Notation "'SD' X" := (ST Davenport AhrsError X) (at level 10).
  Definition dv_on_acc {B} (c : ST Sensor AhrsError B) : SD B :=
    zoom dv_acc (fun a s => mkDav a (dv_mag s) (dv_attitude s) (dv_w1 s) (dv_w2 s) (dv_g s) (dv_mdip s) (dv_initialized s)) c.
  Definition dv_on_mag {B} (c : ST Sensor AhrsError B) : SD B :=
    zoom dv_mag (fun m s => mkDav (dv_acc s) m (dv_attitude s) (dv_w1 s) (dv_w2 s) (dv_g s) (dv_mdip s) (dv_initialized s)) c.
  Definition dv_on_attitude {B} (c : ST V LinalgError B) : SD B :=
    sla (zoom dv_attitude (fun v s => mkDav (dv_acc s) (dv_mag s) v (dv_w1 s) (dv_w2 s) (dv_g s) (dv_mdip s) (dv_initialized s)) c).

  (** open_ahrs/src/davenport.rs:36-55 *)
  Definition dv_new : res AhrsError Davenport :=
    let? acc := sensor_new in
    let? mag := sensor_new in
    Ok (mkDav acc mag vnew f1 f1 (lit 981 100) f0 false).

  (** [o.unwrap_or(d)] *)
  Definition unwrap_or {B} (o : option B) (d : B) : B := match o with Some x => x | None => d end.

  (** open_ahrs/src/davenport.rs:58-91 *)
  Definition dv_init (w1 w2 : T) (g mdip : option T) : SD unit := fun self =>
    if dv_initialized self then (self, Err DavenportFilterAlreadyInit)
    else (dv_on_attitude (v_init 4) ;;!
          dv_on_attitude q_fill_identity ;;!
          (if negb (in_range w1 EPSILON f1) || negb (in_range w2 EPSILON f1)
           then sthrow InvalidDavenportWeights else sret tt) ;;!
          modify (fun s => mkDav (dv_acc s) (dv_mag s) (dv_attitude s) w1 w2
                             (unwrap_or g (dv_g s)) (unwrap_or mdip (dv_mdip s)) true)) self.

  (** open_ahrs/src/davenport.rs:94-184 *)
  Definition dv_update (ax ay az mx my mz : T) : SD unit := fun self =>
    if negb (dv_initialized self) then (self, Err DavenportFilterNotInit)
    else
      (dv_on_acc (sensor_update Acc ax ay az) ;;!
       dv_on_mag (sensor_update Mag mx my mz) ;;!
       let! ax := reads (fun s => sensor_get Acc 0 (dv_acc s)) in
       let! ay := reads (fun s => sensor_get Acc 1 (dv_acc s)) in
       let! az := reads (fun s => sensor_get Acc 2 (dv_acc s)) in
       let! a_local := lift (la (exec (v_init 3 ;;! v_set 0 ax ;;! v_set 1 ay ;;! v_set 2 az) vnew)) in
       let! mx := reads (fun s => sensor_get Mag 0 (dv_mag s)) in
       let! my := reads (fun s => sensor_get Mag 1 (dv_mag s)) in
       let! mz := reads (fun s => sensor_get Mag 2 (dv_mag s)) in
       let! m_local := lift (la (exec (v_init 3 ;;! v_set 0 mx ;;! v_set 1 my ;;! v_set 2 mz) vnew)) in
       let! g_q := reads (fun s => la (exec (v_init 3 ;;! v_set 0 f0 ;;! v_set 0 f0 ;;!
                                             v_set 0 (- dv_g s)%F) vnew)) in
       let! m_q := reads (fun s => la (exec (v_init 3 ;;! v_set 0 (fcos (dv_mdip s)) ;;! v_set 0 f0 ;;!
                                             v_set 0 (- fsin (dv_mdip s))%F) vnew)) in
       let! b1 := lift (la (v_outer_product a_local g_q)) in
       let! b2 := lift (la (v_outer_product m_local m_q)) in
       let! b1 := reads (fun s => la (exec (m_mul_by_scalar_in_place (dv_w1 s)) b1)) in
       let! b2 := reads (fun s => la (exec (m_mul_by_scalar_in_place (dv_w2 s)) b2)) in
       let! b := lift (la (m_add_new b1 b2)) in
       let! sigma := lift (la (m_trace b)) in
       let! z1 := lift (la (let? x := m_get b 1 2 in let? y := m_get b 2 1 in Ok (x - y)%F)) in
       let! z2 := lift (la (let? x := m_get b 2 0 in let? y := m_get b 0 2 in Ok (x - y)%F)) in
       let! z3 := lift (la (let? x := m_get b 0 1 in let? y := m_get b 1 0 in Ok (x - y)%F)) in
       let! z := lift (la (exec (v_init 3 ;;! v_set 0 z1 ;;! v_set 1 z2 ;;! v_set 2 z3) vnew)) in
       let! k := lift (la (exec (m_init 4 4 ;;! m_fill f0 ;;! m_set 0 0 sigma) mnew)) in
       sret tt) self.

  (** open_ahrs/src/common.rs:73-163 (feature std).  [draws n] is the n-th u64 produced
      by [small_rng.next_u64()]; state: attitudes and previous_quat. *)
  Definition u64_max : N := 18446744073709551615.
  Definition gra_draw (draws : nat -> N) (i : nat) : T := fofN (draws i / u64_max)%N.
  Definition gra_step (draws : nat -> N) (n : nat) : ST (M * V) LinalgError unit :=
    let u1 := gra_draw draws (3 * n) in
    let u2 := gra_draw draws (3 * n + 1) in
    let u3 := gra_draw draws (3 * n + 2) in
    let s1 := fsqrt (f1 - u1)%F in
    let s2 := fsqrt u1 in
    let t1 := (f2 * PI_ * u2)%F in
    let t2 := (f2 * PI_ * u3)%F in
    let qw := (s2 * fcos t2)%F in
    let qx := (s1 * fsin t1)%F in
    let qy := (s1 * fcos t1)%F in
    let qz := (s2 * fsin t2)%F in
    let! actual := lift (exec (v_init 4 ;;! q_fillq qw qx qy qz) vnew) in
    let! previous := reads (fun s => Ok (snd s)) in
    let! scalar := lift (v_dot_product actual previous) in
    let theta := facos scalar in
    let max_angle := (PI_ / lit 64 1)%F in
    let! (qw, qx, qy, qz) :=
      (if (fabs theta >? max_angle)%F then
         let scale := (max_angle / fabs theta)%F in
         let! iq := lift (exec (v_init 4 ;;! v_slerp previous actual scale) vnew) in
         let! qw := lift (q_get_qw iq) in
         let! qx := lift (q_get_qx iq) in
         let! qy := lift (q_get_qy iq) in
         let! qz := lift (q_get_qz iq) in
         zoom snd (fun v s => (fst s, v)) (v_copy_from iq) ;;!
         sret (qw, qx, qy, qz)
       else
         zoom snd (fun v s => (fst s, v)) (v_copy_from actual) ;;!
         sret (qw, qx, qy, qz)) in
    zoom fst (fun m s => (m, snd s))
      (m_set 0 n qw ;;! m_set 1 n qx ;;! m_set 2 n qy ;;! m_set 3 n qz).
  Definition generate_random_attitudes (draws : nat -> N) (number : nat) : res LinalgError M :=
    let? _ := is_valid_cols_number number in
    let? attitudes := exec (m_init 4 number) mnew in
    let? previous := exec (v_init 4 ;;! q_fill_identity) vnew in
    let? s := exec (for_ (range 0 number) (gra_step draws)) (attitudes, previous) in
    Ok (fst s).
End F32.
