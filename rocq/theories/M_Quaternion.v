(** Model of quaternion/src/quaternion.rs (trait Quaternion for Vector<f32>). *)
From Coq Require Import List Arith ZArith NArith Bool.
From Verif Require Import M_Base M_Arith M_Utils M_Vector M_Matrix.
Import ListNotations.

Section F32.
  Context {A : Arith}.
  Notation V := (Vec T).
  Notation M := (Mat T).
  Notation "'SV' X" := (ST V LinalgError X) (at level 10).

  (** quaternion/src/quaternion.rs:82-89 *)
  Definition q_is_quaternion (self : V) : res LinalgError bool :=
    let? n := v_get_rows self in
    if negb (n =? 4) then Ok false else Ok true.

  (** the guard [if !self.is_quaternion()? { return Err(InvalidSize) }] *)
  Definition q_guard (self : V) : res LinalgError unit :=
    let? b := q_is_quaternion self in
    if negb b then Err InvalidSize else Ok tt.

  (** quaternion/src/quaternion.rs:93-107 *)
  Definition q_is_real (self : V) : res LinalgError bool :=
    let? _ := q_guard self in
    rall (range 1 4) (fun row =>
      let? x := v_get self row in allclose_l x f0 EPSILON).

  (** quaternion/src/quaternion.rs:111-123 *)
  Definition q_is_pure (self : V) : res LinalgError bool :=
    let? _ := q_guard self in
    let? x := v_get self 0 in allclose_l x f0 EPSILON.

  (** quaternion/src/quaternion.rs:126-138 *)
  Definition q_is_versor (self : V) : res LinalgError bool :=
    let? _ := q_guard self in
    let? n := v_calculate_norm self in allclose_l n f1 EPSILON.

  (** quaternion/src/quaternion.rs:142-161 *)
  Definition q_is_identity (self : V) : res LinalgError bool :=
    let? _ := q_guard self in
    let? x := v_get self 0 in
    let? close := allclose_l x f1 EPSILON in
    if negb close then Ok false
    else rall (range 1 4) (fun row =>
           let? x := v_get self row in allclose_l x f0 EPSILON).

  (** quaternion/src/quaternion.rs:164-173, 186-195, 208-217, 230-239 *)
  Definition q_set (i : nat) (x : T) : SV unit :=
    reads q_guard ;;! v_set i x.
  Definition q_set_qw := q_set 0.
  Definition q_set_qx := q_set 1.
  Definition q_set_qy := q_set 2.
  Definition q_set_qz := q_set 3.

  (** quaternion/src/quaternion.rs:176-183, 198-205, 220-227, 242-249 *)
  Definition q_get (self : V) (i : nat) : res LinalgError T :=
    let? _ := q_guard self in v_get self i.
  Definition q_get_qw (self : V) := q_get self 0.
  Definition q_get_qx (self : V) := q_get self 1.
  Definition q_get_qy (self : V) := q_get self 2.
  Definition q_get_qz (self : V) := q_get self 3.

  (** quaternion/src/quaternion.rs:252-270 *)
  Definition q_get_vector_part (self : V) : res LinalgError V :=
    let? _ := q_guard self in
    let? qv := exec (v_init 3) vnew in
    let? x := v_get self 1 in
    let? y := v_get self 2 in
    let? z := v_get self 3 in
    exec (v_set 0 x ;;! v_set 1 y ;;! v_set 2 z) qv.

  (** four consecutive [set_element] *)
  Definition set4 (qw qx qy qz : T) : SV unit :=
    v_set 0 qw ;;! v_set 1 qx ;;! v_set 2 qy ;;! v_set 3 qz.

  (** quaternion/src/quaternion.rs:273-286 *)
  Definition q_fillq (qw qx qy qz : T) : SV unit :=
    reads q_guard ;;! set4 qw qx qy qz.

  (** quaternion/src/quaternion.rs:289-306 *)
  Definition q_conjugate : SV unit :=
    reads q_guard ;;!
    let! qx := reads (fun s => v_get s 1) in
    let! qy := reads (fun s => v_get s 2) in
    let! qz := reads (fun s => v_get s 3) in
    v_set 1 (- qx)%F ;;! v_set 2 (- qy)%F ;;! v_set 3 (- qz)%F.

  (** quaternion/src/quaternion.rs:308-313 *)
  Definition q_conjugate_new (self : V) : res LinalgError V :=
    let? q_conj := v_duplicate self in
    exec q_conjugate q_conj.

  (** the product formulas, quaternion/src/quaternion.rs:323-338 and 356-371 *)
  Definition q_product (quat1 quat2 : V) : res LinalgError (T * T * T * T) :=
    let? qw1 := v_get quat1 0 in
    let? qx1 := v_get quat1 1 in
    let? qy1 := v_get quat1 2 in
    let? qz1 := v_get quat1 3 in
    let? qw2 := v_get quat2 0 in
    let? qx2 := v_get quat2 1 in
    let? qy2 := v_get quat2 2 in
    let? qz2 := v_get quat2 3 in
    Ok (qw1*qw2 - qx1*qx2 - qy1*qy2 - qz1*qz2,
        qw1*qx2 + qx1*qw2 - qz1*qy2 + qy1*qz2,
        qw1*qy2 + qz1*qx2 + qw2*qy1 - qx1*qz2,
        qw1*qz2 - qy1*qx2 + qx1*qy2 + qw2*qz1)%F.

  (** quaternion/src/quaternion.rs:316-347 *)
  Definition q_mul (quat1 quat2 : V) : SV unit :=
    reads q_guard ;;!
    lift (q_guard quat1) ;;!
    lift (q_guard quat2) ;;!
    let! (qw, qx, qy, qz) := lift (q_product quat1 quat2) in
    set4 qw qx qy qz.

  (** quaternion/src/quaternion.rs:349-383 *)
  Definition q_mul_new (self other : V) : res LinalgError V :=
    let? _ := q_guard self in
    let? _ := q_guard other in
    let? (qw, qx, qy, qz) := q_product self other in
    exec (v_init 4 ;;! set4 qw qx qy qz) vnew.

  (** quaternion/src/quaternion.rs:386-390 *)
  Definition q_fill_identity : SV unit := q_fillq f1 f0 f0 f0.

  (** quaternion/src/quaternion.rs:393-404 *)
  Definition q_invert : SV unit :=
    let! norm := reads v_calculate_norm in
    q_conjugate ;;!
    if (norm >? EPSILON)%F then v_mul_by_scalar_in_place (f1 / (norm * norm))%F
    else q_fillq f0 f0 f0 f0.

  (** quaternion/src/quaternion.rs:407-442 *)
  Definition q_convert_to_dcm (self : V) : res LinalgError M :=
    let? dcm := exec (m_init 3 3) mnew in
    let? qw := q_get_qw self in
    let? qx := q_get_qx self in
    let? qy := q_get_qy self in
    let? qz := q_get_qz self in
    exec (m_set 0 0 (qw*qw + qx*qx - qy*qy - qz*qz)%F ;;!
          m_set 0 1 (f2*(qx*qy - qw*qz))%F ;;!
          m_set 0 2 (f2*(qx*qz + qw*qy))%F ;;!
          m_set 1 0 (f2*(qx*qy + qw*qz))%F ;;!
          m_set 1 1 (f1 - f2*(qx*qx + qz*qz))%F ;;!
          m_set 1 2 (f2*(qy*qz - qw*qx))%F ;;!
          m_set 2 0 (f2*(qx*qz - qw*qy))%F ;;!
          m_set 2 1 (f2*(qw*qx + qy*qz))%F ;;!
          m_set 2 2 (f1 - f2*(qx*qx + qy*qy))%F) dcm.

  (** quaternion/src/quaternion.rs:453-478; is_pure tests the updated quaternion *)
  Definition q_exp : SV unit :=
    let! real := reads q_is_real in
    if real then q_fillq f1 f0 f0 f0
    else
      let! qw := reads (fun s => v_get s 0) in
      let! qv := reads q_get_vector_part in
      let! qv_norm := lift (v_calculate_norm qv) in
      let! qv := lift (exec v_normalize qv) in
      let! qv := lift (exec (v_mul_by_scalar_in_place (fsin qv_norm)) qv) in
      let! x := lift (v_get qv 0) in
      let! y := lift (v_get qv 1) in
      let! z := lift (v_get qv 2) in
      q_fillq (fcos qv_norm) x y z ;;!
      let! pure := reads q_is_pure in
      if pure then sret tt
      else v_mul_by_scalar_in_place (fpow E_ qw).

  (** quaternion/src/quaternion.rs:481-508; is_pure tests the original quaternion *)
  Definition q_exp_new (self : V) : res LinalgError V :=
    let? q_exp := v_duplicate self in
    let? real := q_is_real self in
    if real then exec (q_fillq f1 f0 f0 f0) q_exp
    else
      let? qw := v_get self 0 in
      let? qv := q_get_vector_part self in
      let? qv_norm := v_calculate_norm qv in
      let? qv := exec v_normalize qv in
      let? qv := exec (v_mul_by_scalar_in_place (fsin qv_norm)) qv in
      let? x := v_get qv 0 in
      let? y := v_get qv 1 in
      let? z := v_get qv 2 in
      let? q_exp := exec (q_fillq (fcos qv_norm) x y z) q_exp in
      let? pure := q_is_pure self in
      if pure then Ok q_exp
      else exec (v_mul_by_scalar_in_place (fpow E_ qw)) q_exp.

  (** quaternion/src/quaternion.rs:513-573.  [diag(None)] is called with overflow
      checks; the answer does not depend on them (the arguments are small). *)
  Definition q_hughes (dcm : M) : SV unit :=
    reads q_guard ;;!
    let! trace := lift (m_trace dcm) in
    let trace := clip trace fm1 f3 in
    let! close := lift (allclose_l trace f3 EPSILON) in
    if close then q_fillq f1 f0 f0 f0
    else
      let n := (fhalf * fsqrt (f1 + trace))%F in
      let! zero := lift (allclose_l n f0 EPSILON) in
      let! (qx, qy, qz) :=
        (if zero then
           let! e := lift (m_diag true dcm None) in
           let! e := lift (exec (v_add_scalar_in_place f1) e) in
           let! e := lift (exec (v_mul_by_scalar_in_place fhalf) e) in
           let! e := lift (exec (v_power_elements fhalf) e) in
           let! x := lift (v_get e 0) in
           let! y := lift (v_get e 1) in
           let! z := lift (v_get e 2) in
           sret (x, y, z)
         else
           let! r23 := lift (m_get dcm 1 2) in
           let! r32 := lift (m_get dcm 2 1) in
           let! r31 := lift (m_get dcm 2 0) in
           let! r13 := lift (m_get dcm 0 2) in
           let! r12 := lift (m_get dcm 0 1) in
           let! r21 := lift (m_get dcm 1 0) in
           sret ((lit 1 4 * (r23 - r32)) / n, (lit 1 4 * (r31 - r13)) / n,
                 (lit 1 4 * (r12 - r21)) / n)%F) in
      set4 n qx qy qz.

  (** quaternion/src/quaternion.rs:578-622 *)
  Definition q_chiaverini (dcm : M) : SV unit :=
    reads q_guard ;;!
    let! trace := lift (m_trace dcm) in
    let trace := clip trace fm1 f3 in
    let! r32 := lift (m_get dcm 2 1) in
    let! r23 := lift (m_get dcm 1 2) in
    let! r11 := lift (m_get dcm 0 0) in
    let! r22 := lift (m_get dcm 1 1) in
    let! r33 := lift (m_get dcm 2 2) in
    let! r13 := lift (m_get dcm 0 2) in
    let! r31 := lift (m_get dcm 2 0) in
    let! r21 := lift (m_get dcm 1 0) in
    let! r12 := lift (m_get dcm 0 1) in
    let qw := (fhalf * fsqrt (trace + f1))%F in
    let qx := (fhalf * sign (r32 - r23) * fsqrt (clip (r11 - r22 - r33) fm1 f1 + f1))%F in
    let qy := (fhalf * sign (r13 - r31) * fsqrt (clip (r22 - r33 - r11) fm1 f1 + f1))%F in
    let qz := (fhalf * sign (r21 - r12) * fsqrt (clip (r33 - r11 - r22) fm1 f1 + f1))%F in
    set4 qw qx qy qz ;;!
    v_normalize.

  (** one component of Sarabandi's method, quaternion/src/quaternion.rs:660-709 *)
  Definition sarabandi_component (d eta n1 n2 n3 : T) : T :=
    (if d >? eta then fhalf * fsqrt (f1 + d)
     else fhalf * fsqrt ((n1*n1 + n2*n2 + n3*n3) / (f3 - d)))%F.

  (** quaternion/src/quaternion.rs:627-723 *)
  Definition q_sarabandi (dcm : M) (eta : option T) : SV unit :=
    reads q_guard ;;!
    let eta := match eta with Some e => e | None => f0 end in
    let! r11 := lift (m_get dcm 0 0) in
    let! r12 := lift (m_get dcm 0 1) in
    let! r13 := lift (m_get dcm 0 2) in
    let! r21 := lift (m_get dcm 1 0) in
    let! r22 := lift (m_get dcm 1 1) in
    let! r23 := lift (m_get dcm 1 2) in
    let! r31 := lift (m_get dcm 2 0) in
    let! r32 := lift (m_get dcm 2 1) in
    let! r33 := lift (m_get dcm 2 2) in
    let qw := sarabandi_component (r11 + r22 + r33)%F eta
                (r32 - r23)%F (r13 - r31)%F (r21 - r12)%F in
    let qx := sarabandi_component (r11 - r22 - r33)%F eta
                (r32 - r23)%F (r12 + r21)%F (r31 + r13)%F in
    let qy := sarabandi_component (- r11 + r22 - r33)%F eta
                (r13 - r31)%F (r12 + r21)%F (r23 + r32)%F in
    let qz := sarabandi_component (- r11 - r22 + r33)%F eta
                (r21 - r12)%F (r31 + r13)%F (r23 + r32)%F in
    set4 qw qx qy qz.

  (** quaternion/src/quaternion.rs:727-752 *)
  Definition q_convert_to_euler (self : V) : res LinalgError (T * T * T) :=
    let? qw := q_get_qw self in
    let? qx := q_get_qx self in
    let? qy := q_get_qy self in
    let? qz := q_get_qz self in
    Ok (fatan2 (f2*(qw*qx + qy*qz)) (f1 - f2*(qx*qx + qy*qy)),
        fasin (f2*(qw*qy - qz*qx)),
        fatan2 (f2*(qw*qz + qx*qy)) (f1 - f2*(qy*qy + qz*qz)))%F.

  (** the guard on [vect], quaternion/src/quaternion.rs:766-768 and 791-793 *)
  Definition q_guard3 (vect : V) : res LinalgError unit :=
    let? n := v_get_rows vect in
    if negb (n =? 3) then Err InvalidSize else Ok tt.

  (** quaternion/src/quaternion.rs:764-787 *)
  Definition q_rotate (self vect : V) : res LinalgError V :=
    let? _ := q_guard3 vect in
    let? dcm := q_convert_to_dcm self in
    let? vm := v_convert_to_matrix vect in
    let? rotated := m_mul_new dcm vm in
    m_col_to_vector rotated 0.

  (** quaternion/src/quaternion.rs:789-800; mutates [vect] *)
  Definition q_rotate_in_place (self : V) : SV unit :=
    reads q_guard3 ;;!
    let! dcm := lift (q_convert_to_dcm self) in
    let! vm := reads v_convert_to_matrix in
    let! temp := lift (m_mul_new dcm vm) in
    m_get_col temp 0.
End F32.
