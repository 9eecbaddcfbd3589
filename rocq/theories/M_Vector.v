(** Model of linalg/src/vector.rs (the parts that need matrices are in M_Matrix.v). *)
From Coq Require Import List Arith ZArith NArith Bool.
From Verif Require Import M_Base M_Arith M_Utils.
Import ListNotations.

(** linalg/src/vector.rs:12-16 *)
Record Vec (X : Type) := mkVec {
  v_rows : nat;
  v_elems : list X;         (** [T; M_MAX] *)
  v_initialized : bool
}.
Arguments mkVec {X} _ _ _.
Arguments v_rows {X} _.
Arguments v_elems {X} _.
Arguments v_initialized {X} _.

Section Any.
  Variable X : Type.
  Variable dflt : X.   (** T::default() *)

  (** linalg/src/vector.rs:20-26 *)
  Definition v_new : Vec X := mkVec 0 (repeat dflt M_MAX) false.

  (** linalg/src/vector.rs:29-42 *)
  Definition v_init (rows : nat) : ST (Vec X) LinalgError unit := fun self =>
    if v_initialized self then (self, Err AlreadyInit)
    else (lift (is_valid_rows_number rows) ;;!
          modify (fun v => mkVec rows (v_elems v) true)) self.

  (** linalg/src/vector.rs:45-57 *)
  Definition v_reinit (rows : nat) : ST (Vec X) LinalgError unit := fun self =>
    if negb (v_initialized self) then (self, Err NotInit)
    else (modify (fun v => mkVec (v_rows v) (v_elems v) false) ;;!
          v_init rows) self.

  (** linalg/src/vector.rs:60-68 *)
  Definition v_get_rows (self : Vec X) : res LinalgError nat :=
    if negb (v_initialized self) then Err NotInit else Ok (v_rows self).

  (** linalg/src/vector.rs:92-94 *)
  Definition v_is_initialized (self : Vec X) : bool := v_initialized self.

  (** linalg/src/vector.rs:113-126 (u8) and 148-160 (f32): same text *)
  Definition v_get (self : Vec X) (row : nat) : res LinalgError X :=
    if negb (v_initialized self) then Err NotInit
    else let? _ := is_valid_row row (v_rows self) in
         arr_get (v_elems self) row.

  (** [self.elements[row as usize] = value] *)
  Definition v_store (row : nat) (value : X) : ST (Vec X) LinalgError unit := fun self =>
    match arr_set (E:=LinalgError) (v_elems self) row value with
    | Ok e => (mkVec (v_rows self) e (v_initialized self), Ok tt)
    | Err e => (self, Err e)
    | Panic => (self, Panic)
    end.
End Any.
Arguments v_init {X} _ _.
Arguments v_reinit {X} _ _.
Arguments v_get_rows {X} _.
Arguments v_is_initialized {X} _.
Arguments v_get {X} _ _.
Arguments v_store {X} _ _ _.

(** linalg/src/vector.rs:99-111 (Vector<u8>) *)
Definition vu_set (row value : nat) : ST (Vec nat) LinalgError unit := fun self =>
  if negb (v_initialized self) then (self, Err NotInit)
  else (lift (is_valid_row row (v_rows self)) ;;!
        v_store row value) self.
Definition vu_new : Vec nat := v_new nat 0.

Section F32.
  Context {A : Arith}.
  Notation V := (Vec T).
  Notation "'SV' X" := (ST V LinalgError X) (at level 10).

  Definition vnew : V := v_new T f0.

  (** linalg/src/vector.rs:131-145 *)
  Definition v_set (row : nat) (value : T) : SV unit := fun self =>
    if negb (v_initialized self) then (self, Err NotInit)
    else (lift (map_err UtilsErr (is_valid_value value)) ;;!
          lift (is_valid_row row (v_rows self)) ;;!
          v_store row value) self.

  (** linalg/src/vector.rs:177-184 *)
  Definition v_fill (value : T) : SV unit := fun self =>
    for_ (range 0 (v_rows self)) (fun row => v_set row value) self.

  (** linalg/src/vector.rs:187-199 *)
  Definition v_is_same_size_as (self other : V) : res LinalgError bool :=
    if negb (v_initialized self) || negb (v_initialized other) then Err NotInit
    else if negb (v_rows self =? v_rows other) then Ok false else Ok true.

  (** linalg/src/vector.rs:202-222 *)
  Definition v_is_equal_to (self other : V) (deviation : T) : res LinalgError bool :=
    let? same := v_is_same_size_as self other in
    if negb same then Ok false
    else rall (range 0 (v_rows self)) (fun row =>
           let? element := v_get self row in
           let? other_element := v_get other row in
           allclose_l element other_element deviation).

  (** the guard [if !self.is_same_size_as(other)? { return Err(NotSameSize) }] *)
  Definition v_guard_same (other : V) : SV unit := fun self =>
    (let! same := lift (v_is_same_size_as self other) in
     if negb same then sthrow NotSameSize else sret tt) self.
  (** the guard [if !self.is_same_size_as(a)? || !self.is_same_size_as(b)? {..}] *)
  Definition v_guard_same2 (a b : V) : SV unit := fun self =>
    (let! same1 := lift (v_is_same_size_as self a) in
     if negb same1 then sthrow NotSameSize
     else let! same2 := lift (v_is_same_size_as self b) in
          if negb same2 then sthrow NotSameSize else sret tt) self.
  (** [for row in 0..self.rows { self.set_element(row, e(row)?)? }], the value being
      computed from the current state of [self] *)
  Definition v_loop (e : V -> nat -> res LinalgError T) : SV unit := fun self =>
    for_ (range 0 (v_rows self)) (fun row =>
      let! x := reads (fun v => e v row) in
      v_set row x) self.

  (** linalg/src/vector.rs:225-238 *)
  Definition v_copy_from (other : V) : SV unit :=
    v_guard_same other ;;!
    v_loop (fun _ row => v_get other row).

  (** linalg/src/vector.rs:241-248 *)
  Definition v_duplicate (self : V) : res LinalgError V :=
    exec (v_init (v_rows self) ;;! v_copy_from self) vnew.

  (** linalg/src/vector.rs:251-266 *)
  Definition v_add (vector1 vector2 : V) : SV unit :=
    v_guard_same2 vector1 vector2 ;;!
    v_loop (fun _ row => let? a := v_get vector1 row in
                         let? b := v_get vector2 row in Ok (a + b)%F).

  (** linalg/src/vector.rs:269-284 *)
  Definition v_add_in_place (other : V) : SV unit :=
    v_guard_same other ;;!
    v_loop (fun self row => let? a := v_get self row in
                            let? b := v_get other row in Ok (a + b)%F).

  (** linalg/src/vector.rs:287-300 *)
  Definition v_add_new (self other : V) : res LinalgError V :=
    let? same := v_is_same_size_as self other in
    if negb same then Err NotSameSize
    else exec (v_init (v_rows self) ;;! v_add self other) vnew.

  (** linalg/src/vector.rs:303-318 *)
  Definition v_add_scalar (other : V) (scalar : T) : SV unit :=
    v_guard_same other ;;!
    v_loop (fun _ row => let? a := v_get other row in Ok (a + scalar)%F).

  (** linalg/src/vector.rs:321-330 *)
  Definition v_add_scalar_in_place (scalar : T) : SV unit :=
    v_loop (fun self row => let? a := v_get self row in Ok (a + scalar)%F).

  (** linalg/src/vector.rs:333-346 *)
  Definition v_add_scalar_new (self : V) (scalar : T) : res LinalgError V :=
    if negb (v_initialized self) then Err NotInit
    else exec (v_init (v_rows self) ;;! v_add_scalar self scalar) vnew.

  (** linalg/src/vector.rs:349-364 *)
  Definition v_sub (vector1 vector2 : V) : SV unit :=
    v_guard_same2 vector1 vector2 ;;!
    v_loop (fun _ row => let? a := v_get vector1 row in
                         let? b := v_get vector2 row in Ok (a - b)%F).

  (** linalg/src/vector.rs:367-382 *)
  Definition v_sub_in_place (other : V) : SV unit :=
    v_guard_same other ;;!
    v_loop (fun self row => let? a := v_get self row in
                            let? b := v_get other row in Ok (a - b)%F).

  (** linalg/src/vector.rs:385-398 *)
  Definition v_sub_new (self other : V) : res LinalgError V :=
    let? same := v_is_same_size_as self other in
    if negb same then Err NotSameSize
    else exec (v_init (v_rows self) ;;! v_sub self other) vnew.

  (** linalg/src/vector.rs:401-416 *)
  Definition v_sub_scalar (other : V) (scalar : T) : SV unit :=
    v_guard_same other ;;!
    v_loop (fun _ row => let? a := v_get other row in Ok (a - scalar)%F).

  (** linalg/src/vector.rs:419-428 *)
  Definition v_sub_scalar_in_place (scalar : T) : SV unit :=
    v_loop (fun self row => let? a := v_get self row in Ok (a - scalar)%F).

  (** linalg/src/vector.rs:431-444 *)
  Definition v_sub_scalar_new (self : V) (scalar : T) : res LinalgError V :=
    if negb (v_initialized self) then Err NotInit
    else exec (v_init (v_rows self) ;;! v_sub_scalar self scalar) vnew.

  (** linalg/src/vector.rs:447-463 *)
  Definition v_calculate_norm (self : V) : res LinalgError T :=
    let? s := rfold (range 0 (v_rows self)) (fun row norm =>
                let? a := v_get self row in
                let? b := v_get self row in Ok (norm + a * b)%F) f0 in
    let norm := fsqrt s in
    Ok (if (norm <=? EPSILON)%F then f0 else norm).

  (** linalg/src/vector.rs:466-481 *)
  Definition v_normalize : SV unit := fun self =>
    (let! norm := reads v_calculate_norm in
     if (norm >? EPSILON)%F then
       v_loop (fun self row => let? a := v_get self row in Ok (a / norm)%F)
     else v_fill f0) self.

  (** linalg/src/vector.rs:484-499 *)
  Definition v_mul_by_scalar (other : V) (scalar : T) : SV unit :=
    v_guard_same other ;;!
    v_loop (fun _ row => let? a := v_get other row in Ok (a * scalar)%F).

  (** linalg/src/vector.rs:502-511 *)
  Definition v_mul_by_scalar_in_place (scalar : T) : SV unit :=
    v_loop (fun self row => let? a := v_get self row in Ok (a * scalar)%F).

  (** linalg/src/vector.rs:514-527 *)
  Definition v_mul_by_scalar_new (self : V) (scalar : T) : res LinalgError V :=
    if negb (v_initialized self) then Err NotInit
    else exec (v_init (v_rows self) ;;! v_mul_by_scalar self scalar) vnew.

  (** linalg/src/vector.rs:530-545 *)
  Definition v_dot_product (self other : V) : res LinalgError T :=
    let? same := v_is_same_size_as self other in
    if negb same then Err NotSameSize
    else rfold (range 0 (v_rows self)) (fun row scalar =>
           let? a := v_get self row in
           let? b := v_get other row in Ok (scalar + a * b)%F) f0.

  (** [let mut v = Self::new(); v.init(self.get_rows()?)?; v.copy_from(&src)?;] *)
  Definition v_copy_of_size (self src : V) : res LinalgError V :=
    let? n := v_get_rows self in
    exec (v_init n ;;! v_copy_from src) vnew.

  (** linalg/src/vector.rs:567-600 *)
  Definition v_slerp (vect1 vect2 : V) (alpha : T) : SV unit := fun self =>
    if negb (in_range alpha f0 f1) then (self, Err InvalidAlpha)
    else
      (v_guard_same2 vect1 vect2 ;;!
       let! scalar := lift (v_dot_product vect1 vect2) in
       let theta := facos scalar in
       let! v1 := lift (v_copy_of_size self vect1) in
       let! v2 := lift (v_copy_of_size self vect2) in
       let! v1 := lift (exec (v_mul_by_scalar_in_place (fsin ((f1 - alpha) * theta) / fsin theta)%F) v1) in
       let! v2 := lift (exec (v_mul_by_scalar_in_place (fsin (alpha * theta) / fsin theta)%F) v2) in
       v_add v1 v2) self.

  (** linalg/src/vector.rs:603-632 *)
  Definition v_lerp (vect1 vect2 : V) (alpha : T) : SV unit := fun self =>
    if negb (in_range alpha f0 f1) then (self, Err InvalidAlpha)
    else
      (v_guard_same2 vect1 vect2 ;;!
       let! v1 := lift (v_copy_of_size self vect1) in
       let! v2 := lift (v_copy_of_size self vect2) in
       let! v1 := lift (exec (v_mul_by_scalar_in_place (f1 - alpha)%F) v1) in
       let! v2 := lift (exec (v_mul_by_scalar_in_place alpha) v2) in
       v_add v1 v2) self.

  (** linalg/src/vector.rs:635-643 *)
  Definition v_power_elements (exponent : T) : SV unit :=
    v_loop (fun self row => let? a := v_get self row in Ok (fpow a exponent)).
End F32.
