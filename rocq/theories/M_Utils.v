(** Model of utils/src/lib.rs and of linalg/src/common.rs. *)
From Coq Require Import List Arith ZArith NArith Bool.
From Verif Require Import M_Base M_Arith.
Import ListNotations.

(** utils/src/lib.rs:8-12 *)
Inductive UtilsError := Nan | Inf.

(** linalg/src/common.rs:13-37 *)
Inductive LinalgError :=
| NotInit | AlreadyInit | RowsNumberOverflow | RowsNumberNull | ColsNumberOverflow
| ColsNumberNull | InvalidRow | InvalidCol | NotSquare | NotSameSize | UnchangedSize
| InvalidSize | Unsolvable | Singular | NotPositiveDefinite | NotSymetric
| NotInversible | InvalidAlpha | InvalidDiagonalLength | LUFailed
| UtilsErr (e : UtilsError).

(** linalg/src/common.rs:5-6 *)
Definition M_MAX : nat := 4.
Definition N_MAX : nat := 4.

Section Utils.
  Context {A : Arith}.

  (** utils/src/lib.rs:15-23 *)
  Definition is_valid_value (value : T) : res UtilsError unit :=
    if fnan value then Err Nan
    else if finf value then Err Inf
    else Ok tt.

  (** utils/src/lib.rs:26-31 *)
  Definition allclose (x y deviation : T) : res UtilsError bool :=
    let? _ := is_valid_value x in
    let? _ := is_valid_value y in
    Ok (fabs (x - y) <=? deviation)%F.

  (** utils/src/lib.rs:34-36, at type f32 *)
  Definition in_range (value start end_ : T) : bool :=
    (value >=? start)%F && (value <=? end_)%F.

  (** utils/src/lib.rs:49-51, 54-56, at type f32 *)
  Definition minf (x y : T) : T := if (x <? y)%F then x else y.
  Definition maxf (x y : T) : T := if (x >? y)%F then x else y.

  (** utils/src/lib.rs:59-67, at type f32 *)
  Definition clip (value min max : T) : T :=
    if (value <? min)%F then min
    else if (value >? max)%F then max
    else value.

  (** utils/src/lib.rs:108-122, at type f32; T::from_i8 is [n as f32] (96-99) *)
  Definition sign (x : T) : T :=
    if (x >? f0)%F then f1
    else if (x <? f0)%F then fm1
    else f0.

  (** the [.map_err(LinalgError::UtilsError)] wrapper used throughout linalg *)
  Definition allclose_l (x y deviation : T) : res LinalgError bool :=
    map_err UtilsErr (allclose x y deviation).
End Utils.

(** utils/src/lib.rs:39-46, at integer types *)
Definition min_u8 (x y : nat) : nat := if (x <? y)%nat then x else y.
Definition max_u8 (x y : nat) : nat := if (y <? x)%nat then x else y.
Definition min_i8 (x y : Z) : Z := if (x <? y)%Z then x else y.

(** utils/src/lib.rs:70-75.  u64 product, overflow panics when [ck], wraps otherwise. *)
Fixpoint factorial (ck : bool) (n : nat) : res LinalgError N :=
  match n with
  | 0 | 1 => Ok 1%N
  | S n' =>
      let? f := factorial ck n' in
      let p := (N.of_nat n * f)%N in
      if (p <? 2 ^ 64)%N then Ok p
      else if ck then Panic else Ok (p mod 2 ^ 64)%N
  end.

(** linalg/src/common.rs:40-54 *)
Definition is_valid_rows_number (rows : nat) : res LinalgError unit :=
  if M_MAX <? rows then Err RowsNumberOverflow
  else if rows =? 0 then Err RowsNumberNull
  else Ok tt.

(** linalg/src/common.rs:57-71 *)
Definition is_valid_cols_number (cols : nat) : res LinalgError unit :=
  if N_MAX <? cols then Err ColsNumberOverflow
  else if cols =? 0 then Err ColsNumberNull
  else Ok tt.

(** linalg/src/common.rs:74-82 *)
Definition is_valid_row (row rows : nat) : res LinalgError unit :=
  if rows <=? row then Err InvalidRow else Ok tt.

(** linalg/src/common.rs:85-93 *)
Definition is_valid_col (col cols : nat) : res LinalgError unit :=
  if cols <=? col then Err InvalidCol else Ok tt.
