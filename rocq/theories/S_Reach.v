(** C01, specification: what a program using the public Matrix, Vector and Quaternion
    interface can get hold of.

    [call ck fn ins out ov]: one call of the public function [fn] on the containers [ins] can have the
    outcome [out], that is, the containers the caller has afterwards because of the call (the
    one the call modifies, whether or not it succeeds, and the ones it returns) and the way it
    ended.  [ck] tells whether the program is compiled with overflow checks.  [ov] is the
    condition under which u8 arithmetic in the body may leave the range of u8 ([False] for
    most functions).  There is one constructor per public function, with its place in /repo.
    Not listed: [print] (output only), [is_initialized] (cannot fail), [set_rows] and
    [set_cols] (not public). *)
From Coq Require Import String List Arith ZArith Bool.
From Verif Require Import M_Base M_Arith M_Utils M_Vector M_Matrix M_Quaternion.
Import ListNotations.
Open Scope string_scope.
Open Scope list_scope.

Inductive ending := Success | Failure (e : LinalgError) | Panicked.
Definition ending_of {X} (r : res LinalgError X) : ending :=
  match r with Ok _ => Success | Err e => Failure e | Panic => Panicked end.

Section Reach.
  Context {A : Arith}.
  Inductive obj := OM (m : Mat T) | OV (v : Vec T) | OU (p : Vec nat).

  (** the containers inside a returned value *)
  Class Objs (X : Type) := objs : X -> list obj.
  #[global] Instance objs_m : Objs (Mat T) := fun m => [OM m].
  #[global] Instance objs_v : Objs (Vec T) := fun v => [OV v].
  #[global] Instance objs_u : Objs (Vec nat) := fun p => [OU p].
  #[global] Instance objs_pair {X Y} (x : Objs X) (y : Objs Y) : Objs (X * Y) :=
    fun p => objs (fst p) ++ objs (snd p).
  #[global] Instance objs_none X : Objs X | 100 := fun _ => [].

  Definition objs_res {X} {ox : Objs X} (r : res LinalgError X) : list obj :=
    match r with Ok a => objs a | _ => [] end.
  (** outcome of a function that only returns something *)
  Definition out {X} {ox : Objs X} (r : res LinalgError X) : list obj * ending :=
    (objs_res r, ending_of r).
  (** outcome of a function that modifies a container *)
  Definition mut {S X} {ox : Objs X} (inj : S -> obj) (o : S * res LinalgError X) : list obj * ending :=
    (inj (fst o) :: objs_res (snd o), ending_of (snd o)).

  Definition i8 (k : option Z) : Prop := match k with Some k => (-128 <= k <= 127)%Z | None => True end.

  Inductive call (ck : bool) : string -> list obj -> list obj * ending -> Prop -> Prop :=
  (** linalg/src/vector.rs:29 *)
  | call_v_init (n : nat) (v : Vec T) :
      call ck "Vector<f32>::init" [OV v] (mut OV (v_init n v)) (False)
  (** linalg/src/vector.rs:45 *)
  | call_v_reinit (n : nat) (v : Vec T) :
      call ck "Vector<f32>::reinit" [OV v] (mut OV (v_reinit n v)) (False)
  (** linalg/src/vector.rs:60 *)
  | call_v_get_rows (a : Vec T) :
      call ck "Vector<f32>::get_rows" [OV a] (out (v_get_rows a)) (False)
  (** linalg/src/vector.rs:29 *)
  | call_v_init_u8 (n : nat) (p : Vec nat) :
      call ck "Vector<u8>::init" [OU p] (mut OU (v_init n p)) (False)
  (** linalg/src/vector.rs:45 *)
  | call_v_reinit_u8 (n : nat) (p : Vec nat) :
      call ck "Vector<u8>::reinit" [OU p] (mut OU (v_reinit n p)) (False)
  (** linalg/src/vector.rs:60 *)
  | call_v_get_rows_u8 (p : Vec nat) :
      call ck "Vector<u8>::get_rows" [OU p] (out (v_get_rows p)) (False)
  (** linalg/src/vector.rs:99 *)
  | call_vu_set (i : nat) (x : nat) (p : Vec nat) :
      call ck "Vector<u8>::set_element" [OU p] (mut OU (vu_set i x p)) (False)
  (** linalg/src/vector.rs:114 *)
  | call_v_get_u8 (p : Vec nat) (i : nat) :
      call ck "Vector<u8>::get_element" [OU p] (out (v_get p i)) (False)
  (** linalg/src/vector.rs:131 *)
  | call_v_set (i : nat) (x : T) (v : Vec T) :
      call ck "Vector<f32>::set_element" [OV v] (mut OV (v_set i x v)) (False)
  (** linalg/src/vector.rs:148 *)
  | call_v_get (a : Vec T) (i : nat) :
      call ck "Vector<f32>::get_element" [OV a] (out (v_get a i)) (False)
  (** linalg/src/vector.rs:177 *)
  | call_v_fill (x : T) (v : Vec T) :
      call ck "Vector<f32>::fill" [OV v] (mut OV (v_fill x v)) (False)
  (** linalg/src/vector.rs:187 *)
  | call_v_is_same_size_as (a : Vec T) (b : Vec T) :
      call ck "Vector<f32>::is_same_size_as" [OV a; OV b] (out (v_is_same_size_as a b)) (False)
  (** linalg/src/vector.rs:202 *)
  | call_v_is_equal_to (a : Vec T) (b : Vec T) (d : T) :
      call ck "Vector<f32>::is_equal_to" [OV a; OV b] (out (v_is_equal_to a b d)) (False)
  (** linalg/src/vector.rs:225 *)
  | call_v_copy_from (a : Vec T) (v : Vec T) :
      call ck "Vector<f32>::copy_from" [OV a; OV v] (mut OV (v_copy_from a v)) (False)
  (** linalg/src/vector.rs:241 *)
  | call_v_duplicate (a : Vec T) :
      call ck "Vector<f32>::duplicate" [OV a] (out (v_duplicate a)) (False)
  (** linalg/src/vector.rs:251 *)
  | call_v_add (a : Vec T) (b : Vec T) (v : Vec T) :
      call ck "Vector<f32>::add" [OV a; OV b; OV v] (mut OV (v_add a b v)) (False)
  (** linalg/src/vector.rs:269 *)
  | call_v_add_in_place (a : Vec T) (v : Vec T) :
      call ck "Vector<f32>::add_in_place" [OV a; OV v] (mut OV (v_add_in_place a v)) (False)
  (** linalg/src/vector.rs:287 *)
  | call_v_add_new (a : Vec T) (b : Vec T) :
      call ck "Vector<f32>::add_new" [OV a; OV b] (out (v_add_new a b)) (False)
  (** linalg/src/vector.rs:303 *)
  | call_v_add_scalar (a : Vec T) (x : T) (v : Vec T) :
      call ck "Vector<f32>::add_scalar" [OV a; OV v] (mut OV (v_add_scalar a x v)) (False)
  (** linalg/src/vector.rs:321 *)
  | call_v_add_scalar_in_place (x : T) (v : Vec T) :
      call ck "Vector<f32>::add_scalar_in_place" [OV v] (mut OV (v_add_scalar_in_place x v)) (False)
  (** linalg/src/vector.rs:333 *)
  | call_v_add_scalar_new (a : Vec T) (x : T) :
      call ck "Vector<f32>::add_scalar_new" [OV a] (out (v_add_scalar_new a x)) (False)
  (** linalg/src/vector.rs:349 *)
  | call_v_sub (a : Vec T) (b : Vec T) (v : Vec T) :
      call ck "Vector<f32>::sub" [OV a; OV b; OV v] (mut OV (v_sub a b v)) (False)
  (** linalg/src/vector.rs:367 *)
  | call_v_sub_in_place (a : Vec T) (v : Vec T) :
      call ck "Vector<f32>::sub_in_place" [OV a; OV v] (mut OV (v_sub_in_place a v)) (False)
  (** linalg/src/vector.rs:385 *)
  | call_v_sub_new (a : Vec T) (b : Vec T) :
      call ck "Vector<f32>::sub_new" [OV a; OV b] (out (v_sub_new a b)) (False)
  (** linalg/src/vector.rs:401 *)
  | call_v_sub_scalar (a : Vec T) (x : T) (v : Vec T) :
      call ck "Vector<f32>::sub_scalar" [OV a; OV v] (mut OV (v_sub_scalar a x v)) (False)
  (** linalg/src/vector.rs:419 *)
  | call_v_sub_scalar_in_place (x : T) (v : Vec T) :
      call ck "Vector<f32>::sub_scalar_in_place" [OV v] (mut OV (v_sub_scalar_in_place x v)) (False)
  (** linalg/src/vector.rs:431 *)
  | call_v_sub_scalar_new (a : Vec T) (x : T) :
      call ck "Vector<f32>::sub_scalar_new" [OV a] (out (v_sub_scalar_new a x)) (False)
  (** linalg/src/vector.rs:447 *)
  | call_v_calculate_norm (a : Vec T) :
      call ck "Vector<f32>::calculate_norm" [OV a] (out (v_calculate_norm a)) (False)
  (** linalg/src/vector.rs:466 *)
  | call_v_normalize (v : Vec T) :
      call ck "Vector<f32>::normalize" [OV v] (mut OV (v_normalize v)) (False)
  (** linalg/src/vector.rs:484 *)
  | call_v_mul_by_scalar (a : Vec T) (x : T) (v : Vec T) :
      call ck "Vector<f32>::mul_by_scalar" [OV a; OV v] (mut OV (v_mul_by_scalar a x v)) (False)
  (** linalg/src/vector.rs:502 *)
  | call_v_mul_by_scalar_in_place (x : T) (v : Vec T) :
      call ck "Vector<f32>::mul_by_scalar_in_place" [OV v] (mut OV (v_mul_by_scalar_in_place x v)) (False)
  (** linalg/src/vector.rs:514 *)
  | call_v_mul_by_scalar_new (a : Vec T) (x : T) :
      call ck "Vector<f32>::mul_by_scalar_new" [OV a] (out (v_mul_by_scalar_new a x)) (False)
  (** linalg/src/vector.rs:530 *)
  | call_v_dot_product (a : Vec T) (b : Vec T) :
      call ck "Vector<f32>::dot_product" [OV a; OV b] (out (v_dot_product a b)) (False)
  (** linalg/src/vector.rs:548 *)
  | call_v_outer_product (a : Vec T) (b : Vec T) :
      call ck "Vector<f32>::outer_product" [OV a; OV b] (out (v_outer_product a b)) (False)
  (** linalg/src/vector.rs:567 *)
  | call_v_slerp (a : Vec T) (b : Vec T) (x : T) (v : Vec T) :
      call ck "Vector<f32>::slerp" [OV a; OV b; OV v] (mut OV (v_slerp a b x v)) (False)
  (** linalg/src/vector.rs:603 *)
  | call_v_lerp (a : Vec T) (b : Vec T) (x : T) (v : Vec T) :
      call ck "Vector<f32>::lerp" [OV a; OV b; OV v] (mut OV (v_lerp a b x v)) (False)
  (** linalg/src/vector.rs:635 *)
  | call_v_power_elements (x : T) (v : Vec T) :
      call ck "Vector<f32>::power_elements" [OV v] (mut OV (v_power_elements x v)) (False)
  (** linalg/src/vector.rs:646 *)
  | call_v_convert_to_matrix (a : Vec T) :
      call ck "Vector<f32>::convert_to_matrix" [OV a] (out (v_convert_to_matrix a)) (False)
  (** linalg/src/matrix.rs:41 *)
  | call_m_init (r : nat) (c : nat) (m : Mat T) :
      call ck "Matrix::init" [OM m] (mut OM (m_init r c m)) (False)
  (** linalg/src/matrix.rs:59 *)
  | call_m_reinit (r : nat) (c : nat) (m : Mat T) :
      call ck "Matrix::reinit" [OM m] (mut OM (m_reinit r c m)) (False)
  (** linalg/src/matrix.rs:94 *)
  | call_m_get_rows (a : Mat T) :
      call ck "Matrix::get_rows" [OM a] (out (m_get_rows a)) (False)
  (** linalg/src/matrix.rs:126 *)
  | call_m_get_cols (a : Mat T) :
      call ck "Matrix::get_cols" [OM a] (out (m_get_cols a)) (False)
  (** linalg/src/matrix.rs:190 *)
  | call_m_set (i : nat) (j : nat) (x : T) (m : Mat T) :
      call ck "Matrix::set_element" [OM m] (mut OM (m_set i j x m)) (False)
  (** linalg/src/matrix.rs:211 *)
  | call_m_get (a : Mat T) (i : nat) (j : nat) :
      call ck "Matrix::get_element" [OM a] (out (m_get a i j)) (False)
  (** linalg/src/matrix.rs:248 *)
  | call_m_set_row (v : Vec T) (i : nat) (m : Mat T) :
      call ck "Matrix::set_row" [OV v; OM m] (mut OM (m_set_row v i m)) (False)
  (** linalg/src/matrix.rs:264 *)
  | call_m_set_col (v : Vec T) (i : nat) (m : Mat T) :
      call ck "Matrix::set_col" [OV v; OM m] (mut OM (m_set_col v i m)) (False)
  (** linalg/src/matrix.rs:280 *)
  | call_m_get_row (a : Mat T) (i : nat) (v : Vec T) :
      call ck "Matrix::get_row" [OM a; OV v] (mut OV (m_get_row a i v)) (False)
  (** linalg/src/matrix.rs:296 *)
  | call_m_get_col (a : Mat T) (i : nat) (v : Vec T) :
      call ck "Matrix::get_col" [OM a; OV v] (mut OV (m_get_col a i v)) (False)
  (** linalg/src/matrix.rs:312 *)
  | call_m_row_to_vector (a : Mat T) (i : nat) :
      call ck "Matrix::row_to_vector" [OM a] (out (m_row_to_vector a i)) (False)
  (** linalg/src/matrix.rs:322 *)
  | call_m_col_to_vector (a : Mat T) (i : nat) :
      call ck "Matrix::col_to_vector" [OM a] (out (m_col_to_vector a i)) (False)
  (** linalg/src/matrix.rs:332 *)
  | call_m_add_row (v : Vec T) (i : nat) (m : Mat T) : i < 256 ->
      call ck "Matrix::add_row" [OV v; OM m] (mut OM (m_add_row ck v i m)) (i = 255)
  (** linalg/src/matrix.rs:352 *)
  | call_m_add_col (v : Vec T) (i : nat) (m : Mat T) : i < 256 ->
      call ck "Matrix::add_col" [OV v; OM m] (mut OM (m_add_col ck v i m)) (i = 255)
  (** linalg/src/matrix.rs:372 *)
  | call_m_del_row (i : nat) (m : Mat T) :
      call ck "Matrix::del_row" [OM m] (mut OM (m_del_row ck i m)) (m_initialized m = false)
  (** linalg/src/matrix.rs:463 *)
  | call_m_fill (x : T) (m : Mat T) :
      call ck "Matrix::fill" [OM m] (mut OM (m_fill x m)) (False)
  (** linalg/src/matrix.rs:475 *)
  | call_m_is_same_size_as (a : Mat T) (b : Mat T) :
      call ck "Matrix::is_same_size_as" [OM a; OM b] (out (m_is_same_size_as a b)) (False)
  (** linalg/src/matrix.rs:491 *)
  | call_m_is_square (a : Mat T) :
      call ck "Matrix::is_square" [OM a] (out (m_is_square a)) (False)
  (** linalg/src/matrix.rs:507 *)
  | call_m_is_equal_to (a : Mat T) (b : Mat T) (d : T) :
      call ck "Matrix::is_equal_to" [OM a; OM b] (out (m_is_equal_to a b d)) (False)
  (** linalg/src/matrix.rs:532 *)
  | call_m_fill_identity (m : Mat T) :
      call ck "Matrix::fill_identity" [OM m] (mut OM (m_fill_identity m)) (False)
  (** linalg/src/matrix.rs:554 *)
  | call_m_copy_from (a : Mat T) (m : Mat T) :
      call ck "Matrix::copy_from" [OM a; OM m] (mut OM (m_copy_from a m)) (False)
  (** linalg/src/matrix.rs:574 *)
  | call_m_duplicate (a : Mat T) :
      call ck "Matrix::duplicate" [OM a] (out (m_duplicate a)) (False)
  (** linalg/src/matrix.rs:584 *)
  | call_m_add (a : Mat T) (b : Mat T) (m : Mat T) :
      call ck "Matrix::add" [OM a; OM b; OM m] (mut OM (m_add a b m)) (False)
  (** linalg/src/matrix.rs:605 *)
  | call_m_add_in_place (a : Mat T) (m : Mat T) :
      call ck "Matrix::add_in_place" [OM a; OM m] (mut OM (m_add_in_place a m)) (False)
  (** linalg/src/matrix.rs:626 *)
  | call_m_add_new (a : Mat T) (b : Mat T) :
      call ck "Matrix::add_new" [OM a; OM b] (out (m_add_new a b)) (False)
  (** linalg/src/matrix.rs:642 *)
  | call_m_add_scalar (a : Mat T) (x : T) (m : Mat T) :
      call ck "Matrix::add_scalar" [OM a; OM m] (mut OM (m_add_scalar a x m)) (False)
  (** linalg/src/matrix.rs:663 *)
  | call_m_add_scalar_in_place (x : T) (m : Mat T) :
      call ck "Matrix::add_scalar_in_place" [OM m] (mut OM (m_add_scalar_in_place x m)) (False)
  (** linalg/src/matrix.rs:678 *)
  | call_m_add_scalar_new (a : Mat T) (x : T) :
      call ck "Matrix::add_scalar_new" [OM a] (out (m_add_scalar_new a x)) (False)
  (** linalg/src/matrix.rs:702 *)
  | call_m_sub (a : Mat T) (b : Mat T) (m : Mat T) :
      call ck "Matrix::sub" [OM a; OM b; OM m] (mut OM (m_sub a b m)) (False)
  (** linalg/src/matrix.rs:723 *)
  | call_m_sub_in_place (a : Mat T) (m : Mat T) :
      call ck "Matrix::sub_in_place" [OM a; OM m] (mut OM (m_sub_in_place a m)) (False)
  (** linalg/src/matrix.rs:744 *)
  | call_m_sub_new (a : Mat T) (b : Mat T) :
      call ck "Matrix::sub_new" [OM a; OM b] (out (m_sub_new a b)) (False)
  (** linalg/src/matrix.rs:760 *)
  | call_m_sub_scalar (a : Mat T) (x : T) (m : Mat T) :
      call ck "Matrix::sub_scalar" [OM a; OM m] (mut OM (m_sub_scalar a x m)) (False)
  (** linalg/src/matrix.rs:781 *)
  | call_m_sub_scalar_in_place (x : T) (m : Mat T) :
      call ck "Matrix::sub_scalar_in_place" [OM m] (mut OM (m_sub_scalar_in_place x m)) (False)
  (** linalg/src/matrix.rs:796 *)
  | call_m_sub_scalar_new (a : Mat T) (x : T) :
      call ck "Matrix::sub_scalar_new" [OM a] (out (m_sub_scalar_new a x)) (False)
  (** linalg/src/matrix.rs:813 *)
  | call_m_mul (a : Mat T) (b : Mat T) (m : Mat T) :
      call ck "Matrix::mul" [OM a; OM b; OM m] (mut OM (m_mul a b m)) (False)
  (** linalg/src/matrix.rs:837 *)
  | call_m_mul_new (a : Mat T) (b : Mat T) :
      call ck "Matrix::mul_new" [OM a; OM b] (out (m_mul_new a b)) (False)
  (** linalg/src/matrix.rs:850 *)
  | call_m_transpose (m : Mat T) :
      call ck "Matrix::transpose" [OM m] (mut OM (m_transpose m)) (False)
  (** linalg/src/matrix.rs:893 *)
  | call_m_transpose_new (a : Mat T) :
      call ck "Matrix::transpose_new" [OM a] (out (m_transpose_new a)) (False)
  (** linalg/src/matrix.rs:901 *)
  | call_m_invert (m : Mat T) :
      call ck "Matrix::invert" [OM m] (mut OM (m_invert m)) (False)
  (** linalg/src/matrix.rs:939 *)
  | call_m_mul_by_scalar_in_place (x : T) (m : Mat T) :
      call ck "Matrix::mul_by_scalar_in_place" [OM m] (mut OM (m_mul_by_scalar_in_place x m)) (False)
  (** linalg/src/matrix.rs:952 *)
  | call_m_power_elements (x : T) (m : Mat T) :
      call ck "Matrix::power_elements" [OM m] (mut OM (m_power_elements x m)) (False)
  (** linalg/src/matrix.rs:973 *)
  | call_m_trace (a : Mat T) :
      call ck "Matrix::trace" [OM a] (out (m_trace a)) (False)
  (** linalg/src/matrix.rs:991 *)
  | call_m_lr (a : Mat T) :
      call ck "Matrix::lr" [OM a] (out (m_lr a)) (False)
  (** linalg/src/matrix.rs:1078 *)
  | call_m_lu_crout (a : Mat T) :
      call ck "Matrix::lu_crout" [OM a] (out (m_lu_crout a)) (False)
  (** linalg/src/matrix.rs:1158 *)
  | call_m_qr_decomp (a : Mat T) :
      call ck "Matrix::qr_decomp" [OM a] (out (m_qr_decomp a)) (False)
  (** linalg/src/matrix.rs:1218 *)
  | call_m_is_upper_triangular (a : Mat T) :
      call ck "Matrix::is_upper_triangular" [OM a] (out (m_is_upper_triangular a)) (False)
  (** linalg/src/matrix.rs:1234 *)
  | call_m_is_lower_triangular (a : Mat T) :
      call ck "Matrix::is_lower_triangular" [OM a] (out (m_is_lower_triangular ck a)) (m_initialized a = false)
  (** linalg/src/matrix.rs:1250 *)
  | call_m_calculate_frobenius_norm (a : Mat T) :
      call ck "Matrix::calculate_frobenius_norm" [OM a] (out (m_calculate_frobenius_norm a)) (False)
  (** linalg/src/matrix.rs:1266 *)
  | call_m_det (a : Mat T) :
      call ck "Matrix::det" [OM a] (out (m_det a)) (False)
  (** linalg/src/matrix.rs:1364 *)
  | call_m_det_naive (a : Mat T) :
      call ck "Matrix::det_naive" [OM a] (out (m_det_naive a)) (False)
  (** linalg/src/matrix.rs:1440 *)
  | call_m_is_symmetric (a : Mat T) :
      call ck "Matrix::is_symmetric" [OM a] (out (m_is_symmetric a)) (False)
  (** linalg/src/matrix.rs:1460 *)
  | call_m_is_positive_definite (a : Mat T) :
      call ck "Matrix::is_positive_definite" [OM a] (out (m_is_positive_definite a)) (False)
  (** linalg/src/matrix.rs:1489 *)
  | call_m_chol (a : Mat T) :
      call ck "Matrix::chol" [OM a] (out (m_chol a)) (False)
  (** linalg/src/matrix.rs:1573 *)
  | call_m_dlyap (a : Mat T) (q : Mat T) :
      call ck "Matrix::dlyap" [OM a; OM q] (out (m_dlyap a q)) (False)
  (** linalg/src/matrix.rs:1599 *)
  | call_m_is_orthogonal (a : Mat T) :
      call ck "Matrix::is_orthogonal" [OM a] (out (m_is_orthogonal a)) (False)
  (** linalg/src/matrix.rs:1631 *)
  | call_m_is_so_n (a : Mat T) :
      call ck "Matrix::is_so_n" [OM a] (out (m_is_so_n a)) (False)
  (** linalg/src/matrix.rs:1664 *)
  | call_m_diag (a : Mat T) (k : option Z) : i8 k ->
      call ck "Matrix::diag" [OM a] (out (m_diag ck a k)) (False)
  (** linalg/src/matrix.rs:1706 *)
  | call_m_log (a : Mat T) :
      call ck "Matrix::log" [OM a] (out (m_log a)) (False)
  (** linalg/src/matrix.rs:1736 *)
  | call_m_log_in_place (m : Mat T) :
      call ck "Matrix::log_in_place" [OM m] (mut OM (m_log_in_place m)) (False)
  (** linalg/src/matrix.rs:1761 *)
  | call_m_adjugate_in_place (m : Mat T) :
      call ck "Matrix::adjugate_in_place" [OM m] (mut OM (m_adjugate_in_place m)) (False)
  (** linalg/src/linalg.rs:7 *)
  | call_lup (a : Mat T) :
      call ck "linalg::lup" [OM a] (out (lup a)) (False)
  (** linalg/src/linalg.rs:55 *)
  | call_solve (a : Mat T) (b : Vec T) (p : Vec nat) :
      call ck "linalg::solve" [OM a; OV b; OU p] (out (solve a b p)) (False)
  (** linalg/src/linalg.rs:92 *)
  | call_eigen (a : Mat T) (n : nat) (s : bool) :
      call ck "linalg::eigen" [OM a] (out (eigen ck a n s)) (s = true /\ m_get_rows a = Ok 1)
  (** quaternion/src/quaternion.rs:82 *)
  | call_q_is_quaternion (a : Vec T) :
      call ck "Quaternion::is_quaternion" [OV a] (out (q_is_quaternion a)) (False)
  (** quaternion/src/quaternion.rs:93 *)
  | call_q_is_real (a : Vec T) :
      call ck "Quaternion::is_real" [OV a] (out (q_is_real a)) (False)
  (** quaternion/src/quaternion.rs:111 *)
  | call_q_is_pure (a : Vec T) :
      call ck "Quaternion::is_pure" [OV a] (out (q_is_pure a)) (False)
  (** quaternion/src/quaternion.rs:126 *)
  | call_q_is_versor (a : Vec T) :
      call ck "Quaternion::is_versor" [OV a] (out (q_is_versor a)) (False)
  (** quaternion/src/quaternion.rs:142 *)
  | call_q_is_identity (a : Vec T) :
      call ck "Quaternion::is_identity" [OV a] (out (q_is_identity a)) (False)
  (** quaternion/src/quaternion.rs:164 *)
  | call_q_set_qw (x : T) (v : Vec T) :
      call ck "Quaternion::set_qw" [OV v] (mut OV (q_set_qw x v)) (False)
  (** quaternion/src/quaternion.rs:176 *)
  | call_q_get_qw (a : Vec T) :
      call ck "Quaternion::get_qw" [OV a] (out (q_get_qw a)) (False)
  (** quaternion/src/quaternion.rs:186 *)
  | call_q_set_qx (x : T) (v : Vec T) :
      call ck "Quaternion::set_qx" [OV v] (mut OV (q_set_qx x v)) (False)
  (** quaternion/src/quaternion.rs:198 *)
  | call_q_get_qx (a : Vec T) :
      call ck "Quaternion::get_qx" [OV a] (out (q_get_qx a)) (False)
  (** quaternion/src/quaternion.rs:208 *)
  | call_q_set_qy (x : T) (v : Vec T) :
      call ck "Quaternion::set_qy" [OV v] (mut OV (q_set_qy x v)) (False)
  (** quaternion/src/quaternion.rs:220 *)
  | call_q_get_qy (a : Vec T) :
      call ck "Quaternion::get_qy" [OV a] (out (q_get_qy a)) (False)
  (** quaternion/src/quaternion.rs:230 *)
  | call_q_set_qz (x : T) (v : Vec T) :
      call ck "Quaternion::set_qz" [OV v] (mut OV (q_set_qz x v)) (False)
  (** quaternion/src/quaternion.rs:242 *)
  | call_q_get_qz (a : Vec T) :
      call ck "Quaternion::get_qz" [OV a] (out (q_get_qz a)) (False)
  (** quaternion/src/quaternion.rs:252 *)
  | call_q_get_vector_part (a : Vec T) :
      call ck "Quaternion::get_vector_part" [OV a] (out (q_get_vector_part a)) (False)
  (** quaternion/src/quaternion.rs:273 *)
  | call_q_fillq (a : T) (b : T) (c : T) (d : T) (v : Vec T) :
      call ck "Quaternion::fillq" [OV v] (mut OV (q_fillq a b c d v)) (False)
  (** quaternion/src/quaternion.rs:289 *)
  | call_q_conjugate (v : Vec T) :
      call ck "Quaternion::conjugate" [OV v] (mut OV (q_conjugate v)) (False)
  (** quaternion/src/quaternion.rs:308 *)
  | call_q_conjugate_new (a : Vec T) :
      call ck "Quaternion::conjugate_new" [OV a] (out (q_conjugate_new a)) (False)
  (** quaternion/src/quaternion.rs:316 *)
  | call_q_mul (a : Vec T) (b : Vec T) (v : Vec T) :
      call ck "Quaternion::mul" [OV a; OV b; OV v] (mut OV (q_mul a b v)) (False)
  (** quaternion/src/quaternion.rs:349 *)
  | call_q_mul_new (a : Vec T) (b : Vec T) :
      call ck "Quaternion::mul_new" [OV a; OV b] (out (q_mul_new a b)) (False)
  (** quaternion/src/quaternion.rs:386 *)
  | call_q_fill_identity (v : Vec T) :
      call ck "Quaternion::fill_identity" [OV v] (mut OV (q_fill_identity v)) (False)
  (** quaternion/src/quaternion.rs:393 *)
  | call_q_invert (v : Vec T) :
      call ck "Quaternion::invert" [OV v] (mut OV (q_invert v)) (False)
  (** quaternion/src/quaternion.rs:407 *)
  | call_q_convert_to_dcm (a : Vec T) :
      call ck "Quaternion::convert_to_dcm" [OV a] (out (q_convert_to_dcm a)) (False)
  (** quaternion/src/quaternion.rs:453 *)
  | call_q_exp (v : Vec T) :
      call ck "Quaternion::exp" [OV v] (mut OV (q_exp v)) (False)
  (** quaternion/src/quaternion.rs:481 *)
  | call_q_exp_new (a : Vec T) :
      call ck "Quaternion::exp_new" [OV a] (out (q_exp_new a)) (False)
  (** quaternion/src/quaternion.rs:513 *)
  | call_q_hughes (d : Mat T) (v : Vec T) :
      call ck "Quaternion::hughes" [OM d; OV v] (mut OV (q_hughes d v)) (False)
  (** quaternion/src/quaternion.rs:578 *)
  | call_q_chiaverini (d : Mat T) (v : Vec T) :
      call ck "Quaternion::chiaverini" [OM d; OV v] (mut OV (q_chiaverini d v)) (False)
  (** quaternion/src/quaternion.rs:627 *)
  | call_q_sarabandi (d : Mat T) (e : option T) (v : Vec T) :
      call ck "Quaternion::sarabandi" [OM d; OV v] (mut OV (q_sarabandi d e v)) (False)
  (** quaternion/src/quaternion.rs:727 *)
  | call_q_convert_to_euler (a : Vec T) :
      call ck "Quaternion::convert_to_euler" [OV a] (out (q_convert_to_euler a)) (False)
  (** quaternion/src/quaternion.rs:764 *)
  | call_q_rotate (a : Vec T) (b : Vec T) :
      call ck "Quaternion::rotate" [OV a; OV b] (out (q_rotate a b)) (False)
  (** quaternion/src/quaternion.rs:789 *)
  | call_q_rotate_in_place (a : Vec T) (v : Vec T) :
      call ck "Quaternion::rotate_in_place" [OV a; OV v] (mut OV (q_rotate_in_place a v)) (False).

  (** The containers of a program: new ones, and whatever calls on those it already has leave
      behind. *)
  Inductive reach (ck : bool) : obj -> Prop :=
  | reach_m : reach ck (OM mnew)
  | reach_v : reach ck (OV vnew)
  | reach_u : reach ck (OU vu_new)
  | reach_call fn ins outs e ov o :
      call ck fn ins (outs, e) ov -> (forall x, In x ins -> reach ck x) -> In o outs -> reach ck o.
End Reach.
