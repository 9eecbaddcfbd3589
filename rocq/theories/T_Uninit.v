(** Generated by tools/gen_properties.py from P_Uninit.v: property theorems only. *)

From Coq Require Import List Arith ZArith Lia Bool.
From Verif Require Import M_Base M_Arith M_Utils M_Vector M_Matrix M_F32 S_Spec P_Inst.
Import ListNotations.

From Verif Require Import P_Uninit.

(** C09: on a matrix that is not initialised (never, or after a failed re-initialisation)
    these operations report [NotInit] and change nothing, for all arguments. *)
Theorem C09_matrix_refuses :
  forall (A : Arith) (m : Mat T), m_is_initialized m = false ->
  (forall r c, m_reinit r c m = (m, Err NotInit)) /\
  m_get_rows m = Err NotInit /\ m_get_cols m = Err NotInit /\
  (forall i j, m_get m i j = Err NotInit) /\
  (forall i j x, m_set i j x m = (m, Err NotInit)) /\
  m_is_square m = Err NotInit /\
  (forall m', m_is_same_size_as m m' = Err NotInit /\ m_is_same_size_as m' m = Err NotInit) /\
  (forall m' d, m_is_equal_to m m' d = Err NotInit /\ m_is_equal_to m' m d = Err NotInit) /\
  m_fill_identity m = (m, Err NotInit) /\
  m_transpose m = (m, Err NotInit) /\
  m_trace m = Err NotInit /\
  (forall m', m_copy_from m' m = (m, Err NotInit) /\ m_copy_from m m' = (m', Err NotInit)) /\
  (forall a b, m_add a b m = (m, Err NotInit) /\ m_sub a b m = (m, Err NotInit)) /\
  (forall a, m_add_in_place a m = (m, Err NotInit) /\ m_sub_in_place a m = (m, Err NotInit)) /\
  (forall a, m_add_in_place m a = (a, Err NotInit) /\ m_sub_in_place m a = (a, Err NotInit)) /\
  (forall a, m_add_new m a = Err NotInit /\ m_sub_new m a = Err NotInit) /\
  (forall a x, m_add_scalar a x m = (m, Err NotInit) /\ m_sub_scalar a x m = (m, Err NotInit)) /\
  (forall x, m_add_scalar_new m x = Err NotInit /\ m_sub_scalar_new m x = Err NotInit) /\
  (forall a, m_mul_new m a = Err NotInit) /\
  m_is_symmetric m = Err NotInit /\ m_is_positive_definite m = Err NotInit /\
  m_chol m = Err NotInit /\ m_det m = Err NotInit /\ m_det_naive m = Err NotInit /\
  lup m = Err NotInit /\ (forall b p, solve m b p = Err NotInit) /\
  m_invert m = (m, Err NotInit) /\ m_lr m = Err NotInit /\ m_lu_crout m = Err NotInit /\
  m_is_so_n m = Err NotInit /\ m_is_orthogonal m = Err NotInit /\
  m_log m = Err NotInit /\ m_log_in_place m = (m, Err NotInit) /\
  m_adjugate_in_place m = (m, Err NotInit) /\
  (forall q, m_dlyap m q = Err NotInit) /\
  (forall ck n s, eigen ck m n s = Err NotInit).
Proof. exact l_m_refuses. Qed.
Print Assumptions C09_matrix_refuses.

(** C09: the vector operations. *)
Theorem C09_vector_refuses :
  forall (A : Arith) (v : Vec T), v_is_initialized v = false ->
  (forall r, v_reinit r v = (v, Err NotInit)) /\
  v_get_rows v = Err NotInit /\
  (forall i, v_get v i = Err NotInit) /\
  (forall i x, v_set i x v = (v, Err NotInit)) /\
  (forall w, v_is_same_size_as v w = Err NotInit /\ v_is_same_size_as w v = Err NotInit) /\
  (forall w d, v_is_equal_to v w d = Err NotInit /\ v_is_equal_to w v d = Err NotInit) /\
  (forall w, v_copy_from w v = (v, Err NotInit) /\ v_copy_from v w = (w, Err NotInit)) /\
  (forall a b, v_add a b v = (v, Err NotInit) /\ v_sub a b v = (v, Err NotInit)) /\
  (forall a, v_add_in_place a v = (v, Err NotInit) /\ v_sub_in_place a v = (v, Err NotInit)) /\
  (forall a, v_add_new v a = Err NotInit /\ v_sub_new v a = Err NotInit) /\
  (forall a x, v_add_scalar a x v = (v, Err NotInit) /\ v_sub_scalar a x v = (v, Err NotInit) /\
               v_mul_by_scalar a x v = (v, Err NotInit)) /\
  (forall x, v_add_scalar_new v x = Err NotInit /\ v_sub_scalar_new v x = Err NotInit /\
             v_mul_by_scalar_new v x = Err NotInit) /\
  (forall w, v_dot_product v w = Err NotInit /\ v_dot_product w v = Err NotInit) /\
  (forall w, v_outer_product v w = Err NotInit) /\
  v_convert_to_matrix v = Err NotInit /\
  (forall a b x, in_range x f0 f1 = true ->
     v_slerp a b x v = (v, Err NotInit) /\ v_lerp a b x v = (v, Err NotInit)).
Proof. exact l_v_refuses. Qed.
Print Assumptions C09_vector_refuses.

(** C09: on a matrix that was never initialised, duplication, QR and diag report a size error. *)
Theorem C09_fresh_matrix_other_errors :
  forall (A : Arith),
  m_duplicate mnew = Err RowsNumberNull /\ m_qr_decomp mnew = Err RowsNumberNull /\
  m_transpose_new mnew = Err RowsNumberNull /\
  (forall ck, m_diag ck mnew None = Err InvalidDiagonalLength) /\
  (forall (v : Vec T) i, wfv v -> exists e, m_set_row v i mnew = (mnew, Err e) /\
                                  m_set_col v i mnew = (mnew, Err e)).
Proof. exact l_m_fresh_errors. Qed.
Print Assumptions C09_fresh_matrix_other_errors.

(** C09 VIOLATION: operations that succeed on objects that were never initialised. *)
Theorem C09_uninitialised_use_refuted :
  forall (A : Arith),
  (forall x, m_fill x mnew = (mnew, Ok tt)) /\
  (forall x, m_add_scalar_in_place x mnew = (mnew, Ok tt)) /\
  (forall x, m_sub_scalar_in_place x mnew = (mnew, Ok tt)) /\
  (forall x, m_mul_by_scalar_in_place x mnew = (mnew, Ok tt)) /\
  (forall x, m_power_elements x mnew = (mnew, Ok tt)) /\
  (exists x, m_calculate_frobenius_norm mnew = Ok x) /\
  m_is_upper_triangular mnew = Ok true /\
  m_mul mnew mnew mnew = (mnew, Ok tt) /\
  (forall x, v_fill x vnew = (vnew, Ok tt)) /\
  (forall x, v_add_scalar_in_place x vnew = (vnew, Ok tt)) /\
  (forall x, v_sub_scalar_in_place x vnew = (vnew, Ok tt)) /\
  (forall x, v_mul_by_scalar_in_place x vnew = (vnew, Ok tt)) /\
  (forall x, v_power_elements x vnew = (vnew, Ok tt)) /\
  (exists x, v_calculate_norm vnew = Ok x) /\
  v_normalize vnew = (vnew, Ok tt).
Proof. exact l_uninit_ok. Qed.
Print Assumptions C09_uninitialised_use_refuted.

(** C09 VIOLATION: [is_lower_triangular] and [del_row] compute [rows - 1] first: with overflow
    checks they panic on a never-initialised matrix, without them the former says [true]. *)
Theorem C09_u8_underflow :
  forall (A : Arith),
  m_is_lower_triangular true mnew = Panic /\
  m_is_lower_triangular false mnew = Ok true /\
  (forall i, snd (m_del_row true i mnew) = Panic) /\
  (forall i, m_del_row false i mnew = (mnew, Err InvalidRow)).
Proof. exact l_underflow. Qed.
Print Assumptions C09_u8_underflow.

(** the two kinds of uninitialised objects: fresh, and after a failed re-initialisation *)
Example C09_example :
  let A := F32 lm_id in
  m_is_initialized mnew = false /\ v_is_initialized vnew = false /\
  (let m := fst (m_reinit 9 9 (mk_mat 1 1 [z32 3])) in
   m_is_initialized m = false /\ m_rows m = 1 /\ m_fill (z32 1) m = (m, Err NotInit)).
Proof. cbv zeta. repeat match goal with |- _ /\ _ => split end; reflexivity. Qed.
