(** C09: which operations refuse an object that is not initialised. *)
(*@+*)
From Coq Require Import List Arith ZArith Lia Bool.
From Verif Require Import M_Base M_Arith M_Utils M_Vector M_Matrix M_F32 S_Spec P_Inst.
Import ListNotations.
(*@-*)
From Verif Require Import P_Hoare P_Cont P_Loops P_Access.

Section Uninit.
  Context {A : Arith}.
  Lemma m_square_uninit m : m_initialized m = false -> m_is_square m = Err NotInit.
  Proof. intros H. unfold m_is_square. rewrite H. reflexivity. Qed.
  Lemma m_gsquare_uninit m : m_initialized m = false -> m_guard_square m = Err NotInit.
  Proof. intros H. unfold m_guard_square. rewrite m_square_uninit by auto. reflexivity. Qed.
  Lemma m_rows_uninit m : m_initialized m = false -> m_get_rows m = Err NotInit.
  Proof. intros H. unfold m_get_rows. rewrite H. reflexivity. Qed.
  Lemma m_cols_uninit m : m_initialized m = false -> m_get_cols m = Err NotInit.
  Proof. intros H. unfold m_get_cols. rewrite H. reflexivity. Qed.
  Lemma v_rows_uninit {X} (v : Vec X) : v_initialized v = false -> v_get_rows v = Err NotInit.
  Proof. intros H. unfold v_get_rows. rewrite H. reflexivity. Qed.
  Lemma m_sym_uninit m : m_initialized m = false -> m_is_symmetric m = Err NotInit.
  Proof. intros H. unfold m_is_symmetric. rewrite m_square_uninit by auto. reflexivity. Qed.
  Lemma m_pd_uninit m : m_initialized m = false -> m_is_positive_definite m = Err NotInit.
  Proof. intros H. unfold m_is_positive_definite. rewrite m_sym_uninit by auto. reflexivity. Qed.
  Lemma m_det_uninit m : m_initialized m = false -> m_det m = Err NotInit.
  Proof. intros H. unfold m_det. rewrite m_gsquare_uninit by auto. reflexivity. Qed.
  Lemma m_so_uninit m : m_initialized m = false -> m_is_so_n m = Err NotInit.
  Proof. intros H. unfold m_is_so_n. rewrite m_det_uninit by auto. reflexivity. Qed.
  Lemma m_init_null rows : m_init 0 rows mnew = (mnew, Err RowsNumberNull).
  Proof. reflexivity. Qed.
End Uninit.

(*@ C09_matrix_refuses *)
(** C09: on a matrix that is not initialised (never, or after a failed re-initialisation)
    these operations report [NotInit] and change nothing, for all arguments. *)
Lemma l_m_refuses :
  forall (A : Arith) (m : Mat T), m_is_initialized m = false ->
  (forall r c, m_reinit r c m = (m, Err NotInit)) /\
  m_get_rows m = Err NotInit /\ m_get_cols m = Err NotInit /\
  (forall i j, m_get m i j = Err NotInit) /\
  (forall i j x, m_set i j x m = (m, Err NotInit)) /\
  m_is_square m = Err NotInit /\
  (forall m', m_is_same_size_as m m' = Err NotInit /\ m_is_same_size_as m' m = Err NotInit) /\
  (forall m' d, m_is_equal_to m m' d = Err NotInit /\ m_is_equal_to m' m d = Err NotInit) /\
  m_fill_identity m = (m, Err NotInit) /\
  m_transpose m = (m, Err NotInit) /\
  m_trace m = Err NotInit /\
  (forall m', m_copy_from m' m = (m, Err NotInit) /\ m_copy_from m m' = (m', Err NotInit)) /\
  (forall a b, m_add a b m = (m, Err NotInit) /\ m_sub a b m = (m, Err NotInit)) /\
  (forall a, m_add_in_place a m = (m, Err NotInit) /\ m_sub_in_place a m = (m, Err NotInit)) /\
  (forall a, m_add_in_place m a = (a, Err NotInit) /\ m_sub_in_place m a = (a, Err NotInit)) /\
  (forall a, m_add_new m a = Err NotInit /\ m_sub_new m a = Err NotInit) /\
  (forall a x, m_add_scalar a x m = (m, Err NotInit) /\ m_sub_scalar a x m = (m, Err NotInit)) /\
  (forall x, m_add_scalar_new m x = Err NotInit /\ m_sub_scalar_new m x = Err NotInit) /\
  (forall a, m_mul_new m a = Err NotInit) /\
  m_is_symmetric m = Err NotInit /\ m_is_positive_definite m = Err NotInit /\
  m_chol m = Err NotInit /\ m_det m = Err NotInit /\ m_det_naive m = Err NotInit /\
  lup m = Err NotInit /\ (forall b p, solve m b p = Err NotInit) /\
  m_invert m = (m, Err NotInit) /\ m_lr m = Err NotInit /\ m_lu_crout m = Err NotInit /\
  m_is_so_n m = Err NotInit /\ m_is_orthogonal m = Err NotInit /\
  m_log m = Err NotInit /\ m_log_in_place m = (m, Err NotInit) /\
  m_adjugate_in_place m = (m, Err NotInit) /\
  (forall q, m_dlyap m q = Err NotInit) /\
  (forall ck n s, eigen ck m n s = Err NotInit).
Proof.
  intros A m H. unfold m_is_initialized in H.
  assert (GS : forall a, m_guard_same a m = (m, Err NotInit)).
  { intros a. unfold m_guard_same, sbind, lift. rewrite m_same_uninit by auto. reflexivity. }
  assert (GS' : forall a, m_guard_same m a = (a, Err NotInit)).
  { intros a. unfold m_guard_same, sbind, lift. rewrite m_same_uninit by auto. reflexivity. }
  assert (GS2 : forall a b, m_guard_same2 a b m = (m, Err NotInit)).
  { intros a b. unfold m_guard_same2, sbind, lift. rewrite m_same_uninit by auto. reflexivity. }
  conjs; intros; try split;
    try (unfold m_reinit, m_get, m_set, m_transpose, m_add_scalar_new, m_sub_scalar_new; rewrite H; reflexivity);
    try (first [apply m_rows_uninit|apply m_cols_uninit|apply m_square_uninit|apply m_same_uninit
               |apply m_sym_uninit|apply m_pd_uninit|apply m_det_uninit|apply m_so_uninit]; auto; fail);
    try (apply sbind_err; auto; fail).
  - unfold m_is_equal_to. rewrite m_same_uninit by auto. reflexivity.
  - unfold m_is_equal_to. rewrite m_same_uninit by auto. reflexivity.
  - apply sbind_err. unfold reads. rewrite m_gsquare_uninit by auto. reflexivity.
  - unfold m_trace. rewrite m_gsquare_uninit by auto. reflexivity.
  - unfold m_add_new. rewrite m_same_uninit by auto. reflexivity.
  - unfold m_sub_new. rewrite m_same_uninit by auto. reflexivity.
  - unfold m_mul_new. rewrite m_rows_uninit by auto. reflexivity.
  - unfold m_chol. rewrite m_pd_uninit by auto. reflexivity.
  - unfold m_det_naive. rewrite m_gsquare_uninit by auto. reflexivity.
  - unfold lup. rewrite m_rows_uninit by auto. reflexivity.
  - unfold solve. rewrite m_gsquare_uninit by auto. reflexivity.
  - apply sbind_err. unfold reads. rewrite m_gsquare_uninit by auto. reflexivity.
  - unfold m_lr. rewrite m_gsquare_uninit by auto. reflexivity.
  - unfold m_lu_crout. rewrite m_gsquare_uninit by auto. reflexivity.
  - unfold m_is_orthogonal. rewrite m_det_uninit by auto. reflexivity.
  - unfold m_log. rewrite m_so_uninit by auto. reflexivity.
  - apply sbind_err. unfold reads. rewrite m_so_uninit by auto. reflexivity.
  - apply sbind_err. unfold reads. rewrite m_so_uninit by auto. reflexivity.
  - unfold m_dlyap. rewrite m_gsquare_uninit by auto. reflexivity.
  - unfold eigen. rewrite m_gsquare_uninit by auto. reflexivity.
Qed.

(*@ C09_vector_refuses *)
(** C09: the vector operations. *)
Lemma l_v_refuses :
  forall (A : Arith) (v : Vec T), v_is_initialized v = false ->
  (forall r, v_reinit r v = (v, Err NotInit)) /\
  v_get_rows v = Err NotInit /\
  (forall i, v_get v i = Err NotInit) /\
  (forall i x, v_set i x v = (v, Err NotInit)) /\
  (forall w, v_is_same_size_as v w = Err NotInit /\ v_is_same_size_as w v = Err NotInit) /\
  (forall w d, v_is_equal_to v w d = Err NotInit /\ v_is_equal_to w v d = Err NotInit) /\
  (forall w, v_copy_from w v = (v, Err NotInit) /\ v_copy_from v w = (w, Err NotInit)) /\
  (forall a b, v_add a b v = (v, Err NotInit) /\ v_sub a b v = (v, Err NotInit)) /\
  (forall a, v_add_in_place a v = (v, Err NotInit) /\ v_sub_in_place a v = (v, Err NotInit)) /\
  (forall a, v_add_new v a = Err NotInit /\ v_sub_new v a = Err NotInit) /\
  (forall a x, v_add_scalar a x v = (v, Err NotInit) /\ v_sub_scalar a x v = (v, Err NotInit) /\
               v_mul_by_scalar a x v = (v, Err NotInit)) /\
  (forall x, v_add_scalar_new v x = Err NotInit /\ v_sub_scalar_new v x = Err NotInit /\
             v_mul_by_scalar_new v x = Err NotInit) /\
  (forall w, v_dot_product v w = Err NotInit /\ v_dot_product w v = Err NotInit) /\
  (forall w, v_outer_product v w = Err NotInit) /\
  v_convert_to_matrix v = Err NotInit /\
  (forall a b x, in_range x f0 f1 = true ->
     v_slerp a b x v = (v, Err NotInit) /\ v_lerp a b x v = (v, Err NotInit)).
Proof.
  intros A v H. unfold v_is_initialized in H.
  assert (GS : forall a, v_guard_same a v = (v, Err NotInit)).
  { intros a. unfold v_guard_same, sbind, lift. rewrite v_same_uninit by auto. reflexivity. }
  assert (GS' : forall a, v_guard_same v a = (a, Err NotInit)).
  { intros a. unfold v_guard_same, sbind, lift. rewrite v_same_uninit by auto. reflexivity. }
  assert (GS2 : forall a b, v_guard_same2 a b v = (v, Err NotInit)).
  { intros a b. unfold v_guard_same2, sbind, lift. rewrite v_same_uninit by auto. reflexivity. }
  conjs; intros; conjs;
    try (unfold v_reinit, v_get, v_set, v_add_scalar_new, v_sub_scalar_new, v_mul_by_scalar_new; rewrite H; reflexivity);
    try (first [apply v_rows_uninit|apply v_same_uninit]; auto; fail);
    try (apply sbind_err; auto; fail).
  - unfold v_is_equal_to. rewrite v_same_uninit by auto. reflexivity.
  - unfold v_is_equal_to. rewrite v_same_uninit by auto. reflexivity.
  - unfold v_add_new. rewrite v_same_uninit by auto. reflexivity.
  - unfold v_sub_new. rewrite v_same_uninit by auto. reflexivity.
  - unfold v_dot_product. rewrite v_same_uninit by auto. reflexivity.
  - unfold v_dot_product. rewrite v_same_uninit by auto. reflexivity.
  - unfold v_outer_product. rewrite v_rows_uninit by auto. reflexivity.
  - unfold v_convert_to_matrix. rewrite v_rows_uninit by auto. reflexivity.
  - unfold v_slerp. rewrite H0. cbn [negb]. apply sbind_err; auto.
  - unfold v_lerp. rewrite H0. cbn [negb]. apply sbind_err; auto.
Qed.

(*@ C09_fresh_matrix_other_errors *)
(** C09: on a matrix that was never initialised, duplication, QR and diag report a size error. *)
Lemma l_m_fresh_errors :
  forall (A : Arith),
  m_duplicate mnew = Err RowsNumberNull /\ m_qr_decomp mnew = Err RowsNumberNull /\
  m_transpose_new mnew = Err RowsNumberNull /\
  (forall ck, m_diag ck mnew None = Err InvalidDiagonalLength) /\
  (forall (v : Vec T) i, wfv v -> exists e, m_set_row v i mnew = (mnew, Err e) /\
                                  m_set_col v i mnew = (mnew, Err e)).
Proof.
  intros A. conjs; try reflexivity.
  intros v i W. unfold m_set_row, m_set_col, v_get_rows.
  destruct (v_initialized v) eqn:I.
  - pose proof (wfv_pos _ W I). cbn [negb]. unfold sbind, lift. cbn [mnew m_cols m_rows].
    destruct (Nat.eqb_spec 0 (v_rows v)); [lia|]. exists InvalidSize. split; reflexivity.
  - exists NotInit. split; reflexivity.
Qed.

(*@ C09_uninitialised_use_refuted *)
(** C09 VIOLATION: operations that succeed on objects that were never initialised. *)
Lemma l_uninit_ok :
  forall (A : Arith),
  (forall x, m_fill x mnew = (mnew, Ok tt)) /\
  (forall x, m_add_scalar_in_place x mnew = (mnew, Ok tt)) /\
  (forall x, m_sub_scalar_in_place x mnew = (mnew, Ok tt)) /\
  (forall x, m_mul_by_scalar_in_place x mnew = (mnew, Ok tt)) /\
  (forall x, m_power_elements x mnew = (mnew, Ok tt)) /\
  (exists x, m_calculate_frobenius_norm mnew = Ok x) /\
  m_is_upper_triangular mnew = Ok true /\
  m_mul mnew mnew mnew = (mnew, Ok tt) /\
  (forall x, v_fill x vnew = (vnew, Ok tt)) /\
  (forall x, v_add_scalar_in_place x vnew = (vnew, Ok tt)) /\
  (forall x, v_sub_scalar_in_place x vnew = (vnew, Ok tt)) /\
  (forall x, v_mul_by_scalar_in_place x vnew = (vnew, Ok tt)) /\
  (forall x, v_power_elements x vnew = (vnew, Ok tt)) /\
  (exists x, v_calculate_norm vnew = Ok x) /\
  v_normalize vnew = (vnew, Ok tt).
Proof.
  intros A. conjs; intros; try reflexivity; try (eexists; reflexivity).
  unfold v_normalize, sbind, reads. cbn.
  destruct ((if (_ <=? _)%F then _ else _) >? EPSILON)%F; reflexivity.
Qed.

(*@ C09_u8_underflow *)
(** C09 VIOLATION: [is_lower_triangular] and [del_row] compute [rows - 1] first: with overflow
    checks they panic on a never-initialised matrix, without them the former says [true]. *)
Lemma l_underflow :
  forall (A : Arith),
  m_is_lower_triangular true mnew = Panic /\
  m_is_lower_triangular false mnew = Ok true /\
  (forall i, snd (m_del_row true i mnew) = Panic) /\
  (forall i, m_del_row false i mnew = (mnew, Err InvalidRow)).
Proof.
  intros A. conjs; try reflexivity.
Qed.

(*@ example *)
(** the two kinds of uninitialised objects: fresh, and after a failed re-initialisation *)
Example C09_example :
  let A := F32 lm_id in
  m_is_initialized mnew = false /\ v_is_initialized vnew = false /\
  (let m := fst (m_reinit 9 9 (mk_mat 1 1 [z32 3])) in
   m_is_initialized m = false /\ m_rows m = 1 /\ m_fill (z32 1) m = (m, Err NotInit)).
Proof. cbv zeta. repeat match goal with |- _ /\ _ => split end; reflexivity. Qed.
