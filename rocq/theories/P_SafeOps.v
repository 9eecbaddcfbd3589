(** C01, groundwork: one safety lemma per operation (generated shape: unfold, then apply the rules). *)
From Coq Require Import List Arith ZArith NArith Bool Lia.
From Verif Require Import M_Base M_Arith M_Utils M_Vector M_Matrix M_Quaternion S_Spec P_Hoare P_Cont P_Safe.
Import ListNotations.

Create HintDb safe.
Ltac sg :=
  lazymatch goal with
  | |- good (Good := good_any _) _ => exact I
  | |- good (Good := good_pair _ _) (_, _) => split; sg
  | _ => first [assumption | exact I | exact mnew_good | exact vnew_good | exact vu_new_good | split; sg]
  end.
#[export] Hint Extern 1 (wfm _) => sg : safe.
#[export] Hint Extern 1 (wfv _) => sg : safe.
#[export] Hint Extern 1 (wfu _) => sg : safe.
#[export] Hint Resolve m_init_S m_reinit_S v_init_S v_reinit_S vu_init_S vu_reinit_S m_get_S v_get_S vu_get_S m_set_S v_set_S vu_set_S
  m_rows_S m_cols_S v_rows_S allclose_S R_nrows R_ncols R_row R_col R_valid : safe.
Ltac dp := repeat match goal with
  | H : good (Good := good_pair _ _) ?p |- _ => is_var p; let a := fresh "a" in let b := fresh "b" in let Ha := fresh in let Hb := fresh in destruct p as [a b]; destruct H as [Ha Hb]; cbn [fst snd] in Ha, Hb
  end.
Ltac s1 :=
  lazymatch goal with
  | |- Wo _ (sbind _ _ _) => refine (W_bind _ _ _ _ _ _); [|intros]
  | |- Wo _ (sret _ _) => apply W_ret; sg
  | |- Wo _ (sthrow _ _) => apply W_throw; sg
  | |- Wo _ (lift _ _) => apply W_lift; [|sg]
  | |- Wo _ (reads _ _) => apply W_reads; [|sg]
  | |- Wo _ (for_ _ _ _) => apply W_for; [sg|intros]
  | |- Wo _ (for_break _ _ _) => apply W_for_break; [sg|intros]
  | |- Wo _ (zoom _ _ _ _) => refine (W_zoom _ _ _ _ _ _ _); [|intros; sg]
  | |- Wo _ (modify _ _) => apply W_modify; cbn [fst snd]; sg
  | |- Wo _ ((if _ then _ else _) _) => apply W_ifc; intros
  | |- Wo _ (if _ then _ else _) => apply W_if; intros
  | |- Wo _ (_, _) => apply W_pair; [sg|]
  | |- R _ (Ok _) => apply R_ok; sg
  | |- R _ (Err _) => apply R_err
  | |- R _ (rbind _ _) => refine (R_bind _ _ _ _ _); [|intros]
  | |- R _ (map_err _ _) => apply R_map_err
  | |- R _ (rfold _ _ _) => apply R_fold; [sg|intros]
  | |- R _ (rall _ _) => apply R_rall; intros
  | |- R _ (exec _ _) => apply R_exec
  | |- R _ (if _ then _ else _) => apply R_if; intros
  | |- good _ => sg
  | |- _ => solve [eauto with safe]
  end.
Ltac sv := dp; cbv beta zeta; cbn [fst snd]; try (s1; sv).

Section Ops.
  Context {A : Arith} {OK : ArithOk A}.
  Notation V := (Vec T).
  Notation M := (Mat T).
  Notation E := LinalgError.
  Variable P : Prop.
  Lemma v_loop_S e (v : V) : (forall v' i, wfv v' -> R P (e v' i)) -> wfv v -> Wo P (v_loop e v).
  Proof. intros He H. unfold v_loop. sv. Qed.
  Lemma m_loop_S e (m : M) : (forall m' i j, wfm m' -> R P (e m' i j)) -> wfm m -> Wo P (m_loop e m).
  Proof. intros He H. unfold m_loop. sv. Qed.
  Hint Extern 2 (Wo _ (v_loop _ _)) => apply v_loop_S; [intros; sv|sg] : safe.
  Hint Extern 2 (Wo _ (m_loop _ _)) => apply m_loop_S; [intros; sv|sg] : safe.
  Lemma v_fill_S (x : T) (v : V) : wfv v -> Wo P (v_fill x v).
  Proof. intros. unfold v_fill. sv. Qed.
  Hint Resolve v_fill_S : safe.
  Lemma v_is_same_size_as_S (a : V) (b : V) : wfv a -> wfv b -> R P (v_is_same_size_as a b).
  Proof. intros. unfold v_is_same_size_as. sv. Qed.
  Hint Resolve v_is_same_size_as_S : safe.
  Lemma v_is_equal_to_S (a : V) (b : V) (d : T) : wfv a -> wfv b -> R P (v_is_equal_to a b d).
  Proof. intros. unfold v_is_equal_to. sv. Qed.
  Hint Resolve v_is_equal_to_S : safe.
  Lemma v_guard_same_S (a : V) (v : V) : wfv a -> wfv v -> Wo P (v_guard_same a v).
  Proof. intros. unfold v_guard_same. sv. Qed.
  Hint Resolve v_guard_same_S : safe.
  Lemma v_guard_same2_S (a : V) (b : V) (v : V) : wfv a -> wfv b -> wfv v -> Wo P (v_guard_same2 a b v).
  Proof. intros. unfold v_guard_same2. sv. Qed.
  Hint Resolve v_guard_same2_S : safe.
  Lemma v_copy_from_S (a : V) (v : V) : wfv a -> wfv v -> Wo P (v_copy_from a v).
  Proof. intros. unfold v_copy_from. sv. Qed.
  Hint Resolve v_copy_from_S : safe.
  Lemma v_duplicate_S (a : V) : wfv a -> R P (v_duplicate a).
  Proof. intros. unfold v_duplicate. sv. Qed.
  Hint Resolve v_duplicate_S : safe.
  Lemma v_add_S (a : V) (b : V) (v : V) : wfv a -> wfv b -> wfv v -> Wo P (v_add a b v).
  Proof. intros. unfold v_add. sv. Qed.
  Hint Resolve v_add_S : safe.
  Lemma v_add_in_place_S (a : V) (v : V) : wfv a -> wfv v -> Wo P (v_add_in_place a v).
  Proof. intros. unfold v_add_in_place. sv. Qed.
  Hint Resolve v_add_in_place_S : safe.
  Lemma v_add_new_S (a : V) (b : V) : wfv a -> wfv b -> R P (v_add_new a b).
  Proof. intros. unfold v_add_new. sv. Qed.
  Hint Resolve v_add_new_S : safe.
  Lemma v_add_scalar_S (a : V) (x : T) (v : V) : wfv a -> wfv v -> Wo P (v_add_scalar a x v).
  Proof. intros. unfold v_add_scalar. sv. Qed.
  Hint Resolve v_add_scalar_S : safe.
  Lemma v_add_scalar_in_place_S (x : T) (v : V) : wfv v -> Wo P (v_add_scalar_in_place x v).
  Proof. intros. unfold v_add_scalar_in_place. sv. Qed.
  Hint Resolve v_add_scalar_in_place_S : safe.
  Lemma v_add_scalar_new_S (a : V) (x : T) : wfv a -> R P (v_add_scalar_new a x).
  Proof. intros. unfold v_add_scalar_new. sv. Qed.
  Hint Resolve v_add_scalar_new_S : safe.
  Lemma v_sub_S (a : V) (b : V) (v : V) : wfv a -> wfv b -> wfv v -> Wo P (v_sub a b v).
  Proof. intros. unfold v_sub. sv. Qed.
  Hint Resolve v_sub_S : safe.
  Lemma v_sub_in_place_S (a : V) (v : V) : wfv a -> wfv v -> Wo P (v_sub_in_place a v).
  Proof. intros. unfold v_sub_in_place. sv. Qed.
  Hint Resolve v_sub_in_place_S : safe.
  Lemma v_sub_new_S (a : V) (b : V) : wfv a -> wfv b -> R P (v_sub_new a b).
  Proof. intros. unfold v_sub_new. sv. Qed.
  Hint Resolve v_sub_new_S : safe.
  Lemma v_sub_scalar_S (a : V) (x : T) (v : V) : wfv a -> wfv v -> Wo P (v_sub_scalar a x v).
  Proof. intros. unfold v_sub_scalar. sv. Qed.
  Hint Resolve v_sub_scalar_S : safe.
  Lemma v_sub_scalar_in_place_S (x : T) (v : V) : wfv v -> Wo P (v_sub_scalar_in_place x v).
  Proof. intros. unfold v_sub_scalar_in_place. sv. Qed.
  Hint Resolve v_sub_scalar_in_place_S : safe.
  Lemma v_sub_scalar_new_S (a : V) (x : T) : wfv a -> R P (v_sub_scalar_new a x).
  Proof. intros. unfold v_sub_scalar_new. sv. Qed.
  Hint Resolve v_sub_scalar_new_S : safe.
  Lemma v_calculate_norm_S (a : V) : wfv a -> R P (v_calculate_norm a).
  Proof. intros. unfold v_calculate_norm. sv. Qed.
  Hint Resolve v_calculate_norm_S : safe.
  Lemma v_normalize_S (v : V) : wfv v -> Wo P (v_normalize v).
  Proof. intros. unfold v_normalize. sv. Qed.
  Hint Resolve v_normalize_S : safe.
  Lemma v_mul_by_scalar_S (a : V) (x : T) (v : V) : wfv a -> wfv v -> Wo P (v_mul_by_scalar a x v).
  Proof. intros. unfold v_mul_by_scalar. sv. Qed.
  Hint Resolve v_mul_by_scalar_S : safe.
  Lemma v_mul_by_scalar_in_place_S (x : T) (v : V) : wfv v -> Wo P (v_mul_by_scalar_in_place x v).
  Proof. intros. unfold v_mul_by_scalar_in_place. sv. Qed.
  Hint Resolve v_mul_by_scalar_in_place_S : safe.
  Lemma v_mul_by_scalar_new_S (a : V) (x : T) : wfv a -> R P (v_mul_by_scalar_new a x).
  Proof. intros. unfold v_mul_by_scalar_new. sv. Qed.
  Hint Resolve v_mul_by_scalar_new_S : safe.
  Lemma v_dot_product_S (a : V) (b : V) : wfv a -> wfv b -> R P (v_dot_product a b).
  Proof. intros. unfold v_dot_product. sv. Qed.
  Hint Resolve v_dot_product_S : safe.
  Lemma v_copy_of_size_S (a : V) (b : V) : wfv a -> wfv b -> R P (v_copy_of_size a b).
  Proof. intros. unfold v_copy_of_size. sv. Qed.
  Hint Resolve v_copy_of_size_S : safe.
  Lemma v_slerp_S (a : V) (b : V) (x : T) (v : V) : wfv a -> wfv b -> wfv v -> Wo P (v_slerp a b x v).
  Proof. intros. unfold v_slerp. sv. Qed.
  Hint Resolve v_slerp_S : safe.
  Lemma v_lerp_S (a : V) (b : V) (x : T) (v : V) : wfv a -> wfv b -> wfv v -> Wo P (v_lerp a b x v).
  Proof. intros. unfold v_lerp. sv. Qed.
  Hint Resolve v_lerp_S : safe.
  Lemma v_power_elements_S (x : T) (v : V) : wfv v -> Wo P (v_power_elements x v).
  Proof. intros. unfold v_power_elements. sv. Qed.
  Hint Resolve v_power_elements_S : safe.
  Lemma m_set_row_S (v : V) (i : nat) (m : M) : wfv v -> wfm m -> Wo P (m_set_row v i m).
  Proof. intros. unfold m_set_row. sv. Qed.
  Hint Resolve m_set_row_S : safe.
  Lemma m_set_col_S (v : V) (i : nat) (m : M) : wfv v -> wfm m -> Wo P (m_set_col v i m).
  Proof. intros. unfold m_set_col. sv. Qed.
  Hint Resolve m_set_col_S : safe.
  Lemma m_get_row_S (m : M) (i : nat) (v : V) : wfm m -> wfv v -> Wo P (m_get_row m i v).
  Proof. intros. unfold m_get_row. sv. Qed.
  Hint Resolve m_get_row_S : safe.
  Lemma m_get_col_S (m : M) (i : nat) (v : V) : wfm m -> wfv v -> Wo P (m_get_col m i v).
  Proof. intros. unfold m_get_col. sv. Qed.
  Hint Resolve m_get_col_S : safe.
  Lemma m_row_to_vector_S (m : M) (i : nat) : wfm m -> R P (m_row_to_vector m i).
  Proof. intros. unfold m_row_to_vector. sv. Qed.
  Hint Resolve m_row_to_vector_S : safe.
  Lemma m_col_to_vector_S (m : M) (i : nat) : wfm m -> R P (m_col_to_vector m i).
  Proof. intros. unfold m_col_to_vector. sv. Qed.
  Hint Resolve m_col_to_vector_S : safe.
  Lemma m_fill_S (x : T) (m : M) : wfm m -> Wo P (m_fill x m).
  Proof. intros. unfold m_fill. sv. Qed.
  Hint Resolve m_fill_S : safe.
  Lemma m_is_same_size_as_S (a : M) (b : M) : wfm a -> wfm b -> R P (m_is_same_size_as a b).
  Proof. intros. unfold m_is_same_size_as. sv. Qed.
  Hint Resolve m_is_same_size_as_S : safe.
  Lemma m_is_square_S (a : M) : wfm a -> R P (m_is_square a).
  Proof. intros. unfold m_is_square. sv. Qed.
  Hint Resolve m_is_square_S : safe.
  Lemma m_is_equal_to_S (a : M) (b : M) (d : T) : wfm a -> wfm b -> R P (m_is_equal_to a b d).
  Proof. intros. unfold m_is_equal_to. sv. Qed.
  Hint Resolve m_is_equal_to_S : safe.
  Lemma m_guard_square_S (a : M) : wfm a -> R P (m_guard_square a).
  Proof. intros. unfold m_guard_square. sv. Qed.
  Hint Resolve m_guard_square_S : safe.
  Lemma m_guard_same_S (a : M) (m : M) : wfm a -> wfm m -> Wo P (m_guard_same a m).
  Proof. intros. unfold m_guard_same. sv. Qed.
  Hint Resolve m_guard_same_S : safe.
  Lemma m_guard_same2_S (a : M) (b : M) (m : M) : wfm a -> wfm b -> wfm m -> Wo P (m_guard_same2 a b m).
  Proof. intros. unfold m_guard_same2. sv. Qed.
  Hint Resolve m_guard_same2_S : safe.
  Lemma m_fill_identity_S (m : M) : wfm m -> Wo P (m_fill_identity m).
  Proof. intros. unfold m_fill_identity. sv. Qed.
  Hint Resolve m_fill_identity_S : safe.
  Lemma m_copy_from_S (a : M) (m : M) : wfm a -> wfm m -> Wo P (m_copy_from a m).
  Proof. intros. unfold m_copy_from. sv. Qed.
  Hint Resolve m_copy_from_S : safe.
  Lemma m_duplicate_S (a : M) : wfm a -> R P (m_duplicate a).
  Proof. intros. unfold m_duplicate. sv. Qed.
  Hint Resolve m_duplicate_S : safe.
  Lemma m_add_S (a : M) (b : M) (m : M) : wfm a -> wfm b -> wfm m -> Wo P (m_add a b m).
  Proof. intros. unfold m_add. sv. Qed.
  Hint Resolve m_add_S : safe.
  Lemma m_add_in_place_S (a : M) (m : M) : wfm a -> wfm m -> Wo P (m_add_in_place a m).
  Proof. intros. unfold m_add_in_place. sv. Qed.
  Hint Resolve m_add_in_place_S : safe.
  Lemma m_add_new_S (a : M) (b : M) : wfm a -> wfm b -> R P (m_add_new a b).
  Proof. intros. unfold m_add_new. sv. Qed.
  Hint Resolve m_add_new_S : safe.
  Lemma m_add_scalar_S (a : M) (x : T) (m : M) : wfm a -> wfm m -> Wo P (m_add_scalar a x m).
  Proof. intros. unfold m_add_scalar. sv. Qed.
  Hint Resolve m_add_scalar_S : safe.
  Lemma m_add_scalar_in_place_S (x : T) (m : M) : wfm m -> Wo P (m_add_scalar_in_place x m).
  Proof. intros. unfold m_add_scalar_in_place. sv. Qed.
  Hint Resolve m_add_scalar_in_place_S : safe.
  Lemma m_add_scalar_new_S (a : M) (x : T) : wfm a -> R P (m_add_scalar_new a x).
  Proof. intros. unfold m_add_scalar_new. sv. Qed.
  Hint Resolve m_add_scalar_new_S : safe.
  Lemma m_sub_S (a : M) (b : M) (m : M) : wfm a -> wfm b -> wfm m -> Wo P (m_sub a b m).
  Proof. intros. unfold m_sub. sv. Qed.
  Hint Resolve m_sub_S : safe.
  Lemma m_sub_in_place_S (a : M) (m : M) : wfm a -> wfm m -> Wo P (m_sub_in_place a m).
  Proof. intros. unfold m_sub_in_place. sv. Qed.
  Hint Resolve m_sub_in_place_S : safe.
  Lemma m_sub_new_S (a : M) (b : M) : wfm a -> wfm b -> R P (m_sub_new a b).
  Proof. intros. unfold m_sub_new. sv. Qed.
  Hint Resolve m_sub_new_S : safe.
  Lemma m_sub_scalar_S (a : M) (x : T) (m : M) : wfm a -> wfm m -> Wo P (m_sub_scalar a x m).
  Proof. intros. unfold m_sub_scalar. sv. Qed.
  Hint Resolve m_sub_scalar_S : safe.
  Lemma m_sub_scalar_in_place_S (x : T) (m : M) : wfm m -> Wo P (m_sub_scalar_in_place x m).
  Proof. intros. unfold m_sub_scalar_in_place. sv. Qed.
  Hint Resolve m_sub_scalar_in_place_S : safe.
  Lemma m_sub_scalar_new_S (a : M) (x : T) : wfm a -> R P (m_sub_scalar_new a x).
  Proof. intros. unfold m_sub_scalar_new. sv. Qed.
  Hint Resolve m_sub_scalar_new_S : safe.
  Lemma m_mul_S (a : M) (b : M) (m : M) : wfm a -> wfm b -> wfm m -> Wo P (m_mul a b m).
  Proof. intros. unfold m_mul. sv. refine (W_local _ _ _ _ _). sv. match goal with H : good ?s |- Wo _ (let (_, _) := m_set ?i ?j ?x ?s in _) => destruct (m_set_S P i j x s H) as [G1 G2]; destruct (m_set i j x s) end. split; [split|]; sg. Qed.
  Hint Resolve m_mul_S : safe.
  Lemma m_mul_new_S (a : M) (b : M) : wfm a -> wfm b -> R P (m_mul_new a b).
  Proof. intros. unfold m_mul_new. sv. Qed.
  Hint Resolve m_mul_new_S : safe.
  Lemma swap_good (m : M) : wfm m -> wfm (mkMat (m_cols m) (m_rows m) (m_elems m) (m_initialized m)).
  Proof. intros [L Hr Hc Hp F]. split; cbn; auto. tauto. Qed.
  Lemma m_transpose_S (m : M) : wfm m -> Wo P (m_transpose m).
  Proof. intros. unfold m_transpose. sv. apply W_modify. apply swap_good. sg. Qed.
  Hint Resolve m_transpose_S : safe.
  Lemma m_transpose_new_S (a : M) : wfm a -> R P (m_transpose_new a).
  Proof. intros. unfold m_transpose_new. sv. Qed.
  Hint Resolve m_transpose_new_S : safe.
  Lemma m_mul_by_scalar_in_place_S (x : T) (m : M) : wfm m -> Wo P (m_mul_by_scalar_in_place x m).
  Proof. intros. unfold m_mul_by_scalar_in_place. sv. Qed.
  Hint Resolve m_mul_by_scalar_in_place_S : safe.
  Lemma m_power_elements_S (x : T) (m : M) : wfm m -> Wo P (m_power_elements x m).
  Proof. intros. unfold m_power_elements. sv. Qed.
  Hint Resolve m_power_elements_S : safe.
  Lemma m_trace_S (a : M) : wfm a -> R P (m_trace a).
  Proof. intros. unfold m_trace. sv. Qed.
  Hint Resolve m_trace_S : safe.
  Lemma v_outer_product_S (a : V) (b : V) : wfv a -> wfv b -> R P (v_outer_product a b).
  Proof. intros. unfold v_outer_product. sv. Qed.
  Hint Resolve v_outer_product_S : safe.
  Lemma v_convert_to_matrix_S (a : V) : wfv a -> R P (v_convert_to_matrix a).
  Proof. intros. unfold v_convert_to_matrix. sv. Qed.
  Hint Resolve v_convert_to_matrix_S : safe.
  Lemma lu_get_S a b (s : M * Vec nat) : good s -> R P (lu_get a b s).
  Proof. intros. dp. unfold lu_get. sv. Qed.
  Lemma lu_set_S a b x (s : M * Vec nat) : good s -> Wo P (lu_set a b x s).
  Proof. intros. dp. unfold lu_set. sv. Qed.
  Lemma p_set_S a x (s : M * Vec nat) : good s -> Wo P (p_set a x s).
  Proof. intros. dp. unfold p_set. sv. Qed.
  Hint Extern 2 (R _ (lu_get _ _ _)) => apply lu_get_S; sg : safe.
  Hint Extern 2 (Wo _ (lu_set _ _ _ _)) => apply lu_set_S; sg : safe.
  Hint Extern 2 (Wo _ (p_set _ _ _)) => apply p_set_S; sg : safe.
  Lemma lup_step_S r c i (s : M * Vec nat) : good s -> Wo P (lup_step r c i s).
  Proof. intros. dp. unfold lup_step. sv. Qed.
  Hint Extern 2 (Wo _ (lup_step _ _ _ _)) => apply lup_step_S; sg : safe.
  Lemma lup_S (a : M) : wfm a -> R P (lup a).
  Proof. intros. unfold lup. sv. Qed.
  Hint Resolve lup_S : safe.
  Lemma solve_S (a : M) (b : V) (p : Vec nat) : wfm a -> wfv b -> wfu p -> R P (solve a b p).
  Proof. intros. unfold solve. sv. Qed.
  Hint Resolve solve_S : safe.
  Lemma not_inv_S {X} {g : Good X} (r : res E X) : R P r -> R P (to_not_inversible r).
  Proof. apply R_map_err. Qed.
  Hint Resolve not_inv_S : safe.
  Lemma m_invert_S (m : M) : wfm m -> Wo P (m_invert m).
  Proof. intros. unfold m_invert, on_tmp, on_self. sv. refine (W_local _ _ _ _ _). sv. Qed.
  Hint Resolve m_invert_S : safe.
  #[local] Instance good_lr : Good LRs := fun s => wfm (lr_l s) /\ wfm (lr_r s).
  Ltac dl := repeat match goal with H : good (Good := good_lr) ?p |- _ => destruct H as [? ?] end.
  Lemma on_l_S {X} {g : Good X} (c : ST M E X) (s : LRs) : good s -> Wo P (c (lr_l s)) -> Wo P (on_l c s).
  Proof. intros H K. unfold on_l. refine (W_zoom _ _ _ _ _ _ _); [exact K|]. intros s' Hs. dl. split; [exact Hs|auto]. Qed.
  Lemma on_r_S {X} {g : Good X} (c : ST M E X) (s : LRs) : good s -> Wo P (c (lr_r s)) -> Wo P (on_r c s).
  Proof. intros H K. unfold on_r. refine (W_zoom _ _ _ _ _ _ _); [exact K|]. intros s' Hs. dl. split; [auto|exact Hs]. Qed.
  Lemma set_sum_S f (s : LRs) : good s -> Wo P (set_sum f s).
  Proof. intros H. unfold set_sum. apply W_modify. exact H. Qed.
  Lemma lr_l_S (s : LRs) : good s -> wfm (lr_l s). Proof. intros H. dl. auto. Qed.
  Lemma lr_r_S (s : LRs) : good s -> wfm (lr_r s). Proof. intros H. dl. auto. Qed.
  Hint Extern 1 (wfm (lr_l _)) => apply lr_l_S; assumption : safe.
  Hint Extern 1 (wfm (lr_r _)) => apply lr_r_S; assumption : safe.
  Hint Extern 2 (Wo _ (on_l _ _)) => apply on_l_S; [first [assumption | split; assumption]|cbn [lr_l]; sv] : safe.
  Hint Extern 2 (Wo _ (on_r _ _)) => apply on_r_S; [first [assumption | split; assumption]|cbn [lr_r]; sv] : safe.
  Hint Extern 2 (Wo _ (set_sum _ _)) => apply set_sum_S; assumption : safe.
  Lemma m_lr_S (a : M) : wfm a -> R P (m_lr a).
  Proof. intros. unfold m_lr. sv. all: try (split; assumption); try (dl; split; assumption). Qed.
  Hint Resolve m_lr_S : safe.
  Lemma m_lu_crout_S (a : M) : wfm a -> R P (m_lu_crout a).
  Proof. intros. unfold m_lu_crout. sv. all: try (split; assumption); try (dl; split; assumption). Qed.
  Hint Resolve m_lu_crout_S : safe.
  Lemma m_qr_decomp_S (a : M) : wfm a -> R P (m_qr_decomp a).
  Proof. intros. unfold m_qr_decomp. sv. Qed.
  Hint Resolve m_qr_decomp_S : safe.
  Lemma m_is_upper_triangular_S (a : M) : wfm a -> R P (m_is_upper_triangular a).
  Proof. intros. unfold m_is_upper_triangular. sv. Qed.
  Hint Resolve m_is_upper_triangular_S : safe.
  Lemma u8_sub_S ck a b : (ck = true -> a < b -> P) -> R P (u8_sub (E := E) ck a b).
  Proof. intros H. unfold u8_sub. destruct (Nat.leb_spec b a); [exact I|]. destruct ck; [apply H; auto|exact I]. Qed.
  Lemma u8_add_S ck a b : (ck = true -> 256 <= a + b -> P) -> R P (u8_add (E := E) ck a b).
  Proof. intros H. unfold u8_add. destruct (Nat.ltb_spec (a + b) 256); [exact I|]. destruct ck; [apply H; auto|exact I]. Qed.
  Lemma m_is_lower_triangular_S ck (a : M) : (ck = true -> m_rows a = 0 -> P) -> wfm a -> R P (m_is_lower_triangular ck a).
  Proof. intros HP H. unfold m_is_lower_triangular. sv. apply u8_sub_S. intros. apply HP; auto. lia. Qed.
  Lemma m_calculate_frobenius_norm_S (a : M) : wfm a -> R P (m_calculate_frobenius_norm a).
  Proof. intros. unfold m_calculate_frobenius_norm. sv. Qed.
  Hint Resolve m_calculate_frobenius_norm_S : safe.
  Lemma m_det_S (a : M) : wfm a -> R P (m_det a).
  Proof. intros. unfold m_det. sv. Qed.
  Hint Resolve m_det_S : safe.
  Lemma gp_S n : n <= 4 -> match generate_permutations n with Ok l => Forall (fun p => length p = 4) l | Err _ => True | Panic => False end.
  Proof. intros H. destruct n as [|[|[|[|[|n]]]]]; [| | | | |lia]; vm_compute; auto; repeat (constructor; [reflexivity|]); constructor. Qed.
  Lemma fact_S n : n <= 4 -> R P (factorial true n).
  Proof. intros H. destruct n as [|[|[|[|[|n]]]]]; [| | | | |lia]; exact I. Qed.
  Lemma m_det_naive_S (a : M) : wfm a -> R P (m_det_naive a).
  Proof.
    intros H. unfold m_det_naive. s1; [sv|]. refine (R_bind_k _ _ _ _ _).
    { pose proof (gp_S (m_rows a) (wfm_rows a H)) as G. destruct (generate_permutations (m_rows a)); [exact I|exact I|destruct G]. }
    intros l El _. pose proof (gp_S (m_rows a) (wfm_rows a H)) as G. rewrite El in G. clear El. s1; [apply fact_S; apply H|].
    match goal with |- context [firstn ?k l] => assert (GF : Forall (fun p => length p = 4) (firstn k l)) by (rewrite <- (firstn_skipn k l) in G; apply Forall_app in G; tauto); revert GF; generalize (firstn k l) end.
    generalize (@f0 A). intros d l' F. revert d. induction F as [|p l' Hp F IH]; intros d; [exact I|].
    refine (R_bind _ _ _ _ _).
    - apply R_fold; [exact I|]. intros i x Hi _. apply in_range_ in Hi. pose proof (wfm_rows a H). sv. apply R_arr; [lia|apply any_Forall].
    - intros x _. refine (R_bind _ _ _ _ _); [|intros y _; apply IH].
      unfold count_inversions. apply R_fold; [exact I|]. intros i z Hi _. apply R_fold; [exact I|]. intros j w Hj _. apply in_range_ in Hi, Hj. pose proof (wfm_rows a H).
      sv; (apply R_arr; [lia|apply any_Forall]).
  Qed.
  Hint Resolve m_det_naive_S : safe.
  Lemma m_is_symmetric_S (a : M) : wfm a -> R P (m_is_symmetric a).
  Proof. intros. unfold m_is_symmetric. sv. Qed.
  Hint Resolve m_is_symmetric_S : safe.
  Lemma m_is_positive_definite_S (a : M) : wfm a -> R P (m_is_positive_definite a).
  Proof. intros. unfold m_is_positive_definite. sv. Qed.
  Hint Resolve m_is_positive_definite_S : safe.
  Lemma m_chol_S (a : M) : wfm a -> R P (m_chol a).
  Proof. intros. unfold m_chol. sv. Qed.
  Hint Resolve m_chol_S : safe.
  Lemma m_dlyap_S (a : M) (q : M) : wfm a -> wfm q -> R P (m_dlyap a q).
  Proof. intros. unfold m_dlyap. sv. Qed.
  Hint Resolve m_dlyap_S : safe.
  Lemma m_times_transpose_is_identity_S (a : M) : wfm a -> R P (m_times_transpose_is_identity a).
  Proof. intros. unfold m_times_transpose_is_identity. sv. Qed.
  Hint Resolve m_times_transpose_is_identity_S : safe.
  Lemma m_is_orthogonal_S (a : M) : wfm a -> R P (m_is_orthogonal a).
  Proof. intros. unfold m_is_orthogonal. sv. Qed.
  Hint Resolve m_is_orthogonal_S : safe.
  Lemma m_is_so_n_S (a : M) : wfm a -> R P (m_is_so_n a).
  Proof. intros. unfold m_is_so_n. sv. Qed.
  Hint Resolve m_is_so_n_S : safe.
  Lemma m_log_S (a : M) : wfm a -> R P (m_log a).
  Proof. intros. unfold m_log. sv. Qed.
  Hint Resolve m_log_S : safe.
  Lemma m_log_in_place_S (m : M) : wfm m -> Wo P (m_log_in_place m).
  Proof. intros. unfold m_log_in_place. sv. Qed.
  Hint Resolve m_log_in_place_S : safe.
  Lemma m_adjugate_in_place_S (m : M) : wfm m -> Wo P (m_adjugate_in_place m).
  Proof. intros. unfold m_adjugate_in_place. sv. Qed.
  Hint Resolve m_adjugate_in_place_S : safe.
  Lemma m_set_rows_S n (m : M) : wfm m -> Wo P (m_set_rows n m).
  Proof.
    intros H. unfold m_set_rows. apply W_if; intros B1; [sv|]. apply W_if; intros B2; [sv|].
    refine (W_lift_k _ _ _ _ _ _ _); [apply R_nrows|exact H|]. intros [] Er _. apply W_modify. apply nrows_ok in Er. destruct H as [L Hr Hc Hp F]. split; cbn; auto; try lia. intros I'. apply Hp in I'. lia.
  Qed.
  Lemma new_elems_S (m : M) cols : wfm m -> m_cols m <= 4 -> cols <= 4 ->
    rwp (rfold (E := E) (range 0 (m_rows m)) (fun row ne =>
              let old_offset := row * m_cols m in
              let new_offset := row * cols in
              rfold (range 0 (m_cols m)) (fun col ne =>
                let? x := arr_get (m_elems m) (old_offset + col) in
                arr_set ne (new_offset + col) x) ne) (repeat f0 (M_MAX * N_MAX)))
      (fun l => length l = 16 /\ Forall valid l) (fun _ => True) False.
  Proof.
    intros H C1 C2. destruct H as [L Hr Hc Hp F].
    assert (I0 : length (repeat (f0 (A := A)) (M_MAX * N_MAX)) = 16 /\ Forall valid (repeat (f0 (A := A)) (M_MAX * N_MAX))).
    { split; [reflexivity|]. apply Forall_forall. intros x Hx. apply repeat_spec in Hx. subst. apply ok_f0. }
    revert I0. generalize (repeat (f0 (A := A)) (M_MAX * N_MAX)). intros l0 I0.
    apply (rwp_fold (fun _ l => length l = 16 /\ Forall valid l)); [exact I0| |auto].
    intros i l Hi Il. cbv zeta. apply (rwp_fold (fun _ l => length l = 16 /\ Forall valid l)); [exact Il| |auto].
    intros j l1 Hj [L1 F1]. unfold arr_get. destruct (nth_error (m_elems m) (i * m_cols m + j)) as [x|] eqn:N; [|apply nth_error_None in N; nia].
    cbn [rbind]. unfold arr_set. rewrite (proj2 (Nat.ltb_lt (i * cols + j) (length l1))) by nia. cbn [rwp]. split; [rewrite upd_length; auto|]. apply upd_Forall; auto.
    rewrite Forall_forall in F. apply F. eapply nth_error_In; eauto.
  Qed.
  Lemma m_set_cols_S n (m : M) : wfm m -> Wo P (m_set_cols n m).
  Proof.
    intros H. unfold m_set_cols. apply W_if; intros B1; [sv|]. apply W_if; intros B2; [sv|].
    refine (W_lift_k _ _ _ _ _ _ _); [apply R_ncols|exact H|]. intros [] Ec _. apply ncols_ok in Ec.
    pose proof (new_elems_S m n H ltac:(apply H) ltac:(lia)) as G.
    match type of G with rwp ?r _ _ _ => destruct r as [l|e|] eqn:El; cbn [rwp] in G end.
    - unfold sbind at 1, lift at 1. apply W_modify. destruct H as [L Hr Hc Hp F], G. split; cbn; auto; try lia. intros I'. apply Hp in I'. lia.
    - split; [exact H|exact I].
    - destruct G.
  Qed.
  Hint Resolve m_set_rows_S m_set_cols_S : safe.
  Lemma m_add_row_S ck (v : V) i (m : M) : (ck = true -> 255 <= i -> P) -> wfv v -> wfm m -> Wo P (m_add_row ck v i m).
  Proof.
    intros HP Hv H. unfold m_add_row. pose proof (wfm_rows m H) as Hr.
    refine (W_lift_k _ _ _ _ _ _ _); [apply u8_add_S; lia|exact H|]. intros rows _ _.
    s1; [sv|]. s1; [sv|]. refine (W_lift_k _ _ _ _ _ _ _); [apply u8_add_S; intros; apply HP; auto; lia|sg|]. intros r1 E1 _.
    s1; [|sv]. s1. apply in_rev in H4. apply in_range_ in H4. s1; [sv|]. s1. s1; [|sv].
    sv. apply u8_sub_S. intros -> Z. exfalso. unfold u8_add in E1. destruct (Nat.ltb_spec (i + 1) 256); [|discriminate]. injection E1 as <-. lia.
  Qed.
  Lemma m_add_col_S ck (v : V) i (m : M) : (ck = true -> 255 <= i -> P) -> wfv v -> wfm m -> Wo P (m_add_col ck v i m).
  Proof.
    intros HP Hv H. unfold m_add_col. pose proof (wfm_cols m H) as Hr.
    refine (W_lift_k _ _ _ _ _ _ _); [apply u8_add_S; lia|exact H|]. intros rows _ _.
    s1; [sv|]. s1; [sv|]. refine (W_lift_k _ _ _ _ _ _ _); [apply u8_add_S; intros; apply HP; auto; lia|sg|]. intros r1 E1 _.
    s1; [|sv]. s1. apply in_rev in H4. apply in_range_ in H4. s1; [sv|]. s1. s1; [|sv].
    sv. apply u8_sub_S. intros -> Z. exfalso. unfold u8_add in E1. destruct (Nat.ltb_spec (i + 1) 256); [|discriminate]. injection E1 as <-. lia.
  Qed.
  Lemma m_del_row_S ck i (m : M) : (ck = true -> m_rows m = 0 -> P) -> wfm m -> Wo P (m_del_row ck i m).
  Proof.
    intros HP H. unfold m_del_row.
    refine (W_lift_k _ _ _ _ _ _ _); [apply u8_sub_S; intros; apply HP; auto; lia|exact H|]. intros rows _ _.
    refine (W_lift_k _ _ _ _ _ _ _); [apply R_row|exact H|]. intros [] _ _.
    refine (W_lift_k _ _ _ _ _ _ _); [apply R_nrows|exact H|]. intros [] Er _. apply nrows_ok in Er.
    s1; [sv|]. s1; [sv|]. s1; [|sv]. apply W_modify. destruct H3 as [L Hr Hc Hp F]. split; cbn; auto; try lia. intros I'. apply Hp in I'. lia.
  Qed.
  Lemma m_diag_S ck (a : M) k : (match k with Some k => -128 <= k <= 127 | None => True end)%Z -> wfm a -> R P (m_diag ck a k).
  Proof.
    intros Hk H. unfold m_diag. pose proof (wfm_rows a H) as Hr. pose proof (wfm_cols a H) as Hc.
    assert (Hz : (-128 <= match k with Some k => k | None => 0 end <= 127)%Z) by (destruct k; lia). revert Hz. generalize (match k with Some k => k | None => 0%Z end). clear k Hk. intros k Hk.
    assert (CK : forall z, (-128 <= z <= 127)%Z -> i8_chk (E := E) ck z = Ok z).
    { intros z Hz. unfold i8_chk. rewrite (proj2 (Z.leb_le (-128) z)), (proj2 (Z.leb_le z 127)) by lia. reflexivity. }
    cbv zeta. refine (R_bind_k _ _ _ _ _).
    - destruct (Z.leb_spec 0 k); rewrite CK by lia; exact I.
    - intros d Ed _. apply R_if; intros B; [exact I|]. apply Z.leb_gt in B. sv.
      + match goal with H : In _ (range _ _) |- _ => apply in_range_ in H end. match goal with H : (0 <=? k)%Z = _ |- _ => rename H into B2 end. apply Z.leb_gt in B2. rewrite CK; [exact I|].
        rewrite (proj2 (Z.leb_gt 0 k)) in Ed by lia. rewrite CK in Ed by lia. cbn in Ed. injection Ed as <-. unfold min_i8 in *. destruct (Z.ltb_spec (Z.of_nat (m_rows a) + k) (Z.of_nat (m_cols a))); lia.
      + match goal with H : In _ (range _ _) |- _ => apply in_range_ in H end. match goal with H : (0 <=? k)%Z = _ |- _ => rename H into B2 end. apply Z.leb_le in B2. rewrite CK; [exact I|].
        rewrite (proj2 (Z.leb_le 0 k)) in Ed by lia. rewrite CK in Ed by lia. cbn in Ed. injection Ed as <-. unfold min_i8 in *. destruct (Z.ltb_spec (Z.of_nat (m_rows a)) (Z.of_nat (m_cols a) - k)); lia.
  Qed.
  #[local] Instance good_eg : Good EigSt := fun s => (wfm (eg_a s) /\ wfm (eg_vectors s)) /\ (wfv (eg_values s) /\ wfv (eg_prev s)).
  Ltac de := repeat match goal with H : good (Good := good_eg) ?p |- _ => destruct H as [[? ?] [? ?]] end.
  Lemma eg_a_S (s : EigSt) : good s -> wfm (eg_a s). Proof. intros H. de. auto. Qed.
  Lemma eg_vec_S (s : EigSt) : good s -> wfm (eg_vectors s). Proof. intros H. de. auto. Qed.
  Lemma eg_val_S (s : EigSt) : good s -> wfv (eg_values s). Proof. intros H. de. auto. Qed.
  Lemma eg_prev_S (s : EigSt) : good s -> wfv (eg_prev s). Proof. intros H. de. auto. Qed.
  Hint Extern 1 (wfm (eg_a _)) => apply eg_a_S; assumption : safe.
  Hint Extern 1 (R _ (Ok (eg_a _))) => apply R_ok, eg_a_S; assumption : safe.
  Lemma eig_step_S ck m sh (s : EigSt) : (ck = true -> sh = true -> m < 2 -> P) -> good s -> Wo P (eig_step ck m sh s).
  Proof.
    intros HP H. unfold eig_step. sv.
    all: try (apply u8_sub_S; auto).
    all: try (apply R_ok; first [apply eg_a_S | apply eg_vec_S | apply eg_val_S | apply eg_prev_S]; assumption).
    all: apply W_modify; de; split; split; assumption.
  Qed.
  Lemma eigen_S ck (mat : M) niter sh : (ck = true -> sh = true -> m_rows mat = 1 -> P) -> wfm mat -> R P (eigen ck mat niter sh).
  Proof.
    intros HP H. unfold eigen. s1; [sv|]. refine (R_bind_k _ _ _ _ _); [sv|]. intros m Em _.
    assert (PM : m < 2 -> m_rows mat = 1).
    { unfold m_get_rows in Em. destruct (m_initialized mat) eqn:I; [|discriminate]. cbn in Em. injection Em as <-. pose proof (wfm_pos mat H I). lia. }
    s1; [sv|]. s1; [sv|]. s1; [sv|]. s1; [sv|]. s1; [|apply R_ok; de; split; assumption].
    apply R_exec. apply W_for_break; [split; split; assumption|]. intros i s' _ Hs. apply eig_step_S; auto.
  Qed.
  Lemma q_is_quaternion_S (a : V) : wfv a -> R P (q_is_quaternion a).
  Proof. intros. unfold q_is_quaternion. sv. Qed.
  Hint Resolve q_is_quaternion_S : safe.
  Lemma q_guard_S (a : V) : wfv a -> R P (q_guard a).
  Proof. intros. unfold q_guard. sv. Qed.
  Hint Resolve q_guard_S : safe.
  Lemma q_is_real_S (a : V) : wfv a -> R P (q_is_real a).
  Proof. intros. unfold q_is_real. sv. Qed.
  Hint Resolve q_is_real_S : safe.
  Lemma q_is_pure_S (a : V) : wfv a -> R P (q_is_pure a).
  Proof. intros. unfold q_is_pure. sv. Qed.
  Hint Resolve q_is_pure_S : safe.
  Lemma q_is_versor_S (a : V) : wfv a -> R P (q_is_versor a).
  Proof. intros. unfold q_is_versor. sv. Qed.
  Hint Resolve q_is_versor_S : safe.
  Lemma q_is_identity_S (a : V) : wfv a -> R P (q_is_identity a).
  Proof. intros. unfold q_is_identity. sv. Qed.
  Hint Resolve q_is_identity_S : safe.
  Lemma q_set_S (i : nat) (x : T) (v : V) : wfv v -> Wo P (q_set i x v).
  Proof. intros. unfold q_set. sv. Qed.
  Hint Resolve q_set_S : safe.
  Lemma q_get_S (a : V) (i : nat) : wfv a -> R P (q_get a i).
  Proof. intros. unfold q_get. sv. Qed.
  Hint Resolve q_get_S : safe.
  Lemma q_set_qw_S (x : T) (v : V) : wfv v -> Wo P (q_set_qw x v).
  Proof. intros. unfold q_set_qw. sv. Qed.
  Hint Resolve q_set_qw_S : safe.
  Lemma q_get_qw_S (a : V) : wfv a -> R P (q_get_qw a).
  Proof. intros. unfold q_get_qw. sv. Qed.
  Hint Resolve q_get_qw_S : safe.
  Lemma q_set_qx_S (x : T) (v : V) : wfv v -> Wo P (q_set_qx x v).
  Proof. intros. unfold q_set_qx. sv. Qed.
  Hint Resolve q_set_qx_S : safe.
  Lemma q_get_qx_S (a : V) : wfv a -> R P (q_get_qx a).
  Proof. intros. unfold q_get_qx. sv. Qed.
  Hint Resolve q_get_qx_S : safe.
  Lemma q_set_qy_S (x : T) (v : V) : wfv v -> Wo P (q_set_qy x v).
  Proof. intros. unfold q_set_qy. sv. Qed.
  Hint Resolve q_set_qy_S : safe.
  Lemma q_get_qy_S (a : V) : wfv a -> R P (q_get_qy a).
  Proof. intros. unfold q_get_qy. sv. Qed.
  Hint Resolve q_get_qy_S : safe.
  Lemma q_set_qz_S (x : T) (v : V) : wfv v -> Wo P (q_set_qz x v).
  Proof. intros. unfold q_set_qz. sv. Qed.
  Hint Resolve q_set_qz_S : safe.
  Lemma q_get_qz_S (a : V) : wfv a -> R P (q_get_qz a).
  Proof. intros. unfold q_get_qz. sv. Qed.
  Hint Resolve q_get_qz_S : safe.
  Lemma q_get_vector_part_S (a : V) : wfv a -> R P (q_get_vector_part a).
  Proof. intros. unfold q_get_vector_part. sv. Qed.
  Hint Resolve q_get_vector_part_S : safe.
  Lemma set4_S (a : T) (b : T) (c : T) (d : T) (v : V) : wfv v -> Wo P (set4 a b c d v).
  Proof. intros. unfold set4. sv. Qed.
  Hint Resolve set4_S : safe.
  Lemma q_fillq_S (a : T) (b : T) (c : T) (d : T) (v : V) : wfv v -> Wo P (q_fillq a b c d v).
  Proof. intros. unfold q_fillq. sv. Qed.
  Hint Resolve q_fillq_S : safe.
  Lemma q_conjugate_S (v : V) : wfv v -> Wo P (q_conjugate v).
  Proof. intros. unfold q_conjugate. sv. Qed.
  Hint Resolve q_conjugate_S : safe.
  Lemma q_conjugate_new_S (a : V) : wfv a -> R P (q_conjugate_new a).
  Proof. intros. unfold q_conjugate_new. sv. Qed.
  Hint Resolve q_conjugate_new_S : safe.
  Lemma q_product_S (a : V) (b : V) : wfv a -> wfv b -> R P (q_product a b).
  Proof. intros. unfold q_product. sv. Qed.
  Hint Resolve q_product_S : safe.
  Lemma q_mul_S (a : V) (b : V) (v : V) : wfv a -> wfv b -> wfv v -> Wo P (q_mul a b v).
  Proof. intros. unfold q_mul. sv. Qed.
  Hint Resolve q_mul_S : safe.
  Lemma q_mul_new_S (a : V) (b : V) : wfv a -> wfv b -> R P (q_mul_new a b).
  Proof. intros. unfold q_mul_new. sv. Qed.
  Hint Resolve q_mul_new_S : safe.
  Lemma q_fill_identity_S (v : V) : wfv v -> Wo P (q_fill_identity v).
  Proof. intros. unfold q_fill_identity. sv. Qed.
  Hint Resolve q_fill_identity_S : safe.
  Lemma q_invert_S (v : V) : wfv v -> Wo P (q_invert v).
  Proof. intros. unfold q_invert. sv. Qed.
  Hint Resolve q_invert_S : safe.
  Lemma q_convert_to_dcm_S (a : V) : wfv a -> R P (q_convert_to_dcm a).
  Proof. intros. unfold q_convert_to_dcm. sv. Qed.
  Hint Resolve q_convert_to_dcm_S : safe.
  Lemma q_exp_S (v : V) : wfv v -> Wo P (q_exp v).
  Proof. intros. unfold q_exp. sv. Qed.
  Hint Resolve q_exp_S : safe.
  Lemma q_exp_new_S (a : V) : wfv a -> R P (q_exp_new a).
  Proof. intros. unfold q_exp_new. sv. Qed.
  Hint Resolve q_exp_new_S : safe.
  Lemma q_hughes_S (d : M) (v : V) : wfm d -> wfv v -> Wo P (q_hughes d v).
  Proof. intros. unfold q_hughes. sv. apply m_diag_S; [exact I|sg]. Qed.
  Hint Resolve q_hughes_S : safe.
  Lemma q_chiaverini_S (d : M) (v : V) : wfm d -> wfv v -> Wo P (q_chiaverini d v).
  Proof. intros. unfold q_chiaverini. sv. Qed.
  Hint Resolve q_chiaverini_S : safe.
  Lemma q_sarabandi_S (d : M) (e : option T) (v : V) : wfm d -> wfv v -> Wo P (q_sarabandi d e v).
  Proof. intros. unfold q_sarabandi. sv. Qed.
  Hint Resolve q_sarabandi_S : safe.
  Lemma q_convert_to_euler_S (a : V) : wfv a -> R P (q_convert_to_euler a).
  Proof. intros. unfold q_convert_to_euler. sv. Qed.
  Hint Resolve q_convert_to_euler_S : safe.
  Lemma q_guard3_S (a : V) : wfv a -> R P (q_guard3 a).
  Proof. intros. unfold q_guard3. sv. Qed.
  Hint Resolve q_guard3_S : safe.
  Lemma q_rotate_S (a : V) (b : V) : wfv a -> wfv b -> R P (q_rotate a b).
  Proof. intros. unfold q_rotate. sv. Qed.
  Hint Resolve q_rotate_S : safe.
  Lemma q_rotate_in_place_S (a : V) (v : V) : wfv a -> wfv v -> Wo P (q_rotate_in_place a v).
  Proof. intros. unfold q_rotate_in_place. sv. Qed.
  Hint Resolve q_rotate_in_place_S : safe.
End Ops.
#[export] Hint Resolve v_fill_S v_is_same_size_as_S v_is_equal_to_S v_guard_same_S v_guard_same2_S v_copy_from_S v_duplicate_S v_add_S v_add_in_place_S v_add_new_S v_add_scalar_S v_add_scalar_in_place_S v_add_scalar_new_S v_sub_S v_sub_in_place_S v_sub_new_S v_sub_scalar_S v_sub_scalar_in_place_S v_sub_scalar_new_S v_calculate_norm_S v_normalize_S v_mul_by_scalar_S v_mul_by_scalar_in_place_S v_mul_by_scalar_new_S v_dot_product_S v_copy_of_size_S v_slerp_S v_lerp_S v_power_elements_S m_set_row_S m_set_col_S m_get_row_S m_get_col_S m_row_to_vector_S m_col_to_vector_S m_fill_S m_is_same_size_as_S m_is_square_S m_is_equal_to_S m_guard_square_S m_guard_same_S m_guard_same2_S m_fill_identity_S m_copy_from_S m_duplicate_S m_add_S m_add_in_place_S m_add_new_S m_add_scalar_S m_add_scalar_in_place_S m_add_scalar_new_S m_sub_S m_sub_in_place_S m_sub_new_S m_sub_scalar_S m_sub_scalar_in_place_S m_sub_scalar_new_S m_mul_S m_mul_new_S m_transpose_S m_transpose_new_S m_mul_by_scalar_in_place_S m_power_elements_S m_trace_S v_outer_product_S v_convert_to_matrix_S lup_S solve_S m_invert_S m_lr_S m_lu_crout_S m_qr_decomp_S m_is_upper_triangular_S m_calculate_frobenius_norm_S m_det_S m_is_symmetric_S m_is_positive_definite_S m_chol_S m_dlyap_S m_times_transpose_is_identity_S m_is_orthogonal_S m_is_so_n_S m_log_S m_log_in_place_S m_adjugate_in_place_S q_is_quaternion_S q_guard_S q_is_real_S q_is_pure_S q_is_versor_S q_is_identity_S q_set_S q_get_S q_set_qw_S q_get_qw_S q_set_qx_S q_get_qx_S q_set_qy_S q_get_qy_S q_set_qz_S q_get_qz_S q_get_vector_part_S set4_S q_fillq_S q_conjugate_S q_conjugate_new_S q_product_S q_mul_S q_mul_new_S q_fill_identity_S q_invert_S q_convert_to_dcm_S q_exp_S q_exp_new_S q_hughes_S q_chiaverini_S q_sarabandi_S q_convert_to_euler_S q_guard3_S q_rotate_S q_rotate_in_place_S : safe.
