(** Generated by tools/gen_properties.py from P_Pointwise.v: property theorems only. *)

From Coq Require Import List Arith ZArith Lia Bool.
From Flocq Require Import BinarySingleNaN.
From Verif Require Import M_Base M_Arith M_Utils M_Vector M_Matrix M_F32 S_Spec P_Inst.
Import ListNotations.

From Verif Require Import P_Pointwise.

(** C08: the matrix operations that overwrite [m] (content [f]) with a combination of
    operands [a], [b] of the same size. *)
Theorem C08_matrix_out_of_place :
  forall (A : Arith) (m a b : Mat T) (r c : nat) (f fa fb : nat -> nat -> T),
  mat_is m r c f -> mat_is a r c fa -> mat_is b r c fb -> forall (x : T),
  pointwise_m r c f (fun _ _ => x) (m_fill x m) /\
  pointwise_m r c f (fun i j => fa i j) (m_copy_from a m) /\
  pointwise_m r c f (fun i j => fa i j + fb i j)%F (m_add a b m) /\
  pointwise_m r c f (fun i j => fa i j - fb i j)%F (m_sub a b m) /\
  pointwise_m r c f (fun i j => fa i j + x)%F (m_add_scalar a x m) /\
  pointwise_m r c f (fun i j => fa i j - x)%F (m_sub_scalar a x m).
Proof. exact l_matrix_out_of_place. Qed.
Print Assumptions C08_matrix_out_of_place.

(** C08: the in-place matrix operations. *)
Theorem C08_matrix_in_place :
  forall (A : Arith) (m a : Mat T) (r c : nat) (f fa : nat -> nat -> T),
  mat_is m r c f -> mat_is a r c fa -> forall (x : T),
  pointwise_m r c f (fun i j => f i j + fa i j)%F (m_add_in_place a m) /\
  pointwise_m r c f (fun i j => f i j - fa i j)%F (m_sub_in_place a m) /\
  pointwise_m r c f (fun i j => f i j + x)%F (m_add_scalar_in_place x m) /\
  pointwise_m r c f (fun i j => f i j - x)%F (m_sub_scalar_in_place x m) /\
  pointwise_m r c f (fun i j => f i j * x)%F (m_mul_by_scalar_in_place x m) /\
  pointwise_m r c f (fun i j => fpow (f i j) x) (m_power_elements x m).
Proof. exact l_matrix_in_place. Qed.
Print Assumptions C08_matrix_in_place.

(** C08: the matrix operations that return a new object. *)
Theorem C08_matrix_new :
  forall (A : Arith) (OK : ArithOk A) (a b : Mat T) (r c : nat) (fa fb : nat -> nat -> T),
  mat_is a r c fa -> mat_is b r c fb -> forall (x : T),
  pointwise_mnew r c (fun i j => fa i j + fb i j)%F (m_add_new a b) /\
  pointwise_mnew r c (fun i j => fa i j - fb i j)%F (m_sub_new a b) /\
  pointwise_mnew r c (fun i j => fa i j + x)%F (m_add_scalar_new a x) /\
  pointwise_mnew r c (fun i j => fa i j - x)%F (m_sub_scalar_new a x) /\
  exists d, m_duplicate a = Ok d /\ mat_is d r c fa.
Proof. exact l_matrix_new. Qed.
Print Assumptions C08_matrix_new.

Theorem C08_vector_out_of_place :
  forall (A : Arith) (v a b : Vec T) (n : nat) (f fa fb : nat -> T),
  vec_is v n f -> vec_is a n fa -> vec_is b n fb -> forall (x : T),
  pointwise_v n f (fun _ => x) (v_fill x v) /\
  pointwise_v n f (fun i => fa i) (v_copy_from a v) /\
  pointwise_v n f (fun i => fa i + fb i)%F (v_add a b v) /\
  pointwise_v n f (fun i => fa i - fb i)%F (v_sub a b v) /\
  pointwise_v n f (fun i => fa i + x)%F (v_add_scalar a x v) /\
  pointwise_v n f (fun i => fa i - x)%F (v_sub_scalar a x v) /\
  pointwise_v n f (fun i => fa i * x)%F (v_mul_by_scalar a x v).
Proof. exact l_vector_out_of_place. Qed.
Print Assumptions C08_vector_out_of_place.

Theorem C08_vector_in_place :
  forall (A : Arith) (v a : Vec T) (n : nat) (f fa : nat -> T),
  vec_is v n f -> vec_is a n fa -> forall (x : T),
  pointwise_v n f (fun i => f i + fa i)%F (v_add_in_place a v) /\
  pointwise_v n f (fun i => f i - fa i)%F (v_sub_in_place a v) /\
  pointwise_v n f (fun i => f i + x)%F (v_add_scalar_in_place x v) /\
  pointwise_v n f (fun i => f i - x)%F (v_sub_scalar_in_place x v) /\
  pointwise_v n f (fun i => f i * x)%F (v_mul_by_scalar_in_place x v) /\
  pointwise_v n f (fun i => fpow (f i) x) (v_power_elements x v).
Proof. exact l_vector_in_place. Qed.
Print Assumptions C08_vector_in_place.

Theorem C08_vector_new :
  forall (A : Arith) (OK : ArithOk A) (a b : Vec T) (n : nat) (fa fb : nat -> T),
  vec_is a n fa -> vec_is b n fb -> forall (x : T),
  pointwise_vnew n (fun i => fa i + fb i)%F (v_add_new a b) /\
  pointwise_vnew n (fun i => fa i - fb i)%F (v_sub_new a b) /\
  pointwise_vnew n (fun i => fa i + x)%F (v_add_scalar_new a x) /\
  pointwise_vnew n (fun i => fa i - x)%F (v_sub_scalar_new a x) /\
  pointwise_vnew n (fun i => fa i * x)%F (v_mul_by_scalar_new a x) /\
  exists d, v_duplicate a = Ok d /\ vec_is d n fa.
Proof. exact l_vector_new. Qed.
Print Assumptions C08_vector_new.

(** C08: operands of different sizes are rejected and nothing is written. *)
Theorem C08_size_mismatch_matrix :
  forall (A : Arith) (m a b : Mat T) (r c ra ca rb cb : nat) (f fa fb : nat -> nat -> T),
  mat_is m r c f -> mat_is a ra ca fa -> mat_is b rb cb fb -> forall (x : T),
  ((r, c) <> (ra, ca) ->
     m_copy_from a m = (m, Err NotSameSize) /\ m_add_scalar a x m = (m, Err NotSameSize) /\
     m_sub_scalar a x m = (m, Err NotSameSize) /\ m_add_in_place a m = (m, Err NotSameSize) /\
     m_sub_in_place a m = (m, Err NotSameSize) /\
     m_add_new m a = Err NotSameSize /\ m_sub_new m a = Err NotSameSize) /\
  ((r, c) <> (ra, ca) \/ (r, c) <> (rb, cb) ->
     m_add a b m = (m, Err NotSameSize) /\ m_sub a b m = (m, Err NotSameSize)).
Proof. exact l_mismatch_m. Qed.
Print Assumptions C08_size_mismatch_matrix.

Theorem C08_size_mismatch_vector :
  forall (A : Arith) (v a b : Vec T) (n na nb : nat) (f fa fb : nat -> T),
  vec_is v n f -> vec_is a na fa -> vec_is b nb fb -> forall (x : T),
  (n <> na ->
     v_copy_from a v = (v, Err NotSameSize) /\ v_add_scalar a x v = (v, Err NotSameSize) /\
     v_sub_scalar a x v = (v, Err NotSameSize) /\ v_mul_by_scalar a x v = (v, Err NotSameSize) /\
     v_add_in_place a v = (v, Err NotSameSize) /\ v_sub_in_place a v = (v, Err NotSameSize) /\
     v_add_new v a = Err NotSameSize /\ v_sub_new v a = Err NotSameSize) /\
  (n <> na \/ n <> nb ->
     v_add a b v = (v, Err NotSameSize) /\ v_sub a b v = (v, Err NotSameSize)).
Proof. exact l_mismatch_v. Qed.
Print Assumptions C08_size_mismatch_vector.

(** C08: the plain, in-place and [*_new] variants write the same elements, whenever one of
    them succeeds. *)
Theorem C08_variants_agree :
  forall (A : Arith) (OK : ArithOk A) (a b d : Mat T) (r c : nat) (fa fb fd : nat -> nat -> T),
  mat_is a r c fa -> mat_is b r c fb -> mat_is d r c fd -> forall d',
  m_add a b d = (d', Ok tt) ->
  exists a' n, m_add_in_place b a = (a', Ok tt) /\ m_add_new a b = Ok n /\
    forall i j, i < r -> j < c -> m_get a' i j = m_get d' i j /\ m_get n i j = m_get d' i j.
Proof. exact l_variants. Qed.
Print Assumptions C08_variants_agree.

(** a failing case: the third of four sums overflows, so the first two cells are written *)
Example C08_example :
  let A := F32 lm_id in
  let a := mk_mat 2 2 (map z32 [1; 2; 2^127; 4]%Z) in
  let m := mk_mat 2 2 (map z32 [5; 5; 5; 5]%Z) in
  wfm a /\ wfm m /\
  let (m', r) := m_add a a m in
  r = Err (UtilsErr Inf) /\
  map (fun p => obs (m_get m' (fst p) (snd p))) [(0, 0); (0, 1); (1, 0); (1, 1)] =
  [Ok (sf 2); Ok (sf 4); Ok (sf 5); Ok (sf 5)].
Proof.
  split; [apply wfm_b_ok; vm_compute; reflexivity|]. split; [apply wfm_b_ok; vm_compute; reflexivity|].
  vm_compute. split; reflexivity.
Qed.
