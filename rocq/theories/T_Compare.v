(** Generated by tools/gen_properties.py from P_Compare.v: property theorems only. *)

From Coq Require Import List Arith ZArith Reals Lia Bool.
From Flocq Require Import Core BinarySingleNaN.
From Verif Require Import M_Base M_Arith M_Utils M_Vector M_Matrix M_F32 M_RX S_Spec S_Compare P_Inst.
Import ListNotations.
Local Open Scope nat_scope.

From Verif Require Import P_Compare.

(** C13: [is_equal_to] on matrices *)
Theorem C13_matrix_equal :
  forall (A : Arith) (a b : Mat T) (ra ca rb cb : nat) (fa fb : nat -> nat -> T) (d : T),
  mat_is a ra ca fa -> mat_is b rb cb fb ->
  decides (m_is_equal_to a b d)
    (ra = rb /\ ca = cb /\ forall i j, i < ra -> j < ca -> within d (fa i j) (fb i j)).
Proof. exact l_m_equal. Qed.
Print Assumptions C13_matrix_equal.

Theorem C13_vector_equal :
  forall (A : Arith) (a b : Vec T) (n k : nat) (fa fb : nat -> T) (d : T),
  vec_is a n fa -> vec_is b k fb ->
  decides (v_is_equal_to a b d) (n = k /\ forall i, i < n -> within d (fa i) (fb i)).
Proof. exact l_v_equal. Qed.
Print Assumptions C13_vector_equal.

Theorem C13_symmetric :
  forall (A : Arith) (m : Mat T) (r c : nat) (f : nat -> nat -> T), mat_is m r c f ->
  decides (m_is_symmetric m)
    (r = c /\ forall i j, i < r -> j < r -> within EPSILON (f i j) (f j i)).
Proof. exact l_symmetric. Qed.
Print Assumptions C13_symmetric.

(** C13: [is_upper_triangular] when there is no row below the last column's one *)
Theorem C13_upper_triangular :
  forall (A : Arith) (OK : ArithOk A) (m : Mat T) (r c : nat) (f : nat -> nat -> T), mat_is m r c f -> r <= c + 1 ->
  decides (m_is_upper_triangular m)
    (forall i j, i < r -> j < c -> j < i -> within EPSILON (f i j) f0).
Proof. exact l_upper. Qed.
Print Assumptions C13_upper_triangular.

(** C13: on a taller matrix the answer is never yes: it is no, or InvalidCol when all the
    elements inspected before running off the last column are close to zero. *)
Theorem C13_upper_triangular_tall :
  forall (A : Arith) (OK : ArithOk A) (m : Mat T) (r c : nat) (f : nat -> nat -> T), mat_is m r c f -> c + 1 < r ->
  (m_is_upper_triangular m = Err InvalidCol /\
    (forall i j, i <= c + 1 -> j < c -> j < i -> within EPSILON (f i j) f0)) \/
  (m_is_upper_triangular m = Ok false /\
    exists i j, i <= c + 1 /\ j < c /\ j < i /\ ~ within EPSILON (f i j) f0).
Proof. exact l_upper_tall. Qed.
Print Assumptions C13_upper_triangular_tall.

Theorem C13_lower_triangular :
  forall (A : Arith) (OK : ArithOk A) (ck : bool) (m : Mat T) (r c : nat) (f : nat -> nat -> T), mat_is m r c f ->
  decides (m_is_lower_triangular ck m)
    (forall i j, i < r -> j < c -> i < j -> i + 1 < r -> within EPSILON (f i j) f0).
Proof. exact l_lower. Qed.
Print Assumptions C13_lower_triangular.

(** C13: [allclose] does not depend on the order of its operands (bit-exact f32). *)
Theorem C13_allclose_symmetric :
  forall (lm : Libm), let A := F32 lm in forall (x y d : T),
  valid x -> valid y -> allclose x y d = allclose y x d.
Proof. exact l_close_sym. Qed.
Print Assumptions C13_allclose_symmetric.

(** C13: a finite float is within any non-negative tolerance of itself. *)
Theorem C13_allclose_reflexive :
  forall (lm : Libm), let A := F32 lm in forall (x d : T),
  valid x -> (f0 <=? d)%F = true -> allclose x x d = Ok true.
Proof. exact l_close_refl. Qed.
Print Assumptions C13_allclose_reflexive.

(** C13: a zero column matrix with three rows is not recognised as upper triangular. *)
Theorem C13_tall_zero_refuted :
  forall (lm : Libm), exists (m : Mat (T (Arith := F32 lm))),
  mat_is m 3 1 (fun _ _ => f0) /\ m_is_upper_triangular m = Err InvalidCol.
Proof. exact l_tall_zero. Qed.
Print Assumptions C13_tall_zero_refuted.

(** C13: the last row is never inspected by [is_lower_triangular]: a wide matrix with a
    nonzero element right of the diagonal in its last row is called lower triangular. *)
Theorem C13_lower_wide_refuted :
  forall (lm : Libm) (ck : bool), exists (m : Mat (T (Arith := F32 lm))),
  wfm m /\ m_get m 0 1 = Ok f1 /\ m_is_lower_triangular ck m = Ok true.
Proof. exact l_lower_wide. Qed.
Print Assumptions C13_lower_wide_refuted.

Example C13_example :
  let A := F32 lm_id in
  let u := mk_mat 2 2 (map z32 [1; 2; 0; 3]%Z) in
  let v := mk_mat 2 2 [z32 1; z32 2; lit32 1 20000; z32 3] in
  wfm u /\ wfm v /\ m_is_upper_triangular u = Ok true /\ m_is_lower_triangular true u = Ok false /\
  m_is_equal_to u v (lit32 1 10000) = Ok true /\ m_is_equal_to u v (lit32 1 30000) = Ok false /\
  m_is_symmetric u = Ok false.
Proof.
  cbv zeta. split; [apply wfm_b_ok; vm_compute; reflexivity|].
  split; [apply wfm_b_ok; vm_compute; reflexivity|].
  repeat (split; [vm_compute; reflexivity|]). vm_compute; reflexivity.
Qed.
