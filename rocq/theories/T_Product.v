(** Generated by tools/gen_properties.py from P_Product.v: property theorems only. *)

From Coq Require Import List Arith ZArith Reals Lia Bool.
From Flocq Require Import Core BinarySingleNaN.
From Verif Require Import M_Base M_Arith M_Utils M_Vector M_Matrix M_F32 M_RX S_Spec S_Linalg P_Inst.
Import ListNotations.
Local Open Scope nat_scope.

From Verif Require Import P_Product.

(** C10: [mul] accepts exactly compatible shapes; the partial sums from 0.0 are stored one
    after the other, so cell (i,j) ends as the left-to-right sum of a(i,t)*b(t,j). *)
Theorem C10_mul :
  forall (A : Arith) (self a b : Mat T) (r c ra ca rb cb : nat) (f fa fb : nat -> nat -> T),
  mat_is self r c f -> mat_is a ra ca fa -> mat_is b rb cb fb ->
  if (ca =? rb) && (r =? ra) && (c =? cb)
  then product_m r ca c f (fun i j n => fsum n (fun t => fa i t * fb t j)%F) (m_mul a b self)
  else m_mul a b self = (self, Err InvalidSize).
Proof. exact l_mul. Qed.
Print Assumptions C10_mul.

(** C10: [mul_new]: result, size check, and failure exactly when a partial sum is not finite. *)
Theorem C10_mul_new :
  forall (A : Arith) (OK : ArithOk A) (a b : Mat T) (ra ca rb cb : nat) (fa fb : nat -> nat -> T),
  mat_is a ra ca fa -> mat_is b rb cb fb ->
  if ca =? rb then
    ((forall i j n, i < ra -> j < cb -> 1 <= n <= ca -> valid (fsum n (fun t => fa i t * fb t j)%F)) /\
     exists m, m_mul_new a b = Ok m /\ mat_is m ra cb (fun i j => fsum ca (fun t => fa i t * fb t j)%F))
    \/ (exists i j n e, i < ra /\ j < cb /\ 1 <= n <= ca /\
          bad (fsum n (fun t => fa i t * fb t j)%F) = Some e /\ m_mul_new a b = Err (UtilsErr e))
  else m_mul_new a b = Err InvalidSize.
Proof. exact l_mul_new. Qed.
Print Assumptions C10_mul_new.

(** C10, exact arithmetic: the product always succeeds and is the matrix product. *)
Theorem C10_real_product :
  forall (a b : Mat (T (Arith := RX))) (r k c : nat) (fa fb : nat -> nat -> R),
  mat_r a r k fa -> mat_r b k c fb ->
  exists m, m_mul_new a b = Ok m /\ mat_r m r c (rmul k fa fb).
Proof. exact l_real_product. Qed.
Print Assumptions C10_real_product.

Theorem C10_real_associative :
  forall (a b c : Mat (T (Arith := RX))) (r k l s : nat) (fa fb fc : nat -> nat -> R),
  mat_r a r k fa -> mat_r b k l fb -> mat_r c l s fc ->
  exists ab bc m1 m2 f, m_mul_new a b = Ok ab /\ m_mul_new ab c = Ok m1 /\
    m_mul_new b c = Ok bc /\ m_mul_new a bc = Ok m2 /\ mat_r m1 r s f /\ mat_r m2 r s f.
Proof. exact l_real_assoc. Qed.
Print Assumptions C10_real_associative.

Theorem C10_real_distributive :
  forall (a b c : Mat (T (Arith := RX))) (r k s : nat) (fa fb fc : nat -> nat -> R),
  mat_r a r k fa -> mat_r b k s fb -> mat_r c k s fc ->
  exists bc m1 ab ac m2 f, m_add_new b c = Ok bc /\ m_mul_new a bc = Ok m1 /\
    m_mul_new a b = Ok ab /\ m_mul_new a c = Ok ac /\ m_add_new ab ac = Ok m2 /\
    mat_r m1 r s f /\ mat_r m2 r s f.
Proof. exact l_real_distr. Qed.
Print Assumptions C10_real_distributive.

Theorem C10_real_identity :
  forall (a i1 i2 : Mat (T (Arith := RX))) (r k : nat) (fa : nat -> nat -> R),
  mat_r a r k fa -> mat_r i1 r r rid -> mat_r i2 k k rid ->
  exists m1 m2, m_mul_new i1 a = Ok m1 /\ m_mul_new a i2 = Ok m2 /\ mat_r m1 r k fa /\ mat_r m2 r k fa.
Proof. exact l_real_id. Qed.
Print Assumptions C10_real_identity.

(** C10, f32: the product with the identity reproduces every element; only a negative zero
    becomes a positive zero. *)
Theorem C10_f32_identity :
  forall (lm : Libm), let A := F32 lm in
  forall (a i1 i2 : Mat T) (r k : nat) (fa : nat -> nat -> T),
  mat_is a r k fa -> mat_is i1 r r (fun i j => if i =? j then f1 else f0) ->
  mat_is i2 k k (fun i j => if i =? j then f1 else f0) ->
  exists m1 m2 g1 g2, m_mul_new i1 a = Ok m1 /\ m_mul_new a i2 = Ok m2 /\
    mat_is m1 r k g1 /\ mat_is m2 r k g2 /\
    forall i j, i < r -> j < k ->
      B2R (g1 i j : f32) = B2R (fa i j : f32) /\ B2R (g2 i j : f32) = B2R (fa i j : f32) /\
      (fa i j <> B754_zero true -> g1 i j = fa i j /\ g2 i j = fa i j).
Proof. exact l_f32_id. Qed.
Print Assumptions C10_f32_identity.

(** The sign of a zero is not kept: -0.0 times the identity is +0.0. *)
Theorem C10_f32_identity_bits_refuted :
  forall (lm : Libm), exists (a i m : Mat (T (Arith := F32 lm))),
  wfm a /\ mat_is i 1 1 (fun _ _ => f1) /\ m_mul_new a i = Ok m /\
  m_get a 0 0 = Ok (B754_zero true) /\ m_get m 0 0 = Ok (B754_zero false).
Proof. exact l_f32_id_bits. Qed.
Print Assumptions C10_f32_identity_bits_refuted.

(** C10, f32: the transpose of a product is, bit for bit, the product of the transposes. *)
Theorem C10_f32_transpose :
  forall (lm : Libm), let A := F32 lm in
  forall (a b at_ bt ab abt p : Mat T) (r k c : nat) (fa fb : nat -> nat -> T),
  mat_is a r k fa -> mat_is b k c fb ->
  m_mul_new a b = Ok ab -> m_transpose ab = (abt, Ok tt) ->
  m_transpose a = (at_, Ok tt) -> m_transpose b = (bt, Ok tt) -> m_mul_new bt at_ = Ok p ->
  exists f, mat_is abt c r f /\ mat_is p c r f.
Proof. exact l_f32_tr. Qed.
Print Assumptions C10_f32_transpose.

(** ... and one side succeeds exactly when the other does. *)
Theorem C10_f32_transpose_success :
  forall (lm : Libm), let A := F32 lm in
  forall (a b at_ bt : Mat T) (r k c : nat) (fa fb : nat -> nat -> T),
  mat_is a r k fa -> mat_is b k c fb ->
  m_transpose a = (at_, Ok tt) -> m_transpose b = (bt, Ok tt) ->
  ((exists ab, m_mul_new a b = Ok ab) <-> (exists p, m_mul_new bt at_ = Ok p)).
Proof. exact l_f32_tr_ok. Qed.
Print Assumptions C10_f32_transpose_success.

Example C10_example :
  let A := F32 lm_id in
  let a := mk_mat 2 3 (map z32 [1; 2; 3; 4; 5; 6]%Z) in
  let b := mk_mat 3 2 (map z32 [1; -1; 0; 2; 3; 1]%Z) in
  wfm a /\ wfm b /\
  rmap show_m (m_mul_new a b) = Ok (2, 2, true, map sf [10; 6; 22; 12]%Z) /\
  rmap show_m (m_mul_new a a) = Err InvalidSize.
Proof.
  cbv zeta. split; [apply wfm_b_ok; vm_compute; reflexivity|].
  split; [apply wfm_b_ok; vm_compute; reflexivity|].
  split; vm_compute; reflexivity.
Qed.
