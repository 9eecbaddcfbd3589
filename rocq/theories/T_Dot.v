(** Generated by tools/gen_properties.py from P_Dot.v: property theorems only. *)

From Coq Require Import List Arith ZArith Reals Lia Bool.
From Flocq Require Import Core BinarySingleNaN.
From Verif Require Import M_Base M_Arith M_Utils M_Vector M_Matrix M_F32 M_RX S_Spec S_Linalg P_Inst.
Import ListNotations.
Local Open Scope nat_scope.

From Verif Require Import P_Dot.

(** C29: the dot product is the left-to-right sum of products; sizes must agree.  The result
    is not checked, so it may be infinite or NaN. *)
Theorem C29_dot :
  forall (A : Arith) (u v : Vec T) (n k : nat) (fu fv : nat -> T), vec_is u n fu -> vec_is v k fv ->
  v_dot_product u v = if n =? k then Ok (fsum n (fun i => fu i * fv i)%F) else Err NotSameSize.
Proof. exact l_dot. Qed.
Print Assumptions C29_dot.

(** C29: symmetric bit for bit in f32 *)
Theorem C29_dot_symmetric :
  forall (lm : Libm), let A := F32 lm in forall (u v : Vec T) (n k : nat) (fu fv : nat -> T),
  vec_is u n fu -> vec_is v k fv -> v_dot_product u v = v_dot_product v u.
Proof. exact l_dot_sym. Qed.
Print Assumptions C29_dot_symmetric.

Theorem C29_dot_real :
  forall (u v : Vec (T (Arith := RX))) (n : nat) (fu fv : nat -> R),
  vec_r u n fu -> vec_r v n fv -> v_dot_product u v = Ok (Some (rdot n fu fv)).
Proof. exact l_dot_real. Qed.
Print Assumptions C29_dot_real.

(** C29: the outer product; the first element (row-major) that overflows is reported *)
Theorem C29_outer :
  forall (A : Arith) (OK : ArithOk A) (u v : Vec T) (n k : nat) (fu fv : nat -> T),
  vec_is u n fu -> vec_is v k fv -> pointwise_mnew n k (fun i j => fu i * fv j)%F (v_outer_product u v).
Proof. exact l_outer. Qed.
Print Assumptions C29_outer.

(** C29: in f32, the transpose of u v^T is v u^T bit for bit, and both succeed together *)
Theorem C29_outer_transpose :
  forall (lm : Libm), let A := F32 lm in forall (u v : Vec T) (n k : nat) (fu fv : nat -> T) (m : Mat T),
  vec_is u n fu -> vec_is v k fv -> v_outer_product u v = Ok m ->
  exists t p f, m_transpose m = (t, Ok tt) /\ v_outer_product v u = Ok p /\ mat_is t k n f /\ mat_is p k n f.
Proof. exact l_outer_tr. Qed.
Print Assumptions C29_outer_transpose.

Example C29_example :
  let A := F32 lm_id in
  let u := mk_vec (map z32 [1; 2; 3]%Z) in
  let v := mk_vec (map z32 [4; -5; 6]%Z) in
  let w := mk_vec (map z32 [7; 8]%Z) in
  wfv u /\ wfv v /\ wfv w /\
  obs (v_dot_product u v) = Ok (sf 12) /\ obs (v_dot_product u w) = Err NotSameSize /\
  rmap show_m (v_outer_product u w) = Ok (3, 2, true, map sf [7; 8; 14; 16; 21; 24]%Z).
Proof.
  cbv zeta. do 3 (split; [apply wfv_b_ok; vm_compute; reflexivity|]).
  repeat (split; [vm_compute; reflexivity|]). vm_compute; reflexivity.
Qed.
