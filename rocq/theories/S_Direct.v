(** What it means that an f32 quaternion turns vectors like a true attitude. *)
From Coq Require Import Reals.
From Flocq Require Import Core BinarySingleNaN.
From Verif Require Import M_Base M_Arith M_Vector M_Matrix M_Quaternion M_F32 S_Spec S_Linalg S_Norm S_Quat S_F32.
Local Open Scope R_scope.

Section D.
  Context {lm : Libm}.
  (** rotating any vector of the reference frame (of length up to 2^100) gives what the body sees of it, up to k times its length *)
  Definition shows_body (w : Vec (T (Arith := F32 lm))) (t : quat) (k : R) : Prop :=
    forall (v : Vec (T (Arith := F32 lm))) (x : nat -> R), vec_f v 3 x -> rnorm 3 x <= bpow radix2 100 ->
    exists v1 y, q_rotate w v = Ok v1 /\ vec_f v1 3 y /\ vdist 3 y (qrot t x) <= k * rnorm 3 x + 2 * tiny.
  (** rotating any vector the body sees by the conjugate gives the vector in the reference frame, up to k times its length *)
  Definition shows_frame (w : Vec (T (Arith := F32 lm))) (t : quat) (k : R) : Prop :=
    exists wc, q_conjugate w = (wc, Ok tt) /\ forall (v : Vec (T (Arith := F32 lm))) (x : nat -> R), vec_f v 3 (qrot t x) -> rnorm 3 x <= bpow radix2 100 ->
    exists v1 y, q_rotate wc v = Ok v1 /\ vec_f v1 3 y /\ vdist 3 y x <= k * rnorm 3 x + 2 * tiny.
  (** the matrix of the quaternion is the one of t, up to k in every cell *)
  Definition shows_matrix (w : Vec (T (Arith := F32 lm))) (t : quat) (k : R) : Prop :=
    exists m a, q_convert_to_dcm w = Ok m /\ mat_f m 3 3 a /\ forall i j, (i < 3)%nat -> (j < 3)%nat -> Rabs (a i j - rotmat t i j) <= k.
  Definition turns_as (w : Vec (T (Arith := F32 lm))) (t : quat) (k : R) : Prop := shows_body w t k /\ shows_frame w t k /\ shows_matrix w t k.
End D.
