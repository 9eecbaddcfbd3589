(** Specification vocabulary for rounding errors: the real numbers an f32 container holds, and distances. *)
From Coq Require Import List Reals ZArith.
From Flocq Require Import Core BinarySingleNaN.
From Verif Require Import M_Base M_Arith M_Vector M_Matrix M_F32 S_Spec S_Linalg S_Norm S_Quat.
Local Open Scope R_scope.

Section F.
  Context {lm : Libm}.
  (** [v] is an initialised f32 vector of size n whose elements are the reals [a] *)
  Definition vec_f (v : Vec (T (Arith := F32 lm))) (n : nat) (a : nat -> R) : Prop :=
    exists f, vec_is (A := F32 lm) v n f /\ forall i, (i < n)%nat -> B2R (f i : f32) = a i.
  Definition mat_f (m : Mat (T (Arith := F32 lm))) (r c : nat) (a : nat -> nat -> R) : Prop :=
    exists f, mat_is (A := F32 lm) m r c f /\
      forall i j, (i < r)%nat -> (j < c)%nat -> B2R (f i j : f32) = a i j.
  Definition quat_f (v : Vec (T (Arith := F32 lm))) (q : quat) : Prop := vec_f v 4 (qf q).
End F.

Definition qsub (p q : quat) : quat := qadd p (qneg q).
(** Euclidean distances *)
Definition qdist (p q : quat) : R := qnorm (qsub p q).
Definition vdist (n : nat) (x y : nat -> R) : R := rnorm n (fun i => x i - y i).
(** far below the smallest positive normal f32 (2^-126) *)
Definition tiny : R := bpow radix2 (-140).
(** the quaternion of unit length in the same direction *)
Definition qunit (q : quat) : quat := qscale (/ qnorm q) q.
