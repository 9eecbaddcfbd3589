(** Specification vocabulary for norms and directions. *)
From Coq Require Import Reals.
From Verif Require Import M_Base M_Arith M_Vector M_RX S_Spec S_Linalg.
Local Open Scope R_scope.

(** Euclidean norm of the first n components *)
Definition rnorm (n : nat) (x : nat -> R) : R := sqrt (rdot n x x).
(** the constant of linalg/src/common.rs as a real number *)
Definition eps : R := 1 / 10000.
