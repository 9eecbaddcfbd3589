(** Specification vocabulary for the Cholesky factor in f32. *)
From Coq Require Import Reals Arith.
Local Open Scope R_scope.

(** the lower triangle of a matrix, with zeros above the diagonal *)
Definition low (l : nat -> nat -> R) (i j : nat) : R := if (j <=? i)%nat then l i j else 0.
