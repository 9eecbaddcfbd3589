(** Specification vocabulary for the quality of computed eigenvalues and eigenvectors. *)
From Coq Require Import Arith Reals.
From Verif Require Import S_Linalg S_Norm.
Local Open Scope R_scope.

Definition symmetric (n : nat) (a : nat -> nat -> R) : Prop :=
  forall i j, (i < n)%nat -> (j < n)%nat -> a i j = a j i.
(** x . A x > c |x|^2 for every x that is not zero: all eigenvalues of the symmetric matrix exceed c *)
Definition definite (n : nat) (c : R) (a : nat -> nat -> R) : Prop :=
  forall x, 0 < rdot n x x -> c * rdot n x x < rdot n x (rmv n a x).
Definition trace (n : nat) (a : nat -> nat -> R) : R := Rsum n (fun i => a i i).
(** |A v_j - l_j v_j| for column j of [v]: zero exactly when column j is an eigenvector for l_j *)
Definition residual (n : nat) (a v : nat -> nat -> R) (l : nat -> R) (j : nat) : R :=
  rnorm n (fun i => rmv n a (fun t => v t j) i - l j * v i j).
(** every column of [v] is an eigenvector of [a] up to a residual of sqrt(EPSILON tr max(1, tr)):
    at most 1% of the trace when the trace is at least 1 *)
Definition eigenpairs (n : nat) (a v : nat -> nat -> R) (l : nat -> R) : Prop :=
  forall j, (j < n)%nat -> residual n a v l j <= sqrt (eps * trace n a * Rmax 1 (trace n a)).
