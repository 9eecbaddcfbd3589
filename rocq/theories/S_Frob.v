(** Specification vocabulary for C81. *)
From Coq Require Import Reals.
From Verif Require Import S_Linalg.
Local Open Scope R_scope.

(** square root of the sum of the squares of the cells *)
Definition rfrob (r c : nat) (a : nat -> nat -> R) : R := sqrt (Rsum r (fun i => Rsum c (fun j => a i j * a i j))).
