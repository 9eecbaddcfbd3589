(** Specification vocabulary for determinants in f32. *)
From Coq Require Import Reals Arith.
From Verif Require Import S_Spec S_Linalg S_Lu.
Local Open Scope R_scope.

(** the permanent of the magnitudes: the sum of the magnitudes of the terms of the determinant *)
Fixpoint rpermanent (n : nat) (a : nat -> nat -> R) : R :=
  match n with
  | O => 1
  | S n' => Rsum n (fun j => Rabs (a O j) * rpermanent n' (fun i k => a (S i) (if (k <? j)%nat then k else S k)))
  end.
