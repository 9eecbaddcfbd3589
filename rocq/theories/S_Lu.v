(** Specification vocabulary for factorisations: index vectors, permutations, triangular
    parts, determinants. *)
From Coq Require Import List Arith ZArith Reals Bool.
From Verif Require Import M_Base M_Arith M_Utils M_Vector M_Matrix M_RX S_Spec S_Linalg.
Import ListNotations.

(** [p] is an initialised Vector<u8> of [n] entries [pi 0 .. pi (n-1)] *)
Record idx_is (p : Vec nat) (n : nat) (pi : nat -> nat) : Prop := {
  ix_len : length (v_elems p) = 4;
  ix_init : v_initialized p = true;
  ix_rows : v_rows p = n;
  ix_get : forall i, i < n -> v_get p i = Ok (pi i)
}.
(** [pi] is a permutation of 0 .. n-1 *)
Definition perm (n : nat) (pi : nat -> nat) : Prop :=
  (forall i, i < n -> pi i < n) /\ (forall i j, i < n -> j < n -> pi i = pi j -> i = j).
(** number of pairs in the wrong order, and the sign of a permutation *)
Fixpoint count (n : nat) (t : nat -> bool) : nat :=
  match n with 0 => 0 | S n' => count n' t + (if t n' then 1 else 0) end.
Fixpoint inversions (n : nat) (pi : nat -> nat) : nat :=
  match n with 0 => 0 | S n' => inversions n' pi + count n' (fun i => pi n' <? pi i) end.
(** two disjoint transpositions of 0 .. 3 *)
Definition double_swap (pi : nat -> nat) : bool :=
  forallb (fun i => negb (pi i =? i) && (pi (pi i) =? i)) [0; 1; 2; 3].

Local Open Scope R_scope.
Definition psign (n : nat) (pi : nat -> nat) : R := if Nat.even (inversions n pi) then 1 else -1.
(** unit lower triangular and upper triangular parts of a square array *)
Definition ulow (f : nat -> nat -> R) (i j : nat) : R :=
  if (i =? j)%nat then 1 else if (j <? i)%nat then f i j else 0.
Definition upp (f : nat -> nat -> R) (i j : nat) : R := if (i <=? j)%nat then f i j else 0.
Definition lower (n : nat) (f : nat -> nat -> R) : Prop := forall i j, (i < n)%nat -> (j < n)%nat -> (i < j)%nat -> f i j = 0.
Definition upper (n : nat) (f : nat -> nat -> R) : Prop := forall i j, (i < n)%nat -> (j < n)%nat -> (j < i)%nat -> f i j = 0.
(** determinant by expansion along the first row *)
Fixpoint rdet (n : nat) (a : nat -> nat -> R) : R :=
  match n with
  | O => 1
  | S n' => Rsum n (fun j => (-1) ^ j * a O j * rdet n' (fun i k => a (S i) (if (k <? j)%nat then k else S k)))
  end.
Fixpoint Rprod (n : nat) (g : nat -> R) : R :=
  match n with O => 1 | S n' => Rprod n' g * g n' end.
