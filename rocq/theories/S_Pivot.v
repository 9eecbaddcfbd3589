(** Specification vocabulary for the pivot rule of [lup] on matrices of up to three rows. *)
From Coq Require Import Arith Reals.
From Verif Require Import M_Base M_Arith M_Utils M_Vector M_Matrix M_RX.
Local Open Scope R_scope.

(** the order of the rows after the first exchange: the first of the rows with the largest (signed) first element changes
    places with row 0 *)
Definition order2 {A : Arith} (f : nat -> nat -> T) : nat * nat := if (f 1%nat 0%nat >? f 0%nat 0%nat)%F then (1, 0)%nat else (0, 1)%nat.
Definition order3 {A : Arith} (f : nat -> nat -> T) : nat * nat * nat :=
  let '(p, q) := order2 f in if (f 2%nat 0%nat >? f p 0%nat)%F then ((2, 1, 0)%nat) else (p, q, 2%nat).

(** what is left of element (i, j) once row p has been used to clear the first column *)
Definition cleared {A : Arith} (f : nat -> nat -> T) (p i j : nat) : T := (f i j - f p j * (f i 0%nat / f p 0%nat))%F.

(** the same over the reals, the order being described by inequalities *)
Definition leads3 (a : nat -> nat -> R) (p q r : nat) : Prop :=
  (p = 0 /\ q = 1 /\ r = 2)%nat /\ a 1%nat 0%nat <= a 0%nat 0%nat /\ a 2%nat 0%nat <= a 0%nat 0%nat \/
  (p = 1 /\ q = 0 /\ r = 2)%nat /\ a 0%nat 0%nat < a 1%nat 0%nat /\ a 2%nat 0%nat <= a 1%nat 0%nat \/
  (p = 2 /\ q = 1 /\ r = 0)%nat /\ a 0%nat 0%nat < a 2%nat 0%nat /\ a 1%nat 0%nat < a 2%nat 0%nat.
Definition rcleared (a : nat -> nat -> R) (p i j : nat) : R := a i j - a p j * (a i 0%nat / a p 0%nat).
(** the element taken as second pivot: the candidates are compared with a multiplier instead of with each other *)
Definition second3 (a : nat -> nat -> R) (p q r : nat) (x : R) : Prop :=
  a q 0%nat / a p 0%nat < rcleared a p r 1 /\ x = rcleared a p r 1 \/ rcleared a p r 1 <= a q 0%nat / a p 0%nat /\ x = rcleared a p q 1.

(** what the callers of [lup] answer for an exact rotation that is refused, and for one that is not *)
Definition verdict (m : Mat (T (Arith := RX))) (refused : Prop) : Prop :=
  (refused -> m_det m = Err Singular /\ m_is_so_n m = Err Singular /\ m_is_orthogonal m = Err Singular /\ m_log m = Err Singular /\ m_invert m = (m, Err NotInversible)) /\
  (~ refused -> m_is_so_n m = Ok true).
(** the second pivot, when the comparison that selects it is decided by a margin of 1e-6 *)
Definition second3_clear (a : nat -> nat -> R) (p q r : nat) (x : R) : Prop :=
  a q 0%nat / a p 0%nat + / 1000000 <= rcleared a p r 1 /\ x = rcleared a p r 1 \/
  rcleared a p r 1 + / 1000000 <= a q 0%nat / a p 0%nat /\ x = rcleared a p q 1.
