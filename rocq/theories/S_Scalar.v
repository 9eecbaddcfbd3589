(** Specification vocabulary for the scalar helpers: the order of f32 as that of the extended reals,
    and the factorial of natural numbers. *)
From Coq Require Import Reals NArith.
From Flocq Require Import Core BinarySingleNaN.
From Verif Require Import M_F32.
Local Open Scope R_scope.

Inductive ext := MInf | Fin (r : R) | PInf.
Definition ext_le (a b : ext) : Prop :=
  match a, b with
  | MInf, _ => True
  | _, PInf => True
  | Fin x, Fin y => x <= y
  | _, _ => False
  end.
(** the extended real of a float, nothing for NaN *)
Definition ext_of (x : f32) : option ext :=
  match x with
  | B754_nan => None
  | B754_infinity false => Some PInf
  | B754_infinity true => Some MInf
  | _ => Some (Fin (B2R x))
  end.
(** x <= y as numbers; false as soon as one is NaN *)
Definition fle (x y : f32) : Prop :=
  match ext_of x, ext_of y with Some a, Some b => ext_le a b | _, _ => False end.
Definition flt (x y : f32) : Prop := fle x y /\ ~ fle y x.
Definition fnum (x : f32) : Prop := ext_of x <> None.

Fixpoint nfact (n : nat) : N := match n with 0%nat => 1%N | S k => (N.of_nat n * nfact k)%N end.
