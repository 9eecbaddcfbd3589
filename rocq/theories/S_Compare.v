(** Specification vocabulary for the comparison predicates. *)
From Coq Require Import Bool.
From Verif Require Import M_Base M_Arith.

Section Close.
  Context {A : Arith}.
  (** the machine distance of x and y is at most d *)
  Definition within (d x y : T) : Prop := (fabs (x - y) <=? d)%F = true.
  (** the answer of a test: always an answer, and it is yes exactly when P holds *)
  Definition decides {E} (r : res E bool) (P : Prop) : Prop :=
    exists b, r = Ok b /\ (b = true <-> P).
End Close.
