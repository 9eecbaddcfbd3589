(** Specification vocabulary for the f32 error of the factorisation and of the linear solve. *)
From Coq Require Import Reals ZArith.
From Flocq Require Import Core.
Local Open Scope R_scope.

(** the magnitude of an f32 value, never less than 2^-124: below about this size f32 numbers lose relative precision *)
Definition least : R := bpow radix2 (-124).
Definition amp (x : R) : R := Rabs x + least.
