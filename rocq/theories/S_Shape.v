(** Specification vocabulary for C06/C07: sequences with one position inserted or removed. *)
From Coq Require Import Arith.

(** the sequence [f] with [x] inserted before position [i] *)
Definition insert_at {X} (i : nat) (x : X) (f : nat -> X) : nat -> X :=
  fun k => if k <? i then f k else if k =? i then x else f (k - 1).
(** the sequence [f] without position [i] *)
Definition remove_at {X} (i : nat) (f : nat -> X) : nat -> X :=
  fun k => if k <? i then f k else f (k + 1).
