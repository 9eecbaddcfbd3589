(** Specification of element access and of the life cycle of containers. *)
From Coq Require Import List Arith Bool.
Import ListNotations.

(** the first error whose condition holds, in the given order of priority *)
Fixpoint first_error {E} (l : list (bool * E)) : option E :=
  match l with
  | [] => None
  | (c, e) :: l' => if c then Some e else first_error l'
  end.
