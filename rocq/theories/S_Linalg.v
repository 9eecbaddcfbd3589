(** Specification vocabulary for linear algebra: sums in the order the machine takes them,
    and real matrices as functions of two indices. *)
From Coq Require Import List Arith ZArith Reals Bool.
From Verif Require Import M_Base M_Arith M_Utils M_Vector M_Matrix M_RX S_Spec.
Import ListNotations.

Local Open Scope nat_scope.
Section Machine.
  Context {A : Arith}.
  (** 0.0 + g(0) + g(1) + ... + g(n-1), from left to right *)
  Fixpoint fsum (n : nat) (g : nat -> T) : T :=
    match n with 0 => f0 | S n' => (fsum n' g + g n')%F end.

  (** Outcome of storing, for every cell in row-major order, the partial sums
      [s i j 1], ..., [s i j k] one after the other over the old content [f]: complete if
      all partial sums are finite, otherwise stopped at the first one that is not. *)
  Definition product_m (r k c : nat) (f : nat -> nat -> T) (s : nat -> nat -> nat -> T)
      (out : Mat T * res LinalgError unit) : Prop :=
    ((forall i j n, i < r -> j < c -> 1 <= n <= k -> valid (s i j n)) /\
     snd out = Ok tt /\ mat_is (fst out) r c (fun i j => s i j k))
    \/
    (exists i j n e, i < r /\ j < c /\ n < k /\ bad (s i j (S n)) = Some e /\
       (forall a b, a < r -> b < c -> before a b i j = true -> forall t, 1 <= t <= k -> valid (s a b t)) /\
       (forall t, 1 <= t <= n -> valid (s i j t)) /\
       snd out = Err (UtilsErr e) /\
       mat_is (fst out) r c (fun a b =>
         if before a b i j then s a b k
         else if (a =? i) && (b =? j) && negb (n =? 0) then s a b n else f a b)).
End Machine.

(** real matrices and vectors *)
Local Open Scope R_scope.
Fixpoint Rsum (n : nat) (g : nat -> R) : R :=
  match n with O => 0 | S n' => Rsum n' g + g n' end.
Definition rmul (k : nat) (a b : nat -> nat -> R) (i j : nat) : R := Rsum k (fun t => a i t * b t j).
Definition rtr (a : nat -> nat -> R) (i j : nat) : R := a j i.
Definition rid (i j : nat) : R := if (i =? j)%nat then 1 else 0.
Definition rmv (k : nat) (a : nat -> nat -> R) (x : nat -> R) (i : nat) : R := Rsum k (fun t => a i t * x t).
Definition rdot (k : nat) (x y : nat -> R) : R := Rsum k (fun t => x t * y t).
(** equality of the r x c parts *)
Definition req (r c : nat) (a b : nat -> nat -> R) : Prop :=
  forall i j, (i < r)%nat -> (j < c)%nat -> a i j = b i j.

(** [m] is an initialised r x c matrix of exact reals with elements [a] *)
Definition mat_r (m : Mat (T (Arith := RX))) (r c : nat) (a : nat -> nat -> R) : Prop :=
  mat_is (A := RX) m r c (fun i j => Some (a i j)).
Definition vec_r (v : Vec (T (Arith := RX))) (n : nat) (a : nat -> R) : Prop :=
  vec_is (A := RX) v n (fun i => Some (a i)).
