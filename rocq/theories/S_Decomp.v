(** Specification vocabulary for the decompositions and the matrix logarithm. *)
From Coq Require Import List Arith ZArith Reals Bool.
From Verif Require Import M_Base M_Arith M_Matrix M_RX S_Spec S_Linalg S_Norm.
Import ListNotations.
Local Open Scope R_scope.

(** some vector with a component 1 is sent by [a] to a vector not longer than EPSILON *)
Definition near_singular (n : nat) (a : nat -> nat -> R) : Prop :=
  exists c x, (c < n)%nat /\ x c = 1 /\ sqrt (Rsum n (fun i => rmv n a x i * rmv n a x i)) <= eps.

(** the rotation by [t] about the axis (x,y,z) (Rodrigues' formula), and the cross-product matrix of the axis *)
Definition rodrigues (t x y z : R) (i j : nat) : R :=
  let c := cos t in let s := sin t in
  nth (i * 3 + j)
    [c + x * x * (1 - c);     x * y * (1 - c) - z * s; x * z * (1 - c) + y * s;
     y * x * (1 - c) + z * s; c + y * y * (1 - c);     y * z * (1 - c) - x * s;
     z * x * (1 - c) - y * s; z * y * (1 - c) + x * s; c + z * z * (1 - c)] 0.
Definition cross_m (x y z : R) (i j : nat) : R :=
  nth (i * 3 + j) [0; - z; y; z; 0; - x; - y; x; 0] 0.

(** the norm [calculate_norm] computes: square root of the left-to-right sum of squares, flushed to zero *)
Definition fnorm {A : Arith} (n : nat) (x : nat -> T) : T :=
  let s := fsqrt (fsum n (fun i => x i * x i)%F) in if (s <=? EPSILON)%F then f0 else s.

(** orthonormal columns; change of basis; an orthogonally similar matrix (shifted, when shifts are used) is near singular *)
Definition orth (n : nat) (w : nat -> nat -> R) : Prop := req n n (rmul n (rtr w) w) rid.
Definition rconj (n : nat) (w a : nat -> nat -> R) : nat -> nat -> R := rmul n (rtr w) (rmul n a w).
Definition qr_degenerate (n : nat) (sh : bool) (a : nat -> nat -> R) : Prop :=
  exists w x, orth n w /\ (sh = false -> x = 0) /\ near_singular n (fun i j => rconj n w a i j - x * rid i j).
