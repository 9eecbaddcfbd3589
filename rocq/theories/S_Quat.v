(** Specification vocabulary for quaternions and rotations: textbook algebra on real
    quadruples, independent of the code. *)
From Coq Require Import List Reals.
From Verif Require Import M_Base M_Arith M_Vector M_Matrix M_RX S_Spec S_Linalg.
Import ListNotations.

(** four values as a function of the index *)
Definition quad {X : Type} (w x y z : X) (i : nat) : X :=
  match i with 0 => w | 1 => x | 2 => y | _ => z end.
(** three values as a function of the index *)
Definition triple {X : Type} (x y z : X) (i : nat) : X :=
  match i with 0 => x | 1 => y | _ => z end.

Local Open Scope R_scope.

Record quat := Quat { Qw : R; Qx : R; Qy : R; Qz : R }.

Definition qf (q : quat) : nat -> R := quad (Qw q) (Qx q) (Qy q) (Qz q).
(** [v] is an initialised vector of size 4 holding the quaternion [q] *)
Definition quat_r (v : Vec (T (Arith := RX))) (q : quat) : Prop := vec_r v 4 (qf q).

Definition qone : quat := Quat 1 0 0 0.
Definition qzero : quat := Quat 0 0 0 0.
Definition q_i : quat := Quat 0 1 0 0.
Definition q_j : quat := Quat 0 0 1 0.
Definition q_k : quat := Quat 0 0 0 1.
Definition qadd (p q : quat) : quat := Quat (Qw p + Qw q) (Qx p + Qx q) (Qy p + Qy q) (Qz p + Qz q).
Definition qscale (a : R) (q : quat) : quat := Quat (a * Qw q) (a * Qx q) (a * Qy q) (a * Qz q).
Definition qneg (q : quat) : quat := qscale (-1) q.
Definition qconj (q : quat) : quat := Quat (Qw q) (- Qx q) (- Qy q) (- Qz q).
(** (a, u)(b, v) = (ab - u.v, av + bu + u x v) *)
Definition qmul (p q : quat) : quat :=
  Quat (Qw p * Qw q - (Qx p * Qx q + Qy p * Qy q + Qz p * Qz q))
       (Qw p * Qx q + Qw q * Qx p + (Qy p * Qz q - Qz p * Qy q))
       (Qw p * Qy q + Qw q * Qy p + (Qz p * Qx q - Qx p * Qz q))
       (Qw p * Qz q + Qw q * Qz p + (Qx p * Qy q - Qy p * Qx q)).
Definition qnorm2 (q : quat) : R := Qw q * Qw q + Qx q * Qx q + Qy q * Qy q + Qz q * Qz q.
Definition qnorm (q : quat) : R := sqrt (qnorm2 q).
Definition unitq (q : quat) : Prop := qnorm2 q = 1.

(** the vector [u] turned by [q]: vector part of q (0,u) q* *)
Definition qrot (q : quat) (u : nat -> R) : nat -> R :=
  let t := qmul (qmul q (Quat 0 (u 0%nat) (u 1%nat) (u 2%nat))) (qconj q) in
  triple (Qx t) (Qy t) (Qz t).
(** its matrix: column j is the image of the j-th basis vector *)
Definition basis (j : nat) (i : nat) : R := rid i j.
Definition rotmat (q : quat) (i j : nat) : R := qrot q (basis j) i.

(** determinant of a 3 x 3 matrix *)
Definition det3 (a : nat -> nat -> R) : R :=
  a 0%nat 0%nat * (a 1%nat 1%nat * a 2%nat 2%nat - a 1%nat 2%nat * a 2%nat 1%nat)
  - a 0%nat 1%nat * (a 1%nat 0%nat * a 2%nat 2%nat - a 1%nat 2%nat * a 2%nat 0%nat)
  + a 0%nat 2%nat * (a 1%nat 0%nat * a 2%nat 1%nat - a 1%nat 1%nat * a 2%nat 0%nat).

(** proper rotation matrices *)
Definition rotation (a : nat -> nat -> R) : Prop :=
  req 3 3 (rmul 3 a (rtr a)) rid /\ req 3 3 (rmul 3 (rtr a) a) rid /\ det3 a = 1.

(** elementary rotations about the axes *)
Definition Rx (t : R) (i j : nat) : R :=
  nth (3 * i + j) [1; 0; 0;   0; cos t; - sin t;   0; sin t; cos t] 0.
Definition Ry (t : R) (i j : nat) : R :=
  nth (3 * i + j) [cos t; 0; sin t;   0; 1; 0;   - sin t; 0; cos t] 0.
Definition Rz (t : R) (i j : nat) : R :=
  nth (3 * i + j) [cos t; - sin t; 0;   sin t; cos t; 0;   0; 0; 1] 0.

(** the exponential: e^w (cos|v|, sin|v| v/|v|) *)
Definition vnorm (q : quat) : R := sqrt (Qx q * Qx q + Qy q * Qy q + Qz q * Qz q).
Definition qexp (q : quat) : quat :=
  let n := vnorm q in
  qscale (exp (Qw q)) (Quat (cos n) (sin n * (Qx q / n)) (sin n * (Qy q / n)) (sin n * (Qz q / n))).
(** the constant E of linalg/src/common.rs as a real number *)
Definition euler_e : R := 2718281828459045 / 1000000000000000.
(** numerically real: every component of the vector part within EPSILON (1/10000) of 0 *)
Definition realq (q : quat) : Prop :=
  Rabs (Qx q) <= 1 / 10000 /\ Rabs (Qy q) <= 1 / 10000 /\ Rabs (Qz q) <= 1 / 10000.
