(** Euler angles of a true attitude, and how close three f32 angles are to them. *)
From Coq Require Import Reals.
From Flocq Require Import Core BinarySingleNaN.
From Verif Require Import M_F32 S_Spec S_Linalg S_Quat.
Local Open Scope R_scope.

(** yaw about z, then pitch about y, then roll about x give the rotation of t; the pitch is not vertical *)
Definition euler_of (t : quat) (roll pitch yaw : R) : Prop :=
  - PI / 2 < pitch < PI / 2 /\ req 3 3 (rmul 3 (Rz yaw) (rmul 3 (Ry pitch) (Rx roll))) (rotmat t).
(** three finite numbers, each off by an angle whose half has a sine of at most e (so that whole turns do not count) *)
Definition angles_within (a b c : f32) (roll pitch yaw e : R) : Prop :=
  is_finite a = true /\ is_finite b = true /\ is_finite c = true /\
  Rabs (sin ((B2R a - roll) / 2)) <= e /\ Rabs (sin ((B2R b - pitch) / 2)) <= e /\ Rabs (sin ((B2R c - yaw) / 2)) <= e.
