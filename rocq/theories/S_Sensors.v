(** Specification vocabulary for the sensors: which calibration coefficient goes where, and which
    sensor states a program can reach. *)
From Coq Require Import List Arith ZArith Bool.
From Verif Require Import M_Base M_Arith M_Utils M_Vector M_Matrix M_Sensors S_Spec S_Linalg.
Import ListNotations.

Section Sensors.
  Context {A : Arith}.

  (** the coefficient named after the axes a (first letter) and b (second letter) *)
  Definition named (c : Config) (a b : nat) : T :=
    match a, b with
    | 0, 0 => cf_x c  | 0, 1 => cf_xy c | 0, 2 => cf_xz c
    | 1, 0 => cf_yx c | 1, 1 => cf_y c  | 1, 2 => cf_yz c
    | 2, 0 => cf_zx c | 2, 1 => cf_zy c | 2, 2 => cf_z c
    | _, _ => f0
    end.
  (** the coefficient by which axis a enters the reported axis b: the one named ab for the
      gyrometer and the accelerometer; the magnetometer uses xy, xz, yx, yz, zx, zy for
      y->x, x->y, z->x, x->z, z->y, y->z *)
  Definition coefficient (k : kind) (c : Config) (a b : nat) : T :=
    match k with
    | Gyr | Acc => named c a b
    | Mag => match a, b with
             | 1, 0 => cf_xy c | 0, 1 => cf_xz c | 2, 0 => cf_yx c
             | 0, 2 => cf_yz c | 2, 1 => cf_zx c | 1, 2 => cf_zy c
             | _, _ => named c a b
             end
    end.
  Definition bias (c : Config) (a : nat) : T :=
    match a with 0 => cf_bx c | 1 => cf_by c | 2 => cf_bz c | _ => f0 end.
  (** the fields in the order they are written *)
  Definition fields (c : Config) : list T :=
    [cf_x c; cf_y c; cf_z c; cf_xy c; cf_xz c; cf_yx c; cf_yz c; cf_zx c; cf_zy c; cf_bx c; cf_by c; cf_bz c].

  (** raw measurement minus bias; corrected measurement, with its partial sums *)
  Definition unbiased (c : Config) (raw : nat -> T) (a : nat) : T := (raw a - bias c a)%F.
  Definition corrected (k : kind) (c : Config) (raw : nat -> T) (n b : nat) : T :=
    fsum n (fun a => coefficient k c a b * unbiased c raw a)%F.

  (** everything computed by an update is finite *)
  Definition raw_finite (raw : nat -> T) : Prop := forall a, a < 3 -> valid (raw a).
  Definition unbiased_finite (c : Config) (raw : nat -> T) : Prop := forall a, a < 3 -> valid (unbiased c raw a).
  Definition corrected_finite (k : kind) (c : Config) (raw : nat -> T) : Prop :=
    forall b n, b < 3 -> 1 <= n <= 3 -> valid (corrected k c raw n b).

  (** what a caller may do with a sensor, in any order, whatever the outcomes *)
  Inductive call := CInit (c : Config) | CSet (c : Config) | CUpdate (x y z : T).
  Definition do_call (k : kind) (q : call) (s : Sensor) : Sensor * res AhrsError unit :=
    match q with
    | CInit c => sensor_init k c s
    | CSet c => sensor_set_config k c s
    | CUpdate x y z => sensor_update k x y z s
    end.
  Inductive sreach (k : kind) : Sensor -> Prop :=
  | sr_new s : sensor_new = Ok s -> sreach k s
  | sr_call s q : sreach k s -> sreach k (fst (do_call k q s)).
  Definition is_utils (e : AhrsError) : Prop := exists u, e = LinErr (UtilsErr u).
End Sensors.
