(** The exact-arithmetic instance of [Arith]: real numbers with an explicit undefined
    value (division by zero, square root of a negative number, ...), which plays the
    role of NaN: comparisons with it are false and [set_element] rejects it. *)
From Coq Require Import ZArith Reals Bool.
From Flocq Require Import Core.
From Verif Require Import M_Arith.
Local Open Scope R_scope.

Definition rx : Type := option R.

Definition rx1 (f : R -> R) (x : rx) : rx :=
  match x with Some a => Some (f a) | None => None end.
Definition rx2 (f : R -> R -> R) (x y : rx) : rx :=
  match x, y with Some a, Some b => Some (f a b) | _, _ => None end.
Definition rxcmp (f : R -> R -> bool) (x y : rx) : bool :=
  match x, y with Some a, Some b => f a b | _, _ => false end.

Definition rx_div (x y : rx) : rx :=
  match x, y with
  | Some a, Some b => if Req_bool b 0 then None else Some (a / b)
  | _, _ => None
  end.
Definition rx_sqrt (x : rx) : rx :=
  match x with
  | Some a => if Rlt_bool a 0 then None else Some (sqrt a)
  | None => None
  end.
Definition in_unit (a : R) : bool := Rle_bool (-1) a && Rle_bool a 1.
Definition rx_asin (x : rx) : rx :=
  match x with Some a => if in_unit a then Some (asin a) else None | None => None end.
Definition rx_acos (x : rx) : rx :=
  match x with Some a => if in_unit a then Some (acos a) else None | None => None end.
(** angle of the point (x, y), in ]-PI, PI]; 0 at the origin as in libm *)
Definition Ratan2 (y x : R) : R :=
  if Rlt_bool 0 x then atan (y / x)
  else if Rlt_bool x 0 then
    if Rle_bool 0 y then atan (y / x) + PI else atan (y / x) - PI
  else if Rlt_bool 0 y then PI / 2
  else if Rlt_bool y 0 then - (PI / 2)
  else 0.
(** powf: integer exponents >= 0 by repeated product, otherwise exp (y ln x) for
    x > 0, and 0^y = 0 for y > 0; undefined elsewhere *)
Definition rx_pow (x y : rx) : rx :=
  match x, y with
  | Some a, Some b =>
      if Req_bool b (IZR (Zfloor b)) && Rle_bool 0 b then Some (a ^ Z.to_nat (Zfloor b))
      else if Rlt_bool 0 a then Some (Rpower a b)
      else if Req_bool a 0 && Rlt_bool 0 b then Some 0
      else None
  | _, _ => None
  end.

Definition RX : Arith := {|
  T := rx;
  lit := fun n d => Some (IZR n / IZR (Zpos d));
  fadd := rx2 Rplus;
  fsub := rx2 Rminus;
  fmul := rx2 Rmult;
  fdiv := rx_div;
  fneg := rx1 Ropp;
  fabs := rx1 Rabs;
  fsqrt := rx_sqrt;
  fltb := rxcmp Rlt_bool;
  fleb := rxcmp Rle_bool;
  fnan := fun x => match x with None => true | Some _ => false end;
  finf := fun _ => false;
  fsin := rx1 sin;
  fcos := rx1 cos;
  fasin := rx_asin;
  facos := rx_acos;
  fatan2 := rx2 Ratan2;
  fpow := rx_pow;
  fexp := rx1 exp
|}.
