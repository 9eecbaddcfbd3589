(** The f32 operations used by the code, as a record of operations without laws.
    Instances: [M_F32.v] (IEEE-754 binary32) and [M_RX.v] (exact reals). *)
From Coq Require Import ZArith.
From Verif Require Import M_Base.

Class Arith := mkArith {
  T : Type;
  lit : Z -> positive -> T;     (** literal n/d, rounded to nearest *)
  fadd : T -> T -> T;
  fsub : T -> T -> T;
  fmul : T -> T -> T;
  fdiv : T -> T -> T;
  fneg : T -> T;
  fabs : T -> T;                (** libm fabsf *)
  fsqrt : T -> T;               (** libm sqrtf *)
  fltb : T -> T -> bool;        (** a < b, false on NaN *)
  fleb : T -> T -> bool;        (** a <= b, false on NaN *)
  fnan : T -> bool;             (** f32::is_nan *)
  finf : T -> bool;             (** f32::is_infinite *)
  fsin : T -> T;                (** libm sinf *)
  fcos : T -> T;                (** libm cosf *)
  fasin : T -> T;               (** libm asinf *)
  facos : T -> T;               (** libm acosf *)
  fatan2 : T -> T -> T;         (** libm atan2f (y, x) *)
  fpow : T -> T -> T;           (** libm powf *)
  fexp : T -> T                 (** libm expf *)
}.

Declare Scope f_scope.
Delimit Scope f_scope with F.
Bind Scope f_scope with T.
Infix "+" := fadd : f_scope.
Infix "-" := fsub : f_scope.
Infix "*" := fmul : f_scope.
Infix "/" := fdiv : f_scope.
Notation "- x" := (fneg x) : f_scope.
Infix "<?" := fltb : f_scope.
Infix "<=?" := fleb : f_scope.
Notation "x >? y" := (fltb y x) (at level 70, only parsing) : f_scope.
Notation "x >=? y" := (fleb y x) (at level 70, only parsing) : f_scope.

Section Consts.
  Context {A : Arith}.
  Definition f0 : T := lit 0 1.
  Definition f1 : T := lit 1 1.
  Definition fm1 : T := lit (-1) 1.
  Definition f2 : T := lit 2 1.
  Definition f3 : T := lit 3 1.
  Definition f4 : T := lit 4 1.
  Definition fhalf : T := lit 1 2.
  (** conversion of an integer with [as f32] *)
  Definition fofN (n : N) : T := lit (Z.of_N n) 1.
  Definition fofnat (n : nat) : T := lit (Z.of_nat n) 1.
  (** linalg/src/common.rs:9-11 *)
  Definition EPSILON : T := lit 1 10000.
  Definition PI_ : T := lit 3141592653589793 1000000000000000.
  Definition E_ : T := lit 2718281828459045 1000000000000000.
End Consts.
