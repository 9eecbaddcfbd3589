(** The f32 instance of [Arith]: IEEE-754 binary32 with round-to-nearest-even and a
    single NaN (payloads and signs of NaNs are not observable in the modelled code).
    The transcendental functions of the libm crate are an arbitrary record. *)
From Coq Require Import ZArith.
From Flocq Require Import Core BinarySingleNaN.
From Verif Require Import M_Arith.

Definition prec : Z := 24.
Definition emax : Z := 128.
#[global] Instance prec_gt_0_ : FLX.Prec_gt_0 prec := eq_refl.
#[global] Instance prec_lt_emax_ : Prec_lt_emax prec emax := eq_refl.

Definition f32 : Type := binary_float prec emax.

(** the functions of the libm crate that are not correctly rounded *)
Record Libm := mkLibm {
  lm_sin : f32 -> f32;
  lm_cos : f32 -> f32;
  lm_asin : f32 -> f32;
  lm_acos : f32 -> f32;
  lm_atan2 : f32 -> f32 -> f32;
  lm_pow : f32 -> f32 -> f32;
  lm_exp : f32 -> f32
}.

(** correctly rounded quotient of two integers: Flocq's division on unnormalised
    operands (its correctness lemma does not require them to be bounded) *)
Definition lit32 (n : Z) (d : positive) : f32 :=
  match n with
  | Z0 => B754_zero false
  | Zpos p => SF2B _ (proj1 (Bdiv_correct_aux prec emax _ _ mode_NE false p 0 false d 0))
  | Zneg p => SF2B _ (proj1 (Bdiv_correct_aux prec emax _ _ mode_NE true p 0 false d 0))
  end.

Definition is_inf32 (x : f32) : bool :=
  match x with B754_infinity _ => true | _ => false end.

Definition F32 (lm : Libm) : Arith := {|
  T := f32;
  lit := lit32;
  fadd := Bplus mode_NE;
  fsub := Bminus mode_NE;
  fmul := Bmult mode_NE;
  fdiv := Bdiv mode_NE;
  fneg := Bopp;
  fabs := Babs;
  fsqrt := Bsqrt mode_NE;
  fltb := Bltb;
  fleb := Bleb;
  fnan := is_nan;
  finf := is_inf32;
  fsin := lm_sin lm;
  fcos := lm_cos lm;
  fasin := lm_asin lm;
  facos := lm_acos lm;
  fatan2 := lm_atan2 lm;
  fpow := lm_pow lm;
  fexp := lm_exp lm
|}.
