(** Generated by tools/gen_properties.py from P_Cplx32.v: property theorems only. *)

From Coq Require Import List Arith ZArith NArith Reals Lia Bool Lra SpecFloat.
From Flocq Require Import Core BinarySingleNaN.
From Verif Require Import M_Base M_Arith M_Utils M_Dsp M_F32 S_Spec S_Dsp S_Track S_Cplx32 P_Inst P_InstF P_F32Ar.
Import ListNotations.
Local Open Scope R_scope.

From Verif Require Import P_Cplx32.

(** C85: negation and conjugation are exact, and sum and difference of complex numbers up to 2^50 are off by at most 6e-8 of the
    result *)
Theorem C85_sum :
  forall (lm : Libm) (x y s : Complex (A := F32 lm)) (a b : cplx), cplx_f x a -> cplx_f y b -> cabs a <= bpow radix2 50 -> cabs b <= bpow radix2 50 ->
  (exists z c, c_add x y s = (z, Ok tt) /\ cplx_f z c /\ cdist c (cadd a b) <= 6 / 100000000 * cabs (cadd a b)) /\
  (exists z c, c_sub x y s = (z, Ok tt) /\ cplx_f z c /\ cdist c (csub a b) <= 6 / 100000000 * cabs (csub a b)) /\
  (exists z, c_neg x = (z, Ok tt) /\ cplx_f z (copp a)) /\
  (exists z, c_conjugate x = (z, Ok tt) /\ cplx_f z (cconj a)).
Proof. exact l_csum32. Qed.
Print Assumptions C85_sum.

(** C85: the product is off by at most 1.7e-7 of the result (plus 1e-39 for underflow) *)
Theorem C85_product :
  forall (lm : Libm) (x y s : Complex (A := F32 lm)) (a b : cplx), cplx_f x a -> cplx_f y b -> cabs a <= bpow radix2 50 -> cabs b <= bpow radix2 50 ->
  exists z c, c_mul x y s = (z, Ok tt) /\ cplx_f z c /\ cdist c (cmul a b) <= 17 / 100000000 * cabs (cmul a b) + / 10 ^ 39.
Proof. exact l_cmul32. Qed.
Print Assumptions C85_product.

(** C85: dividing by a number of which one part is above 1.02 EPSILON never fails, and the quotient is off by at most 4.3e-7 of
    the result (plus 3e-31) *)
Theorem C85_quotient :
  forall (lm : Libm) (x y s : Complex (A := F32 lm)) (a b q : cplx), cplx_f x a -> cplx_f y b -> cabs a <= bpow radix2 50 -> cabs b <= bpow radix2 50 ->
  csizeable b -> cmul q b = a ->
  exists z c, c_div x y s = (z, Ok tt) /\ cplx_f z c /\ cdist c q <= 43 / 100000000 * cabs q + 3 / 10 ^ 31.
Proof. exact l_cdiv32. Qed.
Print Assumptions C85_quotient.

(** C85: multiplying by b and dividing by b again gives the number back within 7e-7 of it (plus 1e-30) *)
Theorem C85_round_trip :
  forall (lm : Libm) (x y s s' : Complex (A := F32 lm)) (a b : cplx), cplx_f x a -> cplx_f y b -> cabs a <= bpow radix2 50 -> cabs b <= bpow radix2 15 -> csizeable b ->
  exists p z c, c_mul x y s = (p, Ok tt) /\ c_div p y s' = (z, Ok tt) /\ cplx_f z c /\ cdist c a <= 7 / 10000000 * cabs a + / 10 ^ 30.
Proof. exact l_cround32. Qed.
Print Assumptions C85_round_trip.

(** C85: the module is off by at most 1.8e-7 of it from 1.03e-4 on and is flushed to 0 up to 9.7e-5; it never fails *)
Theorem C85_module :
  forall (lm : Libm) (x : Complex (A := F32 lm)) (a : cplx), cplx_f x a -> cabs a <= bpow radix2 50 ->
  exists m : f32, c_calculate_module x = Ok m /\ is_finite m = true /\
  (cabs a <= 97 / 1000000 -> B2R m = 0) /\ (103 / 1000000 < cabs a -> Rabs (B2R m - cabs a) <= 18 / 100000000 * cabs a).
Proof. exact l_cmodule32. Qed.
Print Assumptions C85_module.

(** C85: the polar form is converted to within 2d + 1e-7 of the radius, if sin and cos are off by at most d *)
Theorem C85_polar :
  forall (lm : Libm) (s : Complex (A := F32 lm)) (r t : T (Arith := F32 lm)) (d B : R), libm_accurate lm d B -> 0 <= d <= / 10 ->
  is_finite (r : f32) = true -> is_finite (t : f32) = true -> Rabs (B2R (r : f32)) <= bpow radix2 50 -> Rabs (B2R (t : f32)) <= B ->
  exists z c, c_convert_from_polar r t s = (z, Ok tt) /\ cplx_f z c /\
  cdist c (cpolar (B2R (r : f32)) (B2R (t : f32))) <= (2 * d + / 10000000) * Rabs (B2R (r : f32)) + / 10 ^ 39.
Proof. exact l_cpolar32. Qed.
Print Assumptions C85_polar.

(** C85: the exponential is off by at most 3d + 1.1e-7 of its modulus if exp, sin and cos are off by at most d (exp relatively),
    unless that modulus is near EPSILON or below: then the result is 0 *)
Theorem C85_exponential :
  forall (lm : Libm) (x : Complex (A := F32 lm)) (a : cplx) (d B : R), cplx_f x a -> libm_accurate lm d B -> exp_accurate lm d B -> 0 <= d <= / 10 ->
  Rabs (Re a) <= B -> Rabs (Im a) <= B -> exp (Re a) <= bpow radix2 50 ->
  exists z c, c_expo x = (z, Ok tt) /\ cplx_f z c /\ cabs (cexp a) = exp (Re a) /\
  (102 / 1000000 < (1 - d) * exp (Re a) -> cdist c (cexp a) <= (3 * d + 11 / 100000000) * exp (Re a) + / 10 ^ 39) /\
  ((1 + d) * exp (Re a) <= 98 / 1000000 -> c = Cplx 0 0).
Proof. exact l_cexp32. Qed.
Print Assumptions C85_exponential.

(** C85, violation: a number with a part of magnitude 2^64 or more divided by itself gives NaN as the real part, with the outcome
    Ok; its module is an error *)
Theorem C85_overflow :
  forall (lm : Libm) (x s : Complex (A := F32 lm)) (a : cplx), cplx_f x a -> bpow radix2 64 <= Rabs (Re a) \/ bpow radix2 64 <= Rabs (Im a) ->
  (exists z, c_div x x s = (z, Ok tt) /\ c_re z = (B754_nan : T (Arith := F32 lm))) /\ c_calculate_module x = Err Inf.
Proof. exact l_cover32. Qed.
Print Assumptions C85_overflow.

(** C85 hypotheses: 3 + 4i and 1 + 2i, and an implementation of sin and cos within 2e-7 *)
Example C85_example :
  exists (x y : Complex (A := F32 near_libm)) (a b : cplx), cplx_f x a /\ cplx_f y b /\ a = Cplx 3 4 /\ b = Cplx 1 2 /\
  cabs a <= bpow radix2 50 /\ cabs b <= bpow radix2 15 /\ csizeable b /\ 103 / 1000000 < cabs a /\ libm_accurate near_libm (2 / 10000000) 1000.
Proof. exact c85_ex. Qed.

(** C85 hypotheses: the exponential of 1 - i, with an implementation of exp, sin and cos within 1e-6 *)
Example C85_example_exp :
  exists (x : Complex (A := F32 exp_libm)) (a : cplx), cplx_f x a /\ a = Cplx 1 (-1) /\
  libm_accurate exp_libm (1 / 1000000) 1 /\ exp_accurate exp_libm (1 / 1000000) 1 /\ Rabs (Re a) <= 1 /\ Rabs (Im a) <= 1 /\
  exp (Re a) <= bpow radix2 50 /\ 102 / 1000000 < (1 - 1 / 1000000) * exp (Re a).
Proof. exact c85_ex2. Qed.
