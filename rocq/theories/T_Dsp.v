(** Generated by tools/gen_properties.py from P_Dsp.v: property theorems only. *)

From Coq Require Import List Arith ZArith NArith Reals Lia Bool Lra.
From Flocq Require Import Core BinarySingleNaN.
From Verif Require Import M_Base M_Arith M_Utils M_Dsp M_F32 M_RX S_Spec S_Norm S_Dsp P_Inst.
Import ListNotations.
Local Open Scope R_scope.

From Verif Require Import P_Dsp.

(** [Complex::new] checks its arguments and then ignores them: the result is 0 + 0i for all finite
    arguments, in every arithmetic. *)
Theorem C52_new :
  forall (A : Arith) (OK : ArithOk A) (re im : T),
  (valid re -> valid im -> c_new re im = Ok (mkComplex f0 f0)) /\
  (forall e, bad re = Some e -> c_new re im = Err e) /\
  (forall e, valid re -> bad im = Some e -> c_new re im = Err e).
Proof. exact l_c_new. Qed.
Print Assumptions C52_new.

(** so it does not build the number it is asked for, e.g. 3 + 4i *)
Theorem C52_new_refuted :
  forall lm, exists (re im : T (Arith := F32 lm)) (z : Complex (A := F32 lm)),
  valid re /\ valid im /\ c_new re im = Ok z /\ B2R re = 3 /\ B2R im = 4 /\ B2R (c_re z) = 0 /\ B2R (c_im z) = 0.
Proof. exact l_c_new_w. Qed.
Print Assumptions C52_new_refuted.

(** The operations are those of complex numbers in exact arithmetic, whatever the target held before. *)
Theorem C52_field :
  forall (s : Complex (A := RX)) (a b : cplx),
  c_add (cx a) (cx b) s = (cx (cadd a b), Ok tt) /\
  c_sub (cx a) (cx b) s = (cx (csub a b), Ok tt) /\
  c_mul (cx a) (cx b) s = (cx (cmul a b), Ok tt) /\
  c_neg (cx a) = (cx (copp a), Ok tt) /\
  c_conjugate (cx a) = (cx (cconj a), Ok tt) /\
  c_swap (cx a, cx b) = ((cx b, cx a), Ok tt).
Proof. exact l_c_field. Qed.
Print Assumptions C52_field.

(** Division: refused with the target untouched when both parts of the divisor are within EPSILON of 0,
    and otherwise the one number whose product with the divisor is the dividend. *)
Theorem C52_div :
  forall (s : Complex (A := RX)) (a b : cplx),
  (czero b -> c_div (cx a) (cx b) s = (s, Err Nan)) /\
  (~ czero b -> exists q, c_div (cx a) (cx b) s = (cx q, Ok tt) /\ cmul q b = a /\ forall q', cmul q' b = a -> q' = q).
Proof. exact l_c_div. Qed.
Print Assumptions C52_div.

(** Modulus, polar form and exponential.  The modulus is flushed to 0 when it is within EPSILON, and the
    exponential is 0 when e^re is within EPSILON. *)
Theorem C52_polar :
  forall (s : Complex (A := RX)) (a : cplx) (r t : R),
  c_calculate_module (cx a) = Ok (Some (if Rle_bool (cabs a) eps then 0 else cabs a)) /\
  c_convert_from_polar (A := RX) (Some r) (Some t) s = (cx (cpolar r t), Ok tt) /\
  (eps < exp (Re a) -> c_expo (cx a) = (cx (cexp a), Ok tt)) /\
  (exp (Re a) <= eps -> c_expo (cx a) = (cx (Cplx 0 0), Ok tt)).
Proof. exact l_c_polar. Qed.
Print Assumptions C52_polar.

(** The parts can only be set to finite values, and a refused value changes nothing. *)
Theorem C52_set :
  forall (A : Arith) (x : T) (z : Complex),
  (valid x -> c_set_real_part x z = (mkComplex x (c_im z), Ok tt) /\ c_set_imaginary_part x z = (mkComplex (c_re z) x, Ok tt)) /\
  (forall e, bad x = Some e -> c_set_real_part x z = (z, Err e) /\ c_set_imaginary_part x z = (z, Err e)).
Proof. exact l_c_set. Qed.
Print Assumptions C52_set.

(** But the operations do not check their results: a sum of finite numbers becomes infinite, and a
    finite number divided by itself becomes NaN, both without an error. *)
Theorem C52_unchecked_refuted :
  forall lm, exists (z s s1 s2 : Complex (A := F32 lm)),
  valid (c_re z) /\ valid (c_im z) /\ valid (c_re s) /\ valid (c_im s) /\
  c_add z z s = (s1, Ok tt) /\ finf (c_re s1) = true /\
  c_div z z s = (s2, Ok tt) /\ fnan (c_re s2) = true.
Proof. exact l_c_unchecked. Qed.
Print Assumptions C52_unchecked_refuted.

(** (1 + 2i)(3 + 4i) = -5 + 10i, and the divisor 3 + 4i is not numerically zero *)
Example C52_example : c_mul (cx (Cplx 1 2)) (cx (Cplx 3 4)) (cx (Cplx 0 0)) = (cx (cmul (Cplx 1 2) (Cplx 3 4)), Ok tt) /\
  cmul (Cplx 1 2) (Cplx 3 4) = Cplx (-5) 10 /\ ~ czero (Cplx 3 4) /\ eps < exp (Re (Cplx 0 1)).
Proof.
  split; [reflexivity|]. split; [unfold cmul; cbn; f_equal; ring|]. split.
  - intros [H _]. cbn in H. rewrite Rabs_pos_eq in H; lra.
  - cbn. rewrite exp_0. unfold eps. lra.
Qed.

(** Bit reversal: bit i of the result is bit b-1-i of the argument for i < b, the other bits are 0; more
    than 8 bits are refused. *)
Theorem C53_bitrev :
  forall n b : N, (n < 256)%N ->
  ((b <= 8)%N -> exists r, bitrev n b = Ok r /\ forall i, N.testbit r i = ((i <? b)%N && N.testbit n (b - 1 - i))%bool) /\
  ((8 < b)%N -> bitrev n b = Err BitReverseError).
Proof. exact l_bitrev. Qed.
Print Assumptions C53_bitrev.

(** On b-bit numbers it is its own inverse, hence a permutation of 0 .. 2^b - 1. *)
Theorem C53_involution :
  forall n b : N, (b <= 8)%N -> (n < 2 ^ b)%N ->
  exists r, bitrev n b = Ok r /\ (r < 2 ^ b)%N /\ bitrev r b = Ok n.
Proof. exact l_bitrev_inv. Qed.
Print Assumptions C53_involution.

(** 13 = 01101 on five bits becomes 10110 = 22 *)
Example C53_example : bitrev 13 5 = Ok 22%N /\ bitrev 22 5 = Ok 13%N /\ bitrev 13 9 = Err BitReverseError.
Proof. repeat split; reflexivity. Qed.

(** The merge step leaves the samples as they are, and computes nothing: it succeeds on every slice of at
    least 16 elements, panics on shorter ones, and fails if expf(0) is not finite. *)
Theorem C53_dftmerge :
  forall lm (ck : bool) (self : FFT (A := F32 lm)) (x : list (Complex (A := F32 lm))),
  dftmerge ck (fft_new self) x =
    (x, match bad (fexp (Arith := F32 lm) f0) with
        | Some e => Err (FFTUtilsError e)
        | None => if (16 <=? length x)%nat then Ok tt else Panic
        end).
Proof. exact l_dftmerge. Qed.
Print Assumptions C53_dftmerge.
