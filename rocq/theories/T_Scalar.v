(** Generated by tools/gen_properties.py from P_Scalar.v: property theorems only. *)

From Coq Require Import List Arith ZArith NArith Reals Lia Bool Lra.
From Flocq Require Import Core BinarySingleNaN.
From Verif Require Import M_Base M_Arith M_Utils M_F32 M_RX S_Spec S_Scalar P_Inst.
Local Open Scope R_scope.

From Verif Require Import P_Scalar.

(** [in_range] decides membership of the closed interval in the order of the extended reals; a NaN on any
    side is out of range. *)
Theorem C54_in_range :
  forall lm (v lo hi : T (Arith := F32 lm)),
  (in_range v lo hi = true <-> fle lo v /\ fle v hi) /\
  (~ fnum v \/ ~ fnum lo \/ ~ fnum hi -> in_range v lo hi = false).
Proof. exact l_in_range. Qed.
Print Assumptions C54_in_range.

(** [clip] with ordered bounds: a value in the interval is returned as it is, and any other number becomes
    the bound it exceeds; so the result is always in the interval.  A NaN is returned as it is. *)
Theorem C54_clip :
  forall lm (v lo hi : T (Arith := F32 lm)), fle lo hi ->
  (fnum v -> let r := clip v lo hi in
     fle lo r /\ fle r hi /\ (fle lo v -> fle v hi -> r = v) /\ (flt v lo -> r = lo) /\ (flt hi v -> r = hi)) /\
  (~ fnum v -> clip v lo hi = v).
Proof. exact l_clip. Qed.
Print Assumptions C54_clip.

(** [minf] and [maxf] return the smaller and the larger of two numbers. *)
Theorem C54_minmax :
  forall lm (x y : T (Arith := F32 lm)), fnum x -> fnum y ->
  (minf x y = x \/ minf x y = y) /\ fle (minf x y) x /\ fle (minf x y) y /\
  (maxf x y = x \/ maxf x y = y) /\ fle x (maxf x y) /\ fle y (maxf x y).
Proof. exact l_minmax. Qed.
Print Assumptions C54_minmax.

(** With a NaN they depend on the order of the arguments: the second one is returned. *)
Theorem C54_minmax_refuted :
  forall lm, exists x n : T (Arith := F32 lm), fnum x /\ ~ fnum n /\
  minf x n = n /\ minf n x = x /\ maxf x n = n /\ maxf n x = x.
Proof. exact l_minmax_nan. Qed.
Print Assumptions C54_minmax_refuted.

(** [sign]: 1 for positive values, -1 for negative ones, 0 for both zeros and NaN. *)
Theorem C54_sign :
  forall lm (x : T (Arith := F32 lm)),
  let zero : T (Arith := F32 lm) := f0 in
  (flt zero x -> sign x = f1) /\ (flt x zero -> sign x = fm1) /\ (~ flt zero x -> ~ flt x zero -> sign x = f0).
Proof. exact l_sign. Qed.
Print Assumptions C54_sign.

(** [factorial] is n! up to 20; above, the u64 product overflows: a panic with overflow checks, n! modulo
    2^64 without them. *)
Theorem C54_factorial :
  forall n : nat,
  ((n <= 20)%nat -> forall ck, factorial ck n = Ok (nfact n)) /\
  ((21 <= n)%nat -> factorial true n = Panic /\ (2 ^ 64 <= nfact n)%N) /\
  factorial false n = Ok (nfact n mod 2 ^ 64)%N.
Proof. exact l_factorial. Qed.
Print Assumptions C54_factorial.

(** [min] and [max] on integers. *)
Theorem C54_int :
  (forall x y : nat, min_u8 x y = Nat.min x y /\ max_u8 x y = Nat.max x y) /\ forall x y : Z, min_i8 x y = Z.min x y.
Proof. exact l_int. Qed.
Print Assumptions C54_int.

(** [allclose] compares finite values only, and decides |x - y| <= d in exact arithmetic. *)
Theorem C54_allclose :
  (forall (A : Arith) (x y d : T) e, bad x = Some e -> allclose x y d = Err e) /\
  (forall (A : Arith) (x y d : T) e, valid x -> bad y = Some e -> allclose x y d = Err e) /\
  (forall x y d : R, exists b, allclose (A := RX) (Some x) (Some y) (Some d) = Ok b /\ (b = true <-> Rabs (x - y) <= d)).
Proof. exact l_allclose. Qed.
Print Assumptions C54_allclose.

(** the interval [0, 1] and the value 2; 20! is the largest one that fits *)
Example C54_example : forall lm, fle (f0 (A := F32 lm)) (f1 (A := F32 lm)) /\ fnum (f2 (A := F32 lm)) /\ flt (f1 (A := F32 lm)) (f2 (A := F32 lm)) /\
  clip (A := F32 lm) f2 f0 f1 = f1 /\ factorial true 20 = Ok 2432902008176640000%N.
Proof. exact sc_ex. Qed.
