(** Generated by tools/gen_properties.py from P_Qr32.v: property theorems only. *)

From Coq Require Import List Arith ZArith Reals Lia Bool Lra SpecFloat.
From Flocq Require Import Core BinarySingleNaN.
From Verif Require Import M_Base M_Arith M_Utils M_Vector M_Matrix M_F32
  S_Spec S_Linalg S_Norm S_Lu S_F32 P_Inst P_InstF.
Import ListNotations.
Local Open Scope R_scope.

From Verif Require Import P_Qr32.

(** C73: [qr_decomp] of an n x n f32 matrix whose columns are at most 2^58 long succeeds.  R is the rounded Q' A.  Either
    the columns of Q have length 1 up to 1e-6 and A is, up to 1e-6 of the length of each column, Q times an upper
    triangular matrix with positive diagonal; or the matrix is singular up to rounding: a combination of its columns, in
    which the coefficient of the last one involved is 1, is at most 1.1e-4 long up to 2e-6 of the lengths that go into it *)
Theorem C73_columns :
  forall (lm : Libm) (m : Mat (T (Arith := F32 lm))) (n : nat) (a : nat -> nat -> R), mat_f m n n a ->
  (forall j, (j < n)%nat -> rnorm n (fun i => a i j) <= bpow radix2 58) ->
  exists mq mr q r, m_qr_decomp m = Ok (mq, mr) /\ mat_f mq n n q /\ mat_f mr n n r /\
  (forall i j, (i < n)%nat -> (j < n)%nat ->
    Rabs (r i j - rmul n (rtr q) a i j) <= 3 / 10000000 * (rnorm n (fun k => q k i) * rnorm n (fun k => a k j)) + / 10 ^ 30) /\
  (((forall j, (j < n)%nat -> Rabs (rnorm n (fun i => q i j) - 1) <= / 1000000) /\
    exists s, (forall i j, (j < i)%nat -> s i j = 0) /\ (forall j, (j < n)%nat -> 0 < s j j) /\
    forall i j, (i < n)%nat -> (j < n)%nat -> Rabs (a i j - rmul n q s i j) <= / 1000000 * rnorm n (fun k => a k j) + / 10 ^ 28) \/
   exists c z, (c < n)%nat /\ z c = 1 /\ (forall k, (c < k)%nat -> z k = 0) /\
    rnorm n (rmv n a z) <= 11 / 100000 + Rsum n (fun j => Rabs (z j) * (2 / 1000000 * rnorm n (fun k => a k j) + / 10 ^ 28))).
Proof. exact l_qr32. Qed.
Print Assumptions C73_columns.

(** C73: if moreover no column of A is longer than M and A shrinks no vector by more than a factor sigma, where sigma is
    at least 2e-4 and at least 2e-5 M, then Q is orthogonal up to 3e-5 M / sigma, R is upper triangular and Q R = A up to
    the same factor of M *)
Theorem C73_orthogonal :
  forall (lm : Libm) (m : Mat (T (Arith := F32 lm))) (n : nat) (a : nat -> nat -> R) (M sigma : R), mat_f m n n a ->
  (forall j, (j < n)%nat -> rnorm n (fun i => a i j) <= M) -> M <= bpow radix2 58 ->
  (forall x, sigma * rnorm n x <= rnorm n (rmv n a x)) -> 2 / 10000 <= sigma -> 2 / 100000 * M <= sigma ->
  exists mq mr q r, m_qr_decomp m = Ok (mq, mr) /\ mat_f mq n n q /\ mat_f mr n n r /\
  forall i j, (i < n)%nat -> (j < n)%nat ->
    Rabs (rmul n (rtr q) q i j - rid i j) <= 3 / 100000 * (M / sigma) /\
    ((j < i)%nat -> Rabs (r i j) <= 13 / 100000 * (M * M / sigma)) /\
    Rabs (rmul n q r i j - a i j) <= 6 / 10000 * (M * M / sigma).
Proof. exact l_qr32_ortho. Qed.
Print Assumptions C73_orthogonal.

(** C73, violation for every libm: the second column of [[390,780],[390,780]] is twice the first one, but [qr_decomp] does
    not stop: it returns a Q whose columns are the same up to sign, and Q R is more than 1.9 A *)
Theorem C73_noise_refuted :
  exists m : Mat f32, forall lm : Libm, mat_f (lm := lm) m 2 2 (fun i j => IZR (nth (i * 2 + j) [390; 780; 390; 780]%Z 0%Z)) /\
  exists mq mr q r, m_qr_decomp (A := F32 lm) m = Ok (mq, mr) /\ mat_f (lm := lm) mq 2 2 q /\ mat_f (lm := lm) mr 2 2 r /\
  rmul 2 (rtr q) q 0 1 <= - (999 / 1000) /\
  forall i j, (i < 2)%nat -> (j < 2)%nat -> 19 / 10 * IZR (nth (i * 2 + j) [390; 780; 390; 780]%Z 0%Z) <= rmul 2 q r i j.
Proof. exact l_qr32_w. Qed.
Print Assumptions C73_noise_refuted.

(** test: [[3,1],[4,2]] meets the conditions of C73_orthogonal with M = 5 and sigma = 1/4; the element below the diagonal
    of R is -1.4e-6, not zero *)
Example C73_example :
  let A := F32 lm_id in let m := mk_mat (A := A) 2 2 (map z32 [3; 1; 4; 2]%Z) in let a := fun i j => IZR (nth (i * 2 + j) [3; 1; 4; 2]%Z 0%Z) in
  mat_f (lm := lm_id) m 2 2 a /\ (forall j, (j < 2)%nat -> rnorm 2 (fun i => a i j) <= 5) /\ 5 <= bpow radix2 58 /\
  (forall x, / 4 * rnorm 2 x <= rnorm 2 (rmv 2 a x)) /\ 2 / 10000 <= / 4 /\ 2 / 100000 * 5 <= / 4 /\
  rmap (fun p => (show_m (fst p), show_m (snd p))) (m_qr_decomp m) = Ok
    ((2%nat, 2%nat, true, [S754_finite false 10066330 (-24); S754_finite true 13421776 (-24); S754_finite false 13421773 (-24); S754_finite false 10066326 (-24)]),
     (2%nat, 2%nat, true, [S754_finite false 10485760 (-21); S754_finite false 9227469 (-22); S754_finite true 12582912 (-43); S754_finite false 13421752 (-25)])).
Proof. exact ex_qr. Qed.
