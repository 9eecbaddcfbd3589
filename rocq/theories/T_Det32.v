(** Generated by tools/gen_properties.py from P_Det32.v: property theorems only. *)

From Coq Require Import List Arith ZArith NArith Reals Lia Bool Lra SpecFloat.
From Flocq Require Import Core BinarySingleNaN.
From Verif Require Import M_Base M_Arith M_Utils M_Vector M_Matrix M_F32 S_Spec S_Linalg S_Norm S_Lu S_Lu32 S_F32 S_Det32 P_Inst P_InstF.
Import ListNotations.
Local Open Scope R_scope.

From Verif Require Import P_Det32.

(** C86: [det_naive] in f32 never overflows on entries up to 2^20, and is off from the determinant by at most n! + n + 1
    roundings of the permanent of the magnitudes (1.8e-6 of it for n = 4), plus 1e-17 *)
Theorem C86_naive :
  forall (lm : Libm) (m : Mat (T (Arith := F32 lm))) (n : nat) (a : nat -> nat -> R), mat_f m n n a ->
  (forall i j, (i < n)%nat -> (j < n)%nat -> Rabs (a i j) <= bpow radix2 20) ->
  exists d : f32, m_det_naive m = Ok d /\ is_finite d = true /\
  Rabs (B2R d - rdet n a) <= INR (fact n + n + 1) * (61 / 1000000000) * rpermanent n a + / 10 ^ 17.
Proof. exact l_naive32. Qed.
Print Assumptions C86_naive.

(** C86: whenever [lup] succeeds, with pivots up to 2^20, so does [det], and up to 2.4e-7 of the result (plus 1e-17) it is the
    determinant of a matrix b that differs from the given one by at most 2e-7 of the product of the magnitudes of L and U;
    for 4 x 4 it has the wrong sign when the pivot permutation swaps two disjoint pairs *)
Theorem C86_det :
  forall (lm : Libm) (m lu : Mat (T (Arith := F32 lm))) (p : Vec nat) (n : nat) (a : nat -> nat -> R), mat_f m n n a -> lup m = Ok (lu, p) ->
  exists f pi, mat_f lu n n f /\ idx_is p n pi /\ perm n pi /\ let f' := fun i j => f (pi i) j in
  ((forall i, (i < n)%nat -> Rabs (f' i i) <= bpow radix2 20) ->
   exists (d : f32) (b : nat -> nat -> R), m_det m = Ok d /\ is_finite d = true /\
   (forall i j, (i < n)%nat -> (j < n)%nat -> Rabs (a (pi i) j - b (pi i) j) <= 2 / 10000000 * Rsum n (fun t => amp (ulow f' i t) * amp (upp f' t j))) /\
   Rabs (B2R d - (if (n =? 4)%nat && double_swap pi then -1 else 1) * rdet n b) <= 24 / 100000000 * Rabs (rdet n b) + / 10 ^ 17).
Proof. exact l_det32. Qed.
Print Assumptions C86_det.

(** C86 hypotheses: a matrix with determinant 45 *)
Example C86_example : forall lm : Libm,
  let m := mk_mat (A := F32 lm) 3 3 (map z32 [4; 1; 2; 1; 3; 0; 2; 1; 5]%Z) in
  mat_f m 3 3 (fun i j => IZR (nth (i * 3 + j) [4; 1; 2; 1; 3; 0; 2; 1; 5]%Z 0%Z)) /\
  (forall i j, (i < 3)%nat -> (j < 3)%nat -> Rabs (IZR (nth (i * 3 + j) [4; 1; 2; 1; 3; 0; 2; 1; 5]%Z 0%Z)) <= bpow radix2 20) /\
  rpermanent 3 (fun i j => IZR (nth (i * 3 + j) [4; 1; 2; 1; 3; 0; 2; 1; 5]%Z 0%Z)) = 79 /\
  (rmap (fun s => show_m (fst s)) (lup m) = Ok (3%nat, 3%nat, true, [S754_finite false 8388608 (-21); S754_finite false 8388608 (-23); S754_finite false 8388608 (-22);
     S754_finite false 8388608 (-25); S754_finite false 11534336 (-21); S754_finite true 11796480 (-19);
     S754_finite false 8388608 (-24); S754_finite false 8388608 (-24); S754_finite false 8388608 (-21)])) /\ rmap B2SF (m_det m) = Ok (sf 45).
Proof. exact c86_ex. Qed.
