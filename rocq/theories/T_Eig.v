(** Generated by tools/gen_properties.py from P_Eig.v: property theorems only. *)

From Coq Require Import List Arith ZArith Reals Lia Bool Lra SpecFloat.
From Flocq Require Import Core BinarySingleNaN.
From Verif Require Import M_Base M_Arith M_Utils M_Vector M_Matrix M_F32 M_RX
  S_Spec S_Linalg S_Compare S_Norm S_Lu S_Decomp P_Inst.
Import ListNotations.
Local Open Scope R_scope.

From Verif Require Import P_Eig.

(** C26, for every arithmetic (binary32 included): apart from the shifted 1 x 1 case, [eigen] of a square matrix
    never panics and fails only on a non-finite value.  When it succeeds the eigenvalues are either all zero or the
    diagonal of the last iterate, whose relative change passed the test *)
Theorem C26_outcome :
  forall (A : Arith) (OK : ArithOk A) (ck sh : bool) (niter : nat) (m : Mat T) (n : nat) (f : nat -> nat -> T),
  mat_is m n n f -> (sh = true -> (2 <= n)%nat) ->
  (exists vals vecs v, eigen ck m niter sh = Ok (vals, vecs) /\ mat_is vecs n n v /\
     (vec_is vals n (fun _ => f0) \/
      exists p x, vec_is vals n x /\
        (fnorm n (fun i => x i - p i) / fnorm n x <? EPSILON)%F = true))
  \/ (exists u, eigen ck m niter sh = Err (UtilsErr u)).
Proof. exact l_eigen_outcome. Qed.
Print Assumptions C26_outcome.

(** C26: over the reals, without shift [eigen] always succeeds, and with shift it fails only on an undefined
    shift.  Unless a matrix orthogonally similar to the input (shifted when shifts are used) is near singular,
    the eigenvector matrix V it returns is orthogonal, and the eigenvalues are all zero or the diagonal of
    V^T A V; in the second case their sum is the trace of A *)
Theorem C26_eigen :
  forall (ck sh : bool) (niter : nat) (m : Mat (T (Arith := RX))) (n : nat) (a : nat -> nat -> R),
  mat_r m n n a -> (sh = true -> (2 <= n)%nat) ->
  (exists u, sh = true /\ eigen ck m niter sh = Err (UtilsErr u)) \/
  exists vals vecs v l, eigen ck m niter sh = Ok (vals, vecs) /\ mat_r vecs n n v /\ vec_r vals n l /\
    (qr_degenerate n sh a \/
     (orth n v /\ orth n (rtr v) /\
      ((forall i, (i < n)%nat -> l i = 0) \/
       ((forall i, (i < n)%nat -> l i = rconj n v a i i) /\ Rsum n l = Rsum n (fun i => a i i))))).
Proof. exact l_eigen. Qed.
Print Assumptions C26_eigen.

(** C26: if A stretches every vector of norm at least 1 beyond EPSILON, unshifted [eigen] never degenerates: the
    eigenvectors are orthogonal and the eigenvalues are all zero or the diagonal of V^T A V *)
Theorem C26_regular :
  forall (ck : bool) (niter : nat) (m : Mat (T (Arith := RX))) (n : nat) (a : nat -> nat -> R),
  mat_r m n n a -> (forall y, 1 <= rnorm n y -> eps < rnorm n (rmv n a y)) ->
  exists vals vecs v l, eigen ck m niter false = Ok (vals, vecs) /\ mat_r vecs n n v /\ vec_r vals n l /\
    orth n v /\ orth n (rtr v) /\
    ((forall i, (i < n)%nat -> l i = 0) \/
     ((forall i, (i < n)%nat -> l i = rconj n v a i i) /\ Rsum n l = Rsum n (fun i => a i i))).
Proof. exact l_eigen_regular. Qed.
Print Assumptions C26_regular.

(** C26, violation, in binary32 and over the reals: with a budget of at most one iteration every eigenvalue
    returned is zero, whatever the matrix *)
Theorem C26_budget :
  forall (ck sh : bool) (niter n : nat), (niter <= 1)%nat ->
  (forall (lm : Libm) (m : Mat f32) (f : nat -> nat -> f32) vals vecs, mat_is (A := F32 lm) m n n f ->
     eigen (A := F32 lm) ck m niter sh = Ok (vals, vecs) -> vec_is (A := F32 lm) vals n (fun _ => B754_zero false)) /\
  (forall (m : Mat (T (Arith := RX))) (a : nat -> nat -> R) vals vecs, mat_r m n n a ->
     eigen ck m niter sh = Ok (vals, vecs) -> vec_r vals n (fun _ => 0)).
Proof. exact l_eigen_budget. Qed.
Print Assumptions C26_budget.

(** C26, violation, for every arithmetic: on a 1 x 1 matrix with shift and at least one iteration, [eigen] panics when
    overflow checks are on, and fails with an index error otherwise *)
Theorem C26_shift_1x1 :
  forall (A : Arith) (OK : ArithOk A) (m : Mat T) (f : nat -> nat -> T) (niter : nat), mat_is m 1 1 f -> (1 <= niter)%nat ->
  eigen true m niter true = Panic /\ eigen false m niter true = Err InvalidRow.
Proof. exact l_eigen_shift_1x1. Qed.
Print Assumptions C26_shift_1x1.

(** C26, violation, in binary32 and over the reals: with shift, if the last two diagonal elements are equal and the
    element above the last one is zero (the identity, any multiple of it, ...), the shift is 0/0 and [eigen] fails *)
Theorem C26_scalar_shift :
  forall (ck : bool) (niter n : nat), (2 <= n)%nat -> (1 <= niter)%nat ->
  (forall (lm : Libm) (m : Mat f32) (f : nat -> nat -> f32) (s : bool), mat_is (A := F32 lm) m n n f ->
     f (n - 2)%nat (n - 2)%nat = f (n - 1)%nat (n - 1)%nat -> f (n - 2)%nat (n - 1)%nat = B754_zero s ->
     eigen (A := F32 lm) ck m niter true = Err (UtilsErr Nan)) /\
  (forall (m : Mat (T (Arith := RX))) (a : nat -> nat -> R), mat_r m n n a ->
     a (n - 2)%nat (n - 2)%nat = a (n - 1)%nat (n - 1)%nat -> a (n - 2)%nat (n - 1)%nat = 0 ->
     eigen ck m niter true = Err (UtilsErr Nan)).
Proof. exact l_eigen_scalar_shift. Qed.
Print Assumptions C26_scalar_shift.

(** the hypotheses are met: on the symmetric binary32 matrix [[2,1],[1,2]] ten unshifted iterations give the
    eigenvalues 3 and 1 up to 2^-12, one iteration gives zeros; with shift the identity is refused (test by evaluation) *)
Example C26_example : forall lm : Libm,
  let m := mk_mat (A := F32 lm) 2 2 (map z32 [2; 1; 1; 2]%Z) in
  let i := mk_mat (A := F32 lm) 2 2 (map z32 [1; 0; 0; 1]%Z) in
  wfm (A := F32 lm) m /\ wfm (A := F32 lm) i /\
  rmap (fun p => show_v (fst p)) (eigen (A := F32 lm) true m 1 false) = Ok (2%nat, true, map sf [0; 0]%Z) /\
  match eigen (A := F32 lm) true m 10 false with
  | Ok (v, _) => match v_elems v with
                 | x :: y :: _ => (Bltb (Babs (Bminus mode_NE x (z32 3))) (lit32 1 4096) && Bltb (Babs (Bminus mode_NE y (z32 1))) (lit32 1 4096)) = true
                 | _ => False end
  | _ => False end /\
  rmap (fun p => show_v (fst p)) (eigen (A := F32 lm) true i 5 true) = Err (UtilsErr Nan).
Proof.
  intros lm m i. split; [apply wfm_b_ok; vm_compute; reflexivity|]. split; [apply wfm_b_ok; vm_compute; reflexivity|].
  split; [vm_compute; reflexivity|]. split; vm_compute; reflexivity.
Qed.
