(** Generated by tools/gen_properties.py from P_Chol.v: property theorems only. *)

From Coq Require Import List Arith ZArith Reals Lia Bool Lra Classical SpecFloat.
From Flocq Require Import Core BinarySingleNaN.
From Verif Require Import M_Base M_Arith M_Utils M_Vector M_Matrix M_F32 M_RX
  S_Spec S_Linalg S_Compare S_Norm S_Lu P_Inst.
Import ListNotations.
Local Open Scope R_scope.

From Verif Require Import P_Chol.

(** C22: when [chol] of an exactly symmetric matrix succeeds, the result is lower triangular with non-negative
    diagonal and L L' = A; [chol] never panics *)
Theorem C22_chol :
  forall (m : Mat (T (Arith := RX))) (n : nat) (a : nat -> nat -> R), mat_r m n n a -> req n n a (rtr a) ->
  m_chol m <> Panic /\
  (forall ml, m_chol m = Ok ml -> exists l, mat_r ml n n l /\ lower n l /\
     (forall i, (i < n)%nat -> 0 <= l i i) /\ req n n (rmul n l (rtr l)) a).
Proof. exact l_chol. Qed.
Print Assumptions C22_chol.

(** C22: a matrix on which [chol] succeeds is positive semi-definite *)
Theorem C22_psd :
  forall (m ml : Mat (T (Arith := RX))) (n : nat) (a : nat -> nat -> R) (x : nat -> R), mat_r m n n a -> req n n a (rtr a) ->
  m_chol m = Ok ml -> 0 <= rdot n x (rmv n a x).
Proof. exact l_chol_psd. Qed.
Print Assumptions C22_psd.

(** C22: [is_positive_definite] rejects a matrix that is not symmetric within EPSILON; up to 3 x 3 its answer is
    yes exactly when no leading principal minor is negative, and for 4 x 4 a yes still implies that the first
    three are not; it never panics *)
Theorem C22_pd :
  forall (m : Mat (T (Arith := RX))) (n : nat) (a : nat -> nat -> R), mat_r m n n a ->
  ((exists i j, (i < n)%nat /\ (j < n)%nat /\ eps < Rabs (a i j - a j i)) -> m_is_positive_definite m = Err NotSymetric) /\
  (m_is_positive_definite m = Ok true -> forall k, (k < n)%nat -> (k < 3)%nat -> 0 <= rdet (S k) a) /\
  (m_is_positive_definite m = Ok false -> (n <= 3)%nat -> exists k, (k < n)%nat /\ rdet (S k) a < 0) /\
  m_is_positive_definite m <> Panic.
Proof. exact l_pd. Qed.
Print Assumptions C22_pd.

(** C22: a symmetric positive definite matrix up to 3 x 3 is never rejected *)
Theorem C22_pd_accepts :
  forall (m : Mat (T (Arith := RX))) (n : nat) (a : nat -> nat -> R), mat_r m n n a -> (n <= 3)%nat -> req n n a (rtr a) ->
  (forall x, (exists i, (i < n)%nat /\ x i <> 0) -> 0 < rdot n x (rmv n a x)) ->
  m_is_positive_definite m <> Ok false.
Proof. exact l_pd_accepts. Qed.
Print Assumptions C22_pd_accepts.

(** C22, violation for every libm: the zero 1 x 1 matrix is called positive definite *)
Theorem C22_zero_refuted :
  exists m : Mat f32, forall lm : Libm, wfm (A := F32 lm) m /\
  show_m m = (1%nat, 1%nat, true, map sf [0]%Z) /\ m_is_positive_definite (A := F32 lm) m = Ok true.
Proof. exact l_pd_zero. Qed.
Print Assumptions C22_zero_refuted.

(** C22, violation: [[1, 2^-14], [0, 1]] passes as symmetric; the returned factor has a non-zero element above
    the diagonal (0.61) and the first diagonal element of L L' is above 1.37 instead of 1 *)
Theorem C22_asymmetric_refuted :
  exists m : Mat f32, forall lm : Libm, wfm (A := F32 lm) m /\
  show_m m = (2%nat, 2%nat, true, [sf 1; S754_finite false 8388608 (-37); sf 0; sf 1]) /\
  rmap show_m (m_chol (A := F32 lm) m) = Ok (2%nat, 2%nat, true, [sf 1; S754_finite false 10240000 (-24); sf 0; sf 1]) /\
  rmap (fun p => (fleb (Arith := F32 lm) (lit32 137 100) (fst p), fleb (Arith := F32 lm) (snd p) (lit32 138 100)))
    (let? l := m_chol (A := F32 lm) m in let? t := m_duplicate (A := F32 lm) l in let? t := exec (m_transpose (A := F32 lm)) t in
     let? p := m_mul_new (A := F32 lm) l t in let? x := m_get (A := F32 lm) p 0 0 in Ok (x, x)) = Ok (true, true).
Proof. exact l_chol_w. Qed.
Print Assumptions C22_asymmetric_refuted.

(** test: the hypotheses of C22_chol hold and [chol] succeeds on [[4,2],[2,10]] *)
Example C22_example :
  let A := F32 lm_id in
  let m := mk_mat 2 2 (map z32 [4; 2; 2; 10]%Z) in
  wfm m /\ rmap show_m (m_chol m) = Ok (2%nat, 2%nat, true, map sf [2; 0; 1; 3]%Z) /\
  (let l := fun i j : nat => nth (i * 2 + j) [2; 0; 1; 3] 0 in
   req 2 2 (rmul 2 l (rtr l)) (fun i j => nth (i * 2 + j) [4; 2; 2; 10] 0)).
Proof.
  cbv zeta. split; [apply wfm_b_ok; vm_compute; reflexivity|split; [vm_compute; reflexivity|]].
  intros i j Hi Hj. destruct i as [|[|i]]; [| |lia]; (destruct j as [|[|j]]; [| |lia]); unfold rmul, rtr; cbn; ring.
Qed.
