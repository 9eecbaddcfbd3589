(** Generated by tools/gen_properties.py from P_Solve.v: property theorems only. *)

From Coq Require Import List Arith ZArith Reals Lia Bool Lra.
From Flocq Require Import Core BinarySingleNaN.
From Verif Require Import M_Base M_Arith M_Utils M_Vector M_Matrix M_F32 M_RX
  S_Spec S_Linalg S_Norm S_Lu P_Inst.
Import ListNotations.
Local Open Scope R_scope.

From Verif Require Import P_Solve.

(** C15: after a successful [lup], [solve] either finds x with A x = b or reports Unsolvable, and the latter
    happens exactly when some pivot is within EPSILON of zero *)
Theorem C15_solve :
  forall (m lu : Mat (T (Arith := RX))) (p : Vec nat) (b : Vec (T (Arith := RX))) (n : nat) (a : nat -> nat -> R) (bv : nat -> R),
  mat_r m n n a -> vec_r b n bv -> lup m = Ok (lu, p) ->
  exists f pi, mat_r lu n n f /\ idx_is p n pi /\
  ((exists v x, solve lu b p = Ok v /\ vec_r v n x /\ (forall i, (i < n)%nat -> rmv n a x i = bv i) /\
      (forall i, (i < n)%nat -> eps < Rabs (f (pi i) i)))
   \/ (solve lu b p = Err Unsolvable /\ exists i, (i < n)%nat /\ Rabs (f (pi i) i) <= eps)).
Proof. exact l_solve. Qed.
Print Assumptions C15_solve.

(** C15: the solution found is the only one *)
Theorem C15_unique :
  forall (m lu : Mat (T (Arith := RX))) (p : Vec nat) (b v : Vec (T (Arith := RX))) (n : nat) (a : nat -> nat -> R) (bv x z : nat -> R),
  mat_r m n n a -> vec_r b n bv -> lup m = Ok (lu, p) -> solve lu b p = Ok v -> vec_r v n x ->
  (forall i, (i < n)%nat -> rmv n a z i = bv i) -> forall i, (i < n)%nat -> z i = x i.
Proof. exact l_solve_unique. Qed.
Print Assumptions C15_unique.

Example C15_example :
  let A := F32 lm_id in
  let m := mk_mat 3 3 (map z32 [1; 2; 3; 2; 4; 8; 4; 2; 0]%Z) in
  let b := mk_vec (map z32 [2; 2; 8]%Z) in
  wfm m /\ wfv b /\
  rmap (fun s => rmap show_v (solve (fst s) b (snd s))) (lup m) = Ok (Ok (3%nat, true, map sf [1; 2; -1]%Z)).
Proof.
  cbv zeta. split; [apply wfm_b_ok; vm_compute; reflexivity|].
  split; [apply wfv_b_ok; vm_compute; reflexivity|vm_compute; reflexivity].
Qed.

(** C16: [invert] of a square matrix either yields the two-sided inverse, or reports NotInversible and
    leaves the matrix unchanged *)
Theorem C16_invert :
  forall (m : Mat (T (Arith := RX))) (n : nat) (a : nat -> nat -> R), mat_r m n n a ->
  (exists m' b, m_invert m = (m', Ok tt) /\ mat_r m' n n b /\
     req n n (rmul n a b) rid /\ req n n (rmul n b a) rid)
  \/ m_invert m = (m, Err NotInversible).
Proof. exact l_invert. Qed.
Print Assumptions C16_invert.

(** C16: [invert] succeeds exactly when [lup] succeeds with every pivot beyond EPSILON *)
Theorem C16_iff :
  forall (m : Mat (T (Arith := RX))) (n : nat) (a : nat -> nat -> R), mat_r m n n a ->
  ((exists m', m_invert m = (m', Ok tt)) <->
   (exists lu p f pi, lup m = Ok (lu, p) /\ mat_r lu n n f /\ idx_is p n pi /\ perm n pi /\
     forall i, (i < n)%nat -> eps < Rabs (f (pi i) i))).
Proof. exact l_invert_iff. Qed.
Print Assumptions C16_iff.

(** C16: an uninitialised matrix is reported NotInit, a non-square one NotSquare, and both are unchanged,
    whatever the arithmetic *)
Theorem C16_guards :
  forall (A : Arith) (m : Mat (T (Arith := A))), wfm m ->
  (m_initialized m = false -> m_invert m = (m, Err NotInit)) /\
  (m_initialized m = true -> m_rows m <> m_cols m -> m_invert m = (m, Err NotSquare)).
Proof. exact l_invert_guards. Qed.
Print Assumptions C16_guards.

(** C16, violation: in binary32 [invert] can fail after overwriting rows: [[1, 1e38], [0, 0.001]] is left as
    [[1, 0], [0, 0.001]], and the failure is reported as NotInversible *)
Theorem C16_unchanged_f32_refuted :
  exists m : Mat f32, forall lm : Libm, wfm (A := F32 lm) m /\
  show_m m = (2%nat, 2%nat, true, map B2SF [z32 1; z32 (10 ^ 38); z32 0; lit32 1 1000]) /\
  snd (m_invert (A := F32 lm) m) = Err NotInversible /\
  show_m (fst (m_invert (A := F32 lm) m)) = (2%nat, 2%nat, true, map B2SF [z32 1; z32 0; z32 0; lit32 1 1000]).
Proof. exact l_invert_f32_w. Qed.
Print Assumptions C16_unchanged_f32_refuted.

Example C16_example :
  let A := F32 lm_id in
  let m := mk_mat 2 2 (map z32 [1; 2; 3; 4]%Z) in
  wfm m /\ snd (m_invert m) = Ok tt /\
  mat_r (rmat 2 2 [2; 1; 1; 1]) 2 2 (fun i j => nth (i * 2 + j) [2; 1; 1; 1] 0).
Proof.
  cbv zeta. split; [apply wfm_b_ok; vm_compute; reflexivity|].
  split; [vm_compute; reflexivity|apply rmat_is; cbn; lia].
Qed.
