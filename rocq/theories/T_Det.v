(** Generated by tools/gen_properties.py from P_Det.v: property theorems only. *)

From Coq Require Import List Arith ZArith Reals Lia Bool Lra.
From Flocq Require Import Core BinarySingleNaN.
From Verif Require Import M_Base M_Arith M_Utils M_Vector M_Matrix M_F32 M_RX
  S_Spec S_Linalg S_Norm S_Lu P_Inst.
Import ListNotations.
Local Open Scope R_scope.

From Verif Require Import P_Det.

(** C17: [det_naive] of an initialised square matrix is the determinant (expansion along the first row) *)
Theorem C17_det_naive :
  forall (m : Mat (T (Arith := RX))) (n : nat) (a : nat -> nat -> R), mat_r m n n a ->
  m_det_naive m = Ok (Some (rdet n a)).
Proof. exact l_det_naive. Qed.
Print Assumptions C17_det_naive.

(** C17: non-square is rejected, uninitialised is rejected, and every initialised square matrix is
    accepted without panic, whatever the arithmetic *)
Theorem C17_guards :
  forall (A : Arith) (m : Mat (T (Arith := A))), wfm m ->
  (m_initialized m = false -> m_det_naive m = Err NotInit) /\
  (m_initialized m = true -> m_rows m <> m_cols m -> m_det_naive m = Err NotSquare) /\
  (m_initialized m = true -> m_rows m = m_cols m -> exists d, m_det_naive m = Ok d).
Proof. exact l_det_naive_guards. Qed.
Print Assumptions C17_guards.

Example C17_example :
  let m := rmat 3 3 [2; 0; 1; 1; 3; 2; 0; 1; 4] in
  mat_r m 3 3 (fun i j => nth (i * 3 + j) [2; 0; 1; 1; 3; 2; 0; 1; 4] 0) /\
  rdet 3 (fun i j => nth (i * 3 + j) [2; 0; 1; 1; 3; 2; 0; 1; 4] 0) = 21.
Proof. cbv zeta. split; [apply rmat_is; cbn; lia|unfold rdet, Nat.ltb; cbn; ring]. Qed.

(** C18: [det] of a square matrix succeeds exactly when [lup] does; up to 3 x 3 the result is the
    determinant; for 4 x 4 it is the determinant, negated exactly when the pivot permutation swaps two
    disjoint pairs *)
Theorem C18_det :
  forall (m : Mat (T (Arith := RX))) (n : nat) (a : nat -> nat -> R), mat_r m n n a ->
  (forall lu p, lup m = Ok (lu, p) -> exists pi, idx_is p n pi /\ perm n pi /\
     m_det m = Ok (Some ((if (n =? 4)%nat && double_swap pi then -1 else 1) * rdet n a))) /\
  (forall e, lup m = Err e -> m_det m = Err e) /\ lup m <> Panic.
Proof. exact l_det. Qed.
Print Assumptions C18_det.

(** C18: up to 3 x 3, a successful [det] is the determinant *)
Theorem C18_small :
  forall (m : Mat (T (Arith := RX))) (n : nat) (a : nat -> nat -> R) (d : T (Arith := RX)), mat_r m n n a -> (n <= 3)%nat ->
  m_det m = Ok d -> d = Some (rdet n a).
Proof. exact l_det_small. Qed.
Print Assumptions C18_small.

(** C18: whenever [det] succeeds its square is the square of the determinant; non-square and uninitialised
    are rejected *)
Theorem C18_square :
  forall (m : Mat (T (Arith := RX))) (r c : nat) (a : nat -> nat -> R), mat_r m r c a ->
  (r <> c -> m_det m = Err NotSquare) /\
  (r = c -> forall d, m_det m = Ok d -> exists x, d = Some x /\ Rabs x = Rabs (rdet r a)).
Proof. exact l_det_square. Qed.
Print Assumptions C18_square.

(** C18, violation: the 4 x 4 permutation matrix of (0 1)(2 3), an exact input with determinant +1 (also what
    [det_naive] says), has [det] = -1 in binary32, whatever the libm *)
Theorem C18_sign_refuted :
  exists (m : Mat f32), forall lm : Libm, wfm (A := F32 lm) m /\
  show_m m = (4%nat, 4%nat, true, map sf [0; 1; 0; 0; 1; 0; 0; 0; 0; 0; 0; 1; 0; 0; 1; 0]%Z) /\
  rmap B2SF (m_det (A := F32 lm) m) = Ok (sf (-1)) /\ rmap B2SF (m_det_naive (A := F32 lm) m) = Ok (sf 1).
Proof. exact l_det_w. Qed.
Print Assumptions C18_sign_refuted.

Example C18_example :
  let A := F32 lm_id in
  let m := mk_mat 3 3 (map z32 [1; 2; 3; 2; 4; 8; 4; 2; 0]%Z) in
  wfm m /\ rmap B2SF (m_det m) = Ok (sf 12) /\ rmap B2SF (m_det_naive m) = Ok (sf 12).
Proof. cbv zeta. split; [apply wfm_b_ok; vm_compute; reflexivity|split; vm_compute; reflexivity]. Qed.
