(** Generated by tools/gen_properties.py from P_Lup.v: property theorems only. *)

From Coq Require Import List Arith ZArith Reals Lia Bool Lra.
From Flocq Require Import Core BinarySingleNaN.
From Verif Require Import M_Base M_Arith M_Utils M_Vector M_Matrix M_F32 M_RX
  S_Spec S_Linalg S_Norm S_Lu P_Inst.
Import ListNotations.
Local Open Scope nat_scope.

From Verif Require Import P_Lup.

(** C14: when [lup] of a square matrix succeeds, the index vector is a permutation [pi] and row [pi i] of A
    is row i of L U, where L (unit lower) and U (upper) are read off the returned matrix through [pi];
    pivots before the last are at least EPSILON; the only failure is Singular *)
Theorem C14_factors :
  forall (m : Mat (T (Arith := RX))) (n : nat) (a : nat -> nat -> R), mat_r m n n a ->
  (exists lu p f pi, lup m = Ok (lu, p) /\ mat_r lu n n f /\ idx_is p n pi /\ perm n pi /\
     (let f' := fun i j => f (pi i) j in req n n (fun i j => a (pi i) j) (rmul n (ulow f') (upp f'))) /\
     (forall k, S k < n -> (eps <= Rabs (f (pi k) k))%R))
  \/ lup m = Err Singular.
Proof. exact l_lup. Qed.
Print Assumptions C14_factors.

(** C14: also in binary32 (any libm): the index vector is a permutation, the factor has the size of the
    input, and the only failures are Singular and a non-finite intermediate value *)
Theorem C14_permutation_f32 :
  forall (lm : Libm) (m : Mat f32) (n : nat) (f : nat -> nat -> f32), mat_is (A := F32 lm) m n n f ->
  (exists lu p g pi, lup (A := F32 lm) m = Ok (lu, p) /\ mat_is (A := F32 lm) lu n n g /\ idx_is p n pi /\ perm n pi)
  \/ lup (A := F32 lm) m = Err Singular \/ exists u, lup (A := F32 lm) m = Err (UtilsErr u).
Proof. exact l_lup_f32. Qed.
Print Assumptions C14_permutation_f32.

(** C14: a sufficient condition for success: a 2 x 2 matrix with first column beyond EPSILON *)
Theorem C14_positive_column :
  forall (m : Mat (T (Arith := RX))) (a : nat -> nat -> R), mat_r m 2 2 a ->
  (eps <= Rabs (a 0%nat 0%nat))%R -> (eps <= Rabs (a 1%nat 0%nat))%R -> exists lu p, lup m = Ok (lu, p).
Proof. exact l_lup_2. Qed.
Print Assumptions C14_positive_column.

(** C14, violation: the rotation by 90 degrees (determinant 1) is reported Singular, in binary32 whatever
    the libm *)
Theorem C14_complete_refuted :
  exists (m : Mat f32), forall lm : Libm, wfm (A := F32 lm) m /\
  rmap show_m (Ok m : res LinalgError (Mat f32)) = Ok (2, 2, true, map sf [0; 1; -1; 0]%Z) /\
  lup (A := F32 lm) m = Err Singular.
Proof. exact l_lup_w. Qed.
Print Assumptions C14_complete_refuted.

(** C14, violation: the same over exact reals *)
Theorem C14_complete_real_refuted :
  exists (m : Mat (T (Arith := RX))) (a : nat -> nat -> R), mat_r m 2 2 a /\ rdet 2 a = 1%R /\ lup m = Err Singular.
Proof. exact l_lup_w_real. Qed.
Print Assumptions C14_complete_real_refuted.

Example C14_example :
  let A := F32 lm_id in
  let m := mk_mat 3 3 (map z32 [1; 2; 3; 2; 4; 8; 4; 2; 0]%Z) in
  wfm m /\ rmap (fun s => (show_m (fst s), v_elems (snd s))) (lup m) =
    Ok (3, 3, true, map B2SF [lit32 1 4; lit32 3 2; z32 3; lit32 1 2; z32 2; z32 2; z32 4; z32 2; z32 0], [2; 0; 1; 0]).
Proof. cbv zeta. split; [apply wfm_b_ok; vm_compute; reflexivity|vm_compute; reflexivity]. Qed.
