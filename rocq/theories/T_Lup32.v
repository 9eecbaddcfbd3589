(** Generated by tools/gen_properties.py from P_Lup32.v: property theorems only. *)

From Coq Require Import List Arith ZArith Reals Lia Bool Lra SpecFloat.
From Flocq Require Import Core BinarySingleNaN.
From Verif Require Import M_Base M_Arith M_Utils M_Vector M_Matrix M_F32
  S_Spec S_Linalg S_Norm S_Quat S_Lu S_F32 S_Lu32 P_Inst P_InstF.
Import ListNotations.
Local Open Scope R_scope.

From Verif Require Import P_Lup32.

(** C68: whenever [lup] of an n x n f32 matrix succeeds, the rows of A in the order [pi] are L U up to 2e-7 times the
    product of the magnitudes of L and U *)
Theorem C68_factors :
  forall (lm : Libm) (m lu : Mat (T (Arith := F32 lm))) (p : Vec nat) (n : nat) (a : nat -> nat -> R),
  mat_f m n n a -> lup m = Ok (lu, p) ->
  exists f pi, mat_f lu n n f /\ idx_is p n pi /\ perm n pi /\
    let f' := fun i j => f (pi i) j in forall i j, (i < n)%nat -> (j < n)%nat ->
    Rabs (a (pi i) j - rmul n (ulow f') (upp f') i j) <= 2 / 10000000 * Rsum n (fun t => amp (ulow f' i t) * amp (upp f' t j)).
Proof. exact l_lup32. Qed.
Print Assumptions C68_factors.

(** C68: whenever [lup] and [solve] succeed on an n x n f32 system, the result solves the system up to a residual of 7e-7
    times the product of the magnitudes of L, U and x *)
Theorem C68_solve :
  forall (lm : Libm) (m lu : Mat (T (Arith := F32 lm))) (b v : Vec (T (Arith := F32 lm))) (p : Vec nat) (n : nat) (a : nat -> nat -> R) (bv : nat -> R),
  mat_f m n n a -> vec_f b n bv -> lup m = Ok (lu, p) -> solve lu b p = Ok v ->
  exists f pi x, mat_f lu n n f /\ idx_is p n pi /\ perm n pi /\ vec_f v n x /\
    let f' := fun i j => f (pi i) j in forall i, (i < n)%nat ->
    Rabs (rmv n a x (pi i) - bv (pi i)) <=
      7 / 10000000 * Rsum n (fun t => amp (ulow f' i t) * (Rsum n (fun j => amp (upp f' t j) * amp (x j)) + least)).
Proof. exact l_solve32. Qed.
Print Assumptions C68_solve.

Example C68_example :
  let A := F32 lm_id in
  let m := mk_mat (A := A) 3 3 (map z32 ex_m) in let b := mk_vec (A := A) (map z32 [2; 2; 8]%Z) in
  mat_f (lm := lm_id) m 3 3 (fun i j => IZR (nth (i * 3 + j) ex_m 0%Z)) /\
  vec_f (lm := lm_id) b 3 (fun i => IZR (nth i [2; 2; 8]%Z 0%Z)) /\
  rmap (fun s => rmap show_v (solve (fst s) b (snd s))) (lup m) = Ok (Ok (3%nat, true, map sf [1; 2; -1]%Z)) /\
  snd (shown show_m (m_invert m)) = Ok tt.
Proof.
  cbv zeta. split; [apply mat_z; try lia; [reflexivity|repeat constructor; cbn; lia]|].
  split; [apply (vec_z lm_id [2; 2; 8]%Z); [cbn; lia|repeat constructor; cbn; lia]|]. split; [vm_compute; reflexivity|].
  vm_compute. reflexivity.
Qed.

(** C68: whenever [invert] of an n x n f32 matrix succeeds, so does [lup], and A times the result is the identity up to
    7e-7 times the product of the magnitudes of L, U and the result *)
Theorem C68_inverse :
  forall (lm : Libm) (m m' : Mat (T (Arith := F32 lm))) (n : nat) (a : nat -> nat -> R),
  mat_f m n n a -> m_invert m = (m', Ok tt) ->
  exists lu p f pi x, lup m = Ok (lu, p) /\ mat_f lu n n f /\ idx_is p n pi /\ perm n pi /\ mat_f m' n n x /\
    let f' := fun i j => f (pi i) j in forall i j, (i < n)%nat -> (j < n)%nat ->
    Rabs (rmul n a x (pi i) j - rid (pi i) j) <=
      7 / 10000000 * Rsum n (fun t => amp (ulow f' i t) * (Rsum n (fun k => amp (upp f' t k) * amp (x k j)) + least)).
Proof. exact l_invert32. Qed.
Print Assumptions C68_inverse.

(** C68, violation: the residual need not be small against the matrix and the solution, because the pivot search compares
    signed values. On the well conditioned system x + K y = 1, - K x + K y = 0 with K = 2^24, whose solution is
    x = y = 1/(K + 1), [solve] returns x = 0, y = 1/K: the second equation reads 1 = 0 *)
Theorem C68_solve_refuted :
  forall lm : Libm, exists (m lu : Mat (T (Arith := F32 lm))) (p : Vec nat) (b v : Vec (T (Arith := F32 lm))) (a g : nat -> nat -> R) (bv x : nat -> R),
  mat_f m 2 2 a /\ vec_f b 2 bv /\
  req 2 2 (rmul 2 a g) rid /\ (forall i j k l, (i < 2)%nat -> (j < 2)%nat -> (k < 2)%nat -> (l < 2)%nat -> Rabs (g i j) * Rabs (a k l) <= 1) /\
  lup m = Ok (lu, p) /\ solve lu b p = Ok v /\ vec_f v 2 x /\
  rmv 2 g bv 0 = / 16777217 /\ rmv 2 g bv 1 = / 16777217 /\ x 0%nat = 0 /\ x 1%nat = / 16777216 /\
  bv 1%nat = 0 /\ rmv 2 a x 1 = 1.
Proof. exact l_solve32_refuted. Qed.
Print Assumptions C68_solve_refuted.
