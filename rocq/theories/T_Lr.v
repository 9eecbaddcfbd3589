(** Generated by tools/gen_properties.py from P_Lr.v: property theorems only. *)

From Coq Require Import List Arith ZArith Reals Lia Bool Lra.
From Flocq Require Import Core BinarySingleNaN.
From Verif Require Import M_Base M_Arith M_Utils M_Vector M_Matrix M_F32 M_RX
  S_Spec S_Linalg S_Norm S_Lu P_Inst.
Import ListNotations.
Local Open Scope R_scope.

From Verif Require Import P_Lr.

(** C19: for 1 x 1 and 2 x 2, [lr] succeeds exactly when the first element is not zero, and then L R = A with L
    unit lower triangular and R upper triangular *)
Theorem C19_small :
  forall (m : Mat (T (Arith := RX))) (n : nat) (a : nat -> nat -> R), mat_r m n n a -> (n <= 2)%nat ->
  (a 0%nat 0%nat <> 0 -> exists ml mr l r, m_lr m = Ok (ml, mr) /\ mat_r ml n n l /\ mat_r mr n n r /\
     (forall i, (i < n)%nat -> l i i = 1) /\ lower n l /\ upper n r /\ req n n (rmul n l r) a) /\
  (a 0%nat 0%nat = 0 -> m_lr m = Err (UtilsErr Nan)).
Proof. exact l_lr_small. Qed.
Print Assumptions C19_small.

(** C19, violation for every 3 x 3 matrix: when [lr] succeeds, L R = A holds if and only if a01 a10 = 0 and
    a01 a20 = 0; the factors are always triangular *)
Theorem C19_three :
  forall (m ml mr : Mat (T (Arith := RX))) (a : nat -> nat -> R), mat_r m 3 3 a -> m_lr m = Ok (ml, mr) ->
  exists l r, mat_r ml 3 3 l /\ mat_r mr 3 3 r /\ (forall i, (i < 3)%nat -> l i i = 1) /\ lower 3 l /\ upper 3 r /\
    (req 3 3 (rmul 3 l r) a <->
     a 0%nat 1%nat * a 1%nat 0%nat = 0 /\ a 0%nat 1%nat * a 2%nat 0%nat = 0).
Proof. exact l_lr_three. Qed.
Print Assumptions C19_three.

(** C19, violation: in binary32, [[1,1,1],[1,2,3],[1,3,6]] = L R with integer factors, and [lr] succeeds with
    another R *)
Theorem C19_refuted :
  exists m : Mat f32, forall lm : Libm, wfm (A := F32 lm) m /\
  show_m m = (3%nat, 3%nat, true, map sf [1; 1; 1; 1; 2; 3; 1; 3; 6]%Z) /\
  rmap (fun s => (show_m (fst s), show_m (snd s), rmap show_m (m_mul_new (A := F32 lm) (fst s) (snd s)))) (m_lr (A := F32 lm) m) =
    Ok ((3%nat, 3%nat, true, map sf [1; 0; 0; 1; 1; 0; 1; 2; 1]%Z),
        (3%nat, 3%nat, true, map sf [1; 1; 1; 0; 1; 1; 0; 0; 2]%Z),
        Ok (3%nat, 3%nat, true, map sf [1; 1; 1; 1; 2; 2; 1; 3; 5]%Z)).
Proof. exact l_lr_w. Qed.
Print Assumptions C19_refuted.

Example C19_example :
  let A := F32 lm_id in
  let m := mk_mat 2 2 (map z32 [2; 1; 4; 5]%Z) in
  wfm m /\ rmap (fun s => (show_m (fst s), show_m (snd s))) (m_lr m) =
    Ok ((2%nat, 2%nat, true, map sf [1; 0; 2; 1]%Z), (2%nat, 2%nat, true, map sf [2; 1; 0; 3]%Z)).
Proof. cbv zeta. split; [apply wfm_b_ok; vm_compute; reflexivity|vm_compute; reflexivity]. Qed.

(** C20, violation for every matrix of size at least 2: if |a00| > EPSILON, [lu_crout] reports Singular *)
Theorem C20_singular :
  forall (m : Mat (T (Arith := RX))) (n : nat) (a : nat -> nat -> R), mat_r m n n a -> (2 <= n)%nat ->
  (eps < Rabs (a 0%nat 0%nat) -> m_lu_crout m = Err Singular) /\
  (forall l u, m_lu_crout m = Ok (l, u) -> Rabs (a 0%nat 0%nat) <= eps).
Proof. exact l_crout. Qed.
Print Assumptions C20_singular.

(** C20: the same in binary32, whatever the libm *)
Theorem C20_singular_f32 :
  forall (lm : Libm) (m : Mat f32) (n : nat) (f : nat -> nat -> f32), mat_is (A := F32 lm) m n n f -> (2 <= n)%nat ->
  let A := F32 lm in (fabs (f 0%nat 0%nat : T) <=? EPSILON)%F = false -> m_lu_crout m = Err Singular.
Proof. exact l_crout_f32. Qed.
Print Assumptions C20_singular_f32.

(** C20, violation: [[2,1],[4,5]] has an LU decomposition without pivoting (found by [lr]) and [lu_crout] reports
    Singular; on [[2^-14, 1], [1, 1]], whose first pivot is below EPSILON, it succeeds *)
Theorem C20_refuted :
  exists m m' : Mat f32, forall lm : Libm, wfm (A := F32 lm) m /\ wfm (A := F32 lm) m' /\
  show_m m = (2%nat, 2%nat, true, map sf [2; 1; 4; 5]%Z) /\
  show_m m' = (2%nat, 2%nat, true, map B2SF [lit32 1 16384; z32 1; z32 1; z32 1]) /\
  (exists l u, m_lr (A := F32 lm) m = Ok (l, u)) /\ m_lu_crout (A := F32 lm) m = Err Singular /\
  rmap (fun s => (show_m (fst s), show_m (snd s))) (m_lu_crout (A := F32 lm) m') =
    Ok ((2%nat, 2%nat, true, map sf [1; 0; 16384; 1]%Z), (2%nat, 2%nat, true, map B2SF [lit32 1 16384; z32 1; z32 0; z32 (-16383)])).
Proof. exact l_crout_w. Qed.
Print Assumptions C20_refuted.

Example C20_example :
  mat_r (rmat 2 2 [2; 1; 4; 5]) 2 2 (fun i j => nth (i * 2 + j) [2; 1; 4; 5] 0) /\ eps < Rabs 2.
Proof. split; [apply rmat_is; cbn; lia|]. unfold eps. rewrite Rabs_right; lra. Qed.
