(** Generated by tools/gen_properties.py from P_Qr.v: property theorems only. *)

From Coq Require Import List Arith ZArith Reals Lia Bool Lra.
From Flocq Require Import Core BinarySingleNaN.
From Verif Require Import M_Base M_Arith M_Utils M_Vector M_Matrix M_F32 M_RX
  S_Spec S_Linalg S_Norm S_Lu S_Decomp P_Inst.
Import ListNotations.
Local Open Scope R_scope.

From Verif Require Import P_Qr.

(** C21: [qr_decomp] of a square matrix always succeeds in exact arithmetic, R is Q' A, and either Q is
    orthogonal, R is upper triangular and Q R = A, or A is singular up to EPSILON *)
Theorem C21_qr :
  forall (m : Mat (T (Arith := RX))) (n : nat) (a : nat -> nat -> R), mat_r m n n a ->
  exists mq mr q r, m_qr_decomp m = Ok (mq, mr) /\ mat_r mq n n q /\ mat_r mr n n r /\
    req n n r (rmul n (rtr q) a) /\
    ((req n n (rmul n (rtr q) q) rid /\ upper n r /\ req n n (rmul n q r) a)
     \/ near_singular n a).
Proof. exact l_qr. Qed.
Print Assumptions C21_qr.

(** C21, violation for every arithmetic (binary32 included): on a non-square matrix [qr_decomp] never
    succeeds; on a square one it returns two matrices of that size or a non-finite-value error; it never panics *)
Theorem C21_nonsquare :
  forall (A : Arith) (OK : ArithOk A) (m : Mat T) (r c : nat) (f : nat -> nat -> T), mat_is m r c f ->
  (r <> c -> m_qr_decomp m = Err InvalidSize \/ exists u, m_qr_decomp m = Err (UtilsErr u)) /\
  (r = c -> (exists q s g h, m_qr_decomp m = Ok (q, s) /\ mat_is q r r g /\ mat_is s r r h)
            \/ exists u, m_qr_decomp m = Err (UtilsErr u)).
Proof. exact l_qr_nonsquare. Qed.
Print Assumptions C21_nonsquare.

(** C21, violation: the 3 x 2 matrix of the first two unit vectors has no QR decomposition according to the
    library *)
Theorem C21_nonsquare_refuted :
  exists m : Mat f32, forall lm : Libm, wfm (A := F32 lm) m /\
  show_m m = (3%nat, 2%nat, true, map sf [1; 0; 0; 1; 0; 0]%Z) /\ m_qr_decomp (A := F32 lm) m = Err InvalidSize.
Proof. exact l_qr_w. Qed.
Print Assumptions C21_nonsquare_refuted.

(** C21, violation: on the singular matrix [[0,1],[0,1]] the loop stops at the first column and [qr_decomp]
    returns Ok with Q = A and Q R = [[0,2],[0,2]] *)
Theorem C21_early_stop_refuted :
  exists m : Mat f32, forall lm : Libm, wfm (A := F32 lm) m /\
  show_m m = (2%nat, 2%nat, true, map sf [0; 1; 0; 1]%Z) /\
  rmap (fun s => (show_m (fst s), show_m (snd s), rmap show_m (m_mul_new (A := F32 lm) (fst s) (snd s)))) (m_qr_decomp (A := F32 lm) m) =
    Ok ((2%nat, 2%nat, true, map sf [0; 1; 0; 1]%Z), (2%nat, 2%nat, true, map sf [0; 0; 0; 2]%Z),
        Ok (2%nat, 2%nat, true, map sf [0; 2; 0; 2]%Z)).
Proof. exact l_qr_stop. Qed.
Print Assumptions C21_early_stop_refuted.

Example C21_example :
  let A := F32 lm_id in
  let m := mk_mat 2 2 (map z32 [0; 2; 3; 1]%Z) in
  wfm m /\ rmap (fun s => (show_m (fst s), show_m (snd s))) (m_qr_decomp m) =
    Ok ((2%nat, 2%nat, true, map sf [0; 1; 1; 0]%Z), (2%nat, 2%nat, true, map sf [3; 1; 0; 2]%Z)).
Proof. cbv zeta. split; [apply wfm_b_ok; vm_compute; reflexivity|vm_compute; reflexivity]. Qed.
