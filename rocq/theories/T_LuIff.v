(** Generated by tools/gen_properties.py from P_LuIff.v: property theorems only. *)

From Coq Require Import List Arith ZArith Reals Lia Bool Lra.
From Flocq Require Import Core BinarySingleNaN.
From Verif Require Import M_Base M_Arith M_Utils M_Vector M_Matrix M_F32 M_RX
  S_Spec S_Linalg S_Norm S_Lu P_Inst.
Import ListNotations.
Local Open Scope R_scope.

From Verif Require Import P_LuIff.

(** C19 (exact arithmetic): [lr] succeeds on a 2 x 2 matrix exactly when a00 is not zero, and on a 3 x 3 matrix exactly when
    the first two leading minors are not zero: the outcomes of the comparisons with EPSILON are discarded *)
Theorem C19_succeeds :
  forall (m : Mat (T (Arith := RX))) (a : nat -> nat -> R),
  (mat_r m 2 2 a -> (exists s, m_lr m = Ok s) <-> a 0%nat 0%nat <> 0) /\
  (mat_r m 3 3 a -> (exists s, m_lr m = Ok s) <-> a 0%nat 0%nat <> 0 /\ a 0%nat 0%nat * a 1%nat 1%nat - a 1%nat 0%nat * a 0%nat 1%nat <> 0).
Proof. exact l_lr_iff. Qed.
Print Assumptions C19_succeeds.

(** C20, violation (exact arithmetic): [lu_crout] succeeds on a 2 x 2 matrix exactly when a00 is not zero but at most
    EPSILON in magnitude, and on a 3 x 3 matrix exactly when moreover the second pivot is so: the worse the pivots, the
    better *)
Theorem C20_succeeds :
  forall (m : Mat (T (Arith := RX))) (a : nat -> nat -> R),
  (mat_r m 2 2 a -> (exists s, m_lu_crout m = Ok s) <-> 0 < Rabs (a 0%nat 0%nat) <= eps) /\
  (mat_r m 3 3 a -> (exists s, m_lu_crout m = Ok s) <->
     0 < Rabs (a 0%nat 0%nat) <= eps /\ 0 < Rabs (a 1%nat 1%nat - a 1%nat 0%nat / a 0%nat 0%nat * a 0%nat 1%nat) <= eps).
Proof. exact l_crout_iff. Qed.
Print Assumptions C20_succeeds.

(** matrices on either side of the two criteria *)
Example C20_succeeds_example :
  mat_r (rmat 2 2 [/ 20000; 1; 1; 3]) 2 2 (fun i j => nth (i * 2 + j) [/ 20000; 1; 1; 3] 0) /\ 0 < Rabs (/ 20000) <= eps /\ / 20000 <> 0 /\
  mat_r (rmat 2 2 [2; 1; 1; 3]) 2 2 (fun i j => nth (i * 2 + j) [2; 1; 1; 3] 0) /\ ~ 0 < Rabs 2 <= eps.
Proof.
  assert (M : forall l, length l = 4%nat -> mat_r (rmat 2 2 l) 2 2 (fun i j => nth (i * 2 + j) l 0)) by (intros l H; apply (rmat_is 2 2 l); [lia|lia|exact H]).
  split; [apply M; reflexivity|]. rewrite !Rabs_pos_eq by lra. unfold eps. split; [lra|]. split; [lra|]. split; [apply M; reflexivity|lra].
Qed.
