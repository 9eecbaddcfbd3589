(** Generated by tools/gen_properties.py from P_Pivot.v: property theorems only. *)

From Coq Require Import List Arith ZArith Reals Lia Bool Lra SpecFloat.
From Flocq Require Import Core BinarySingleNaN.
From Verif Require Import M_Base M_Arith M_Utils M_Vector M_Matrix M_F32 M_RX
  S_Spec S_Linalg S_Norm S_Lu S_Decomp S_Pivot P_Inst P_InstF.
Import ListNotations.
Local Open Scope R_scope.

From Verif Require Import P_Pivot.

(** C14, in every arithmetic (binary32 included): a 2 x 2 matrix is reported Singular exactly when the larger (not the larger in
    magnitude) of the two elements of its first column is below EPSILON in magnitude *)
Theorem C14_two :
  forall (A : Arith) (OK : ArithOk A) (m : Mat T) (f : nat -> nat -> T), mat_is m 2 2 f ->
  (lup m = Err Singular <-> (fabs (f (fst (order2 f)) 0%nat) <? EPSILON)%F = true).
Proof. exact l_two. Qed.
Print Assumptions C14_two.

(** C14, in every arithmetic (binary32 included), when the first elimination step stays finite: a 3 x 3 matrix is reported
    Singular exactly when the largest element of its first column, or the element taken as second pivot, is below EPSILON in
    magnitude; the second pivot comes from the last row if its candidate exceeds the multiplier of the other row *)
Theorem C14_three :
  forall (A : Arith) (OK : ArithOk A) (m : Mat T) (f : nat -> nat -> T), mat_is m 3 3 f -> let '(p, q, r) := order3 f in
    ((fabs (f p 0%nat) <? EPSILON)%F = false ->
     forall i, i = q \/ i = r -> valid (f i 0%nat / f p 0%nat)%F /\ forall j, j = 1%nat \/ j = 2%nat -> valid (cleared f p i j)) ->
    (lup m = Err Singular <-> (fabs (f p 0%nat) <? EPSILON)%F = true \/
      (fabs (if (cleared f p r 1 >? f q 0%nat / f p 0%nat)%F then cleared f p r 1 else cleared f p q 1) <? EPSILON)%F = true /\
      (fabs (f p 0%nat) <? EPSILON)%F = false).
Proof. exact l_three. Qed.
Print Assumptions C14_three.

(** C14 over exact reals: the same with real inequalities; in every other case [lup] succeeds *)
Theorem C14_three_real :
  forall (m : Mat (T (Arith := RX))) (a : nat -> nat -> R) (p q r : nat) (x : R), mat_r m 3 3 a -> leads3 a p q r -> second3 a p q r x ->
  (lup m = Err Singular <-> Rabs (a p 0%nat) < eps \/ Rabs x < eps) /\
  (eps <= Rabs (a p 0%nat) -> eps <= Rabs x -> exists lu pv, lup m = Ok (lu, pv)).
Proof. exact l_three_real. Qed.
Print Assumptions C14_three_real.

(** C74 over exact reals, violation: of the turns about z exactly those from 0 to 90 degrees are recognised; every other one is
    refused by [det], [is_so_n], [is_orthogonal], [log] and [invert] *)
Theorem C74_about_z :
  forall (m : Mat (T (Arith := RX))) (t : R), mat_r m 3 3 (rodrigues t 0 0 1) -> verdict m (sin t < 0 \/ cos t < 0).
Proof. exact l_about_z. Qed.
Print Assumptions C74_about_z.

(** C74 over exact reals: a turn about x is refused exactly when its sine is positive and below EPSILON, or not positive while
    the cosine is below EPSILON in magnitude *)
Theorem C74_about_x :
  forall (m : Mat (T (Arith := RX))) (t : R), mat_r m 3 3 (rodrigues t 1 0 0) -> verdict m (0 < sin t < eps \/ sin t <= 0 /\ Rabs (cos t) < eps).
Proof. exact l_about_x. Qed.
Print Assumptions C74_about_x.

(** C74 over exact reals, violation: a turn about y is refused exactly when neither its cosine nor the negative of its sine
    reaches EPSILON, that is (up to EPSILON) from 90 to 180 degrees *)
Theorem C74_about_y :
  forall (m : Mat (T (Arith := RX))) (t : R), mat_r m 3 3 (rodrigues t 0 1 0) -> verdict m (cos t < eps /\ - sin t < eps).
Proof. exact l_about_y. Qed.
Print Assumptions C74_about_y.

(** C14, C74: in f32, [[1,2,0],[4,1,1],[2,0,4]] takes row 1 first and is accepted; the exact turn about z by 120 degrees is
    refused, the one by 45 degrees recognised *)
Example C74_regions_example :
  (let A := F32 lm_id in let m := mk_mat (A := A) 3 3 (map z32 [1; 2; 0; 4; 1; 1; 2; 0; 4]%Z) in
   wfm m /\ order3 (A := A) (fun i j => nth (i * 3 + j) (map z32 [1; 2; 0; 4; 1; 1; 2; 0; 4]%Z) (z32 0)) = (1, 0, 2)%nat /\
   rmap (fun s => v_elems (snd s)) (lup m) = Ok [1; 0; 2; 0]%nat) /\
  (exists m : Mat (T (Arith := RX)), mat_r m 3 3 (rodrigues (2 * (PI / 3)) 0 0 1) /\ m_is_so_n m = Err Singular) /\
  exists m : Mat (T (Arith := RX)), mat_r m 3 3 (rodrigues (PI / 4) 0 0 1) /\ m_is_so_n m = Ok true.
Proof. exact ex_regions. Qed.
