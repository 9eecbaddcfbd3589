(** Generated by tools/gen_properties.py from P_Recog.v: property theorems only. *)

From Coq Require Import List Arith ZArith Reals Lia Bool Lra SpecFloat.
From Flocq Require Import Core BinarySingleNaN.
From Verif Require Import M_Base M_Arith M_Utils M_Vector M_Matrix M_F32 M_RX
  S_Spec S_Linalg S_Norm S_Lu S_F32 P_Inst P_InstF.
Import ListNotations.
Local Open Scope R_scope.

From Verif Require Import P_Recog.

(** C74, violation for a whole class, every libm: a 3 x 3 matrix with zero in the lower left corner, a first element that is not
    too small, nothing positive below it and at most 9e-5 in the middle of the last row (but more than below the first
    element) is refused by [det], [is_so_n], [is_orthogonal], [log] and [invert], whatever the other elements are.  Every
    clockwise turn about z below a right angle (a10 < 0 = a21) and every counterclockwise turn about x by at most 9e-5 rad
    (a10 = 0 < a21) is such a matrix *)
Theorem C74_refused :
  forall (lm : Libm) (m : Mat (T (Arith := F32 lm))) (a : nat -> nat -> R), mat_f m 3 3 a ->
  (forall i j, (i < 3)%nat -> (j < 3)%nat -> Rabs (a i j) <= 2) -> 2 / 10000 <= a 0%nat 0%nat -> a 2%nat 0%nat = 0 ->
  a 1%nat 0%nat <= 0 <= a 2%nat 1%nat -> a 1%nat 0%nat + / 10 ^ 30 <= a 2%nat 1%nat <= 9 / 100000 ->
  m_det m = Err Singular /\ m_is_so_n m = Err Singular /\ m_is_orthogonal m = Err Singular /\ m_log m = Err Singular /\ m_invert m = (m, Err NotInversible).
Proof. exact l_refused32. Qed.
Print Assumptions C74_refused.

(** C74, violation over exact reals: every clockwise turn about z by less than a right angle is refused (until its cosine
    falls below EPSILON), although it is a rotation *)
Theorem C74_clockwise :
  forall (m : Mat (T (Arith := RX))) (phi : R), 0 < phi < PI / 2 -> eps <= cos phi ->
  let a := fun i j => nth (i * 3 + j) [cos phi; sin phi; 0; - sin phi; cos phi; 0; 0; 0; 1] 0 in
  mat_r m 3 3 a ->
  req 3 3 (rmul 3 a (rtr a)) rid /\ rdet 3 a = 1 /\
  m_det m = Err Singular /\ m_is_so_n m = Err Singular /\ m_is_orthogonal m = Err Singular /\ m_log m = Err Singular /\ m_invert m = (m, Err NotInversible).
Proof. exact l_refused_real. Qed.
Print Assumptions C74_clockwise.

(** C74: when [lup] of a 3 x 3 f32 matrix with elements up to 1.01 succeeds and its first two pivots are at least 1/2, the
    determinant is within 7e-5 of the true one *)
Theorem C74_det :
  forall (lm : Libm) (m lu : Mat (T (Arith := F32 lm))) (p : Vec nat) (a : nat -> nat -> R), mat_f m 3 3 a ->
  (forall i j, (i < 3)%nat -> (j < 3)%nat -> Rabs (a i j) <= 101 / 100) -> lup m = Ok (lu, p) ->
  exists f pi, mat_f lu 3 3 f /\ idx_is p 3 pi /\ perm 3 pi /\
    (/ 2 <= Rabs (f (pi 0%nat) 0%nat) -> / 2 <= Rabs (f (pi 1%nat) 1%nat) ->
     exists d, m_det m = Ok d /\ is_finite (d : f32) = true /\ Rabs (B2R (d : f32) - rdet 3 a) <= 66 / 1000000).
Proof. exact l_det32. Qed.
Print Assumptions C74_det.

(** C74: a 3 x 3 f32 matrix whose rows are orthonormal up to 9e-5 and whose determinant is 1 up to 3e-5 is recognised as a
    rotation (and as orthogonal) whenever [lup] accepts it with first pivots of at least 1/2 *)
Theorem C74_recognised :
  forall (lm : Libm) (m lu : Mat (T (Arith := F32 lm))) (p : Vec nat) (a : nat -> nat -> R), mat_f m 3 3 a ->
  (forall i j, (i < 3)%nat -> (j < 3)%nat -> Rabs (rmul 3 a (rtr a) i j - rid i j) <= 9 / 100000) -> Rabs (rdet 3 a - 1) <= 3 / 100000 -> lup m = Ok (lu, p) ->
  exists f pi, mat_f lu 3 3 f /\ idx_is p 3 pi /\ perm 3 pi /\
    (/ 2 <= Rabs (f (pi 0%nat) 0%nat) -> / 2 <= Rabs (f (pi 1%nat) 1%nat) -> m_is_so_n m = Ok true /\ m_is_orthogonal m = Ok true).
Proof. exact l_recognised32. Qed.
Print Assumptions C74_recognised.

(** C74, violation for every libm: the rotation of the unit quaternion (40, -41, 56, 12)/81, stored as the nearest f32 matrix,
    is answered "no": it is 1e-7 close to an exact rotation, but the first pivot of 1/6561 costs the determinant more than
    EPSILON *)
Theorem C74_answer_no_refuted :
  exists m : Mat f32, forall lm : Libm, exists a, mat_f (lm := lm) m 3 3 a /\
  let r := fun i j => IZR (nth (i * 3 + j) [1; -5552; 3496; -3632; 2911; 4624; -5464; -1936; -3073]%Z 0%Z) / 6561 in
  req 3 3 (rmul 3 r (rtr r)) rid /\ rdet 3 r = 1 /\ (forall i j, (i < 3)%nat -> (j < 3)%nat -> Rabs (a i j - r i j) <= / 10000000) /\
  m_is_so_n (A := F32 lm) m = Ok false /\ m_is_orthogonal (A := F32 lm) m = Ok false.
Proof. exact l_so32_w. Qed.
Print Assumptions C74_answer_no_refuted.

(** Test: a third of a turn about (1,1,1), with elements rounded to 20 bits; the first pivots are 0.67 and 1 *)
Example C74_example :
  let A := F32 lm_id in let m := mk_mat (A := A) 3 3 (map (fun k => lit32 k 1048576) [699051; -349525; 699051; 699051; 699051; -349525; -349525; 699051; 699051]%Z) in
  let a := fun i j => IZR (nth (i * 3 + j) [699051; -349525; 699051; 699051; 699051; -349525; -349525; 699051; 699051]%Z 0%Z) / 1048576 in
  mat_f (lm := lm_id) m 3 3 a /\ (forall i j, (i < 3)%nat -> (j < 3)%nat -> Rabs (rmul 3 a (rtr a) i j - rid i j) <= 9 / 100000) /\ Rabs (rdet 3 a - 1) <= 3 / 100000 /\
  rmap (fun p => (show_m (fst p), v_elems (snd p))) (lup m) = Ok
    ((3%nat, 3%nat, true, [S754_finite false 11184816 (-24); S754_finite true 11184800 (-25); S754_finite false 11184816 (-24); S754_finite false 8388608 (-23); S754_finite false 8388608 (-23);
       S754_finite true 8388608 (-23); S754_finite true 16777192 (-25); S754_finite false 8388620 (-24); S754_finite false 12582918 (-23)]), [0; 1; 2; 0]%nat) /\ m_is_so_n m = Ok true.
Proof. exact ex_recog. Qed.
