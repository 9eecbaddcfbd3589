(** Generated by tools/gen_properties.py from P_So.v: property theorems only. *)

From Coq Require Import List Arith ZArith Reals Lia Bool Lra SpecFloat.
From Flocq Require Import Core BinarySingleNaN.
From Verif Require Import M_Base M_Arith M_Utils M_Vector M_Matrix M_F32 M_RX
  S_Spec S_Linalg S_Compare S_Norm S_Lu S_Decomp P_Inst.
Import ListNotations.
Local Open Scope R_scope.

From Verif Require Import P_So.

(** C23, for every arithmetic (binary32 included): a yes of [is_so_n] ([is_orthogonal]) means that the matrix is
    square, that the computed determinant (its magnitude) is within EPSILON of 1, and that every computed
    element of R R' is within EPSILON of the identity *)
Theorem C23_recognise :
  forall (A : Arith) (OK : ArithOk A) (m : Mat T) (r c : nat) (f : nat -> nat -> T), mat_is m r c f ->
  (m_is_so_n m = Ok true -> r = c /\ (exists d, m_det m = Ok d /\ within EPSILON d f1) /\
     forall i j, (i < r)%nat -> (j < r)%nat ->
       within EPSILON (fsum r (fun t => f i t * f j t)%F) (if (i =? j)%nat then f1 else f0)) /\
  (m_is_orthogonal m = Ok true -> r = c /\ (exists d, m_det m = Ok d /\ within EPSILON (fabs d) f1) /\
     forall i j, (i < r)%nat -> (j < r)%nat ->
       within EPSILON (fsum r (fun t => f i t * f j t)%F) (if (i =? j)%nat then f1 else f0)).
Proof. exact l_recognise. Qed.
Print Assumptions C23_recognise.

(** C23 over exact reals, up to 3 x 3: when the determinant can be computed, [is_so_n] ([is_orthogonal]) says yes
    exactly when every element of R R' is within EPSILON of the identity and det R (its magnitude) of 1 *)
Theorem C23_real :
  forall (m : Mat (T (Arith := RX))) (n : nat) (a : nat -> nat -> R), mat_r m n n a -> (n <= 3)%nat ->
  (exists lu p, lup m = Ok (lu, p)) ->
  decides (m_is_so_n m) (Rabs (rdet n a - 1) <= eps /\
    forall i j, (i < n)%nat -> (j < n)%nat -> Rabs (rmul n a (rtr a) i j - rid i j) <= eps) /\
  decides (m_is_orthogonal m) (Rabs (Rabs (rdet n a) - 1) <= eps /\
    forall i j, (i < n)%nat -> (j < n)%nat -> Rabs (rmul n a (rtr a) i j - rid i j) <= eps).
Proof. exact l_recognise_real. Qed.
Print Assumptions C23_real.

(** C23 over exact reals: a rotation up to 3 x 3 is never answered no *)
Theorem C23_complete :
  forall (m : Mat (T (Arith := RX))) (n : nat) (a : nat -> nat -> R), mat_r m n n a -> (n <= 3)%nat ->
  req n n (rmul n a (rtr a)) rid -> rdet n a = 1 ->
  m_is_so_n m = Ok true \/ m_is_so_n m = Err Singular.
Proof. exact l_so_complete. Qed.
Print Assumptions C23_complete.

(** C23, violation for every libm: the rotations by -90 degrees in the plane and about the z axis are exact in binary32,
    and both tests report Singular *)
Theorem C23_rejected_refuted :
  exists m2 m3 : Mat f32, forall lm : Libm, wfm (A := F32 lm) m2 /\ wfm (A := F32 lm) m3 /\
  show_m m2 = (2%nat, 2%nat, true, map sf [0; 1; -1; 0]%Z) /\
  show_m m3 = (3%nat, 3%nat, true, map sf [0; 1; 0; -1; 0; 0; 0; 0; 1]%Z) /\
  m_is_so_n (A := F32 lm) m2 = Err Singular /\ m_is_orthogonal (A := F32 lm) m2 = Err Singular /\
  m_is_so_n (A := F32 lm) m3 = Err Singular /\ m_is_orthogonal (A := F32 lm) m3 = Err Singular.
Proof. exact l_so_w. Qed.
Print Assumptions C23_rejected_refuted.

(** test: a yes and a no *)
Example C23_example :
  let A := F32 lm_id in
  let u := mk_mat 2 2 [lit32 3 5; lit32 (-4) 5; lit32 4 5; lit32 3 5] in
  let v := mk_mat 2 2 (map z32 [2; 1; 1; 1]%Z) in
  let w := mk_mat 2 2 [lit32 3 5; lit32 4 5; lit32 4 5; lit32 (-3) 5] in
  wfm u /\ m_is_so_n u = Ok true /\ m_is_so_n v = Ok false /\ m_is_so_n w = Ok false /\ m_is_orthogonal w = Ok true.
Proof. cbv zeta. split; [apply wfm_b_ok; vm_compute; reflexivity|]. split; [|split; [|split]]; vm_compute; reflexivity. Qed.

(** C24: once the determinant can be computed (whatever [is_so_n] answers: the answer is not used), [log] and
    [log_in_place] compute theta/(2 sin theta) (R - R') with cos theta = (trace - 1)/2 exactly when
    -1 < trace < 3, and fail with a NaN error otherwise, [log_in_place] then leaving R - R' behind *)
Theorem C24_log :
  forall (m : Mat (T (Arith := RX))) (n : nat) (a : nat -> nat -> R) (b : bool), mat_r m n n a -> m_is_so_n m = Ok b ->
  let tr := Rsum n (fun i => a i i) in
  let theta := acos ((tr - 1) / 2) in
  (-1 < tr < 3 ->
     (exists ml, m_log m = Ok ml /\ mat_r ml n n (fun i j => theta / (2 * sin theta) * (a i j - a j i))) /\
     exists m', m_log_in_place m = (m', Ok tt) /\ mat_r m' n n (fun i j => theta / (2 * sin theta) * (a i j - a j i))) /\
  (tr <= -1 \/ 3 <= tr ->
     m_log m = Err (UtilsErr Nan) /\
     exists m', m_log_in_place m = (m', Err (UtilsErr Nan)) /\ mat_r m' n n (fun i j => a i j - a j i)).
Proof. exact l_log. Qed.
Print Assumptions C24_log.

(** C24: the logarithm, when there is one, is skew-symmetric *)
Theorem C24_skew :
  forall (m ml : Mat (T (Arith := RX))) (n : nat) (a : nat -> nat -> R), mat_r m n n a -> m_log m = Ok ml ->
  exists l, mat_r ml n n l /\ forall i j, (i < n)%nat -> (j < n)%nat -> l i j = - l j i.
Proof. exact l_log_skew. Qed.
Print Assumptions C24_skew.

(** C24: on the rotation by t (0 < t < PI) about a unit axis u, [log] is t times the cross-product matrix of u,
    provided the determinant can be computed *)
Theorem C24_rodrigues :
  forall (m : Mat (T (Arith := RX))) (t x y z : R) (b : bool), x * x + y * y + z * z = 1 -> 0 < t < PI ->
  mat_r m 3 3 (rodrigues t x y z) -> m_is_so_n m = Ok b ->
  exists ml, m_log m = Ok ml /\ mat_r ml 3 3 (fun i j => t * cross_m x y z i j).
Proof. exact l_log_rodrigues. Qed.
Print Assumptions C24_rodrigues.

(** C24, violation: the plane rotation by PI/3 has logarithm +-PI/3 off the diagonal; [log] succeeds with
    PI sqrt 3 / 4 (30 percent more) because it uses the trace formula of dimension 3 *)
Theorem C24_plane_refuted :
  exists m ml : Mat (T (Arith := RX)), exists l, mat_r m 2 2 (fun i j => nth (i * 2 + j) [cos (PI / 3); - sin (PI / 3); sin (PI / 3); cos (PI / 3)] 0) /\
  m_log m = Ok ml /\ mat_r ml 2 2 l /\ l 1%nat 0%nat = PI * sqrt 3 / 4 /\ l 1%nat 0%nat <> PI / 3.
Proof. exact l_log_plane. Qed.
Print Assumptions C24_plane_refuted.

(** C24, violation: the logarithm of the 3 x 3 identity is zero, yet in binary32 [log] fails with a NaN error,
    for every libm with acos 1 = 0 and sin 0 = 0 *)
Theorem C24_identity :
  forall lm : Libm, lm_acos lm (z32 1) = B754_zero false -> lm_sin lm (B754_zero false) = B754_zero false ->
  let m := mk_mat (A := F32 lm) 3 3 (map z32 [1; 0; 0; 0; 1; 0; 0; 0; 1]%Z) in
  wfm (A := F32 lm) m /\ m_is_so_n (A := F32 lm) m = Ok true /\ m_log (A := F32 lm) m = Err (UtilsErr Nan).
Proof. exact l_log_identity. Qed.
Print Assumptions C24_identity.

(** test: C24_rodrigues applies to a quarter turn about x whose recognition succeeds *)
Example C24_example :
  let A := F32 lm_id in
  let m := mk_mat 3 3 (map z32 [1; 0; 0; 0; 0; -1; 0; 1; 0]%Z) in
  wfm m /\ m_is_so_n m = Ok true /\ 1 * 1 + 0 * 0 + 0 * 0 = 1 /\ 0 < PI / 2 < PI /\
  (forall i j, (i < 3)%nat -> (j < 3)%nat -> rodrigues (PI / 2) 1 0 0 i j = nth (i * 3 + j) [1; 0; 0; 0; 0; -1; 0; 1; 0] 0).
Proof.
  cbv zeta. split; [apply wfm_b_ok; vm_compute; reflexivity|]. split; [vm_compute; reflexivity|]. split; [ring|].
  pose proof PI_RGT_0. split; [lra|]. intros i j Hi Hj. unfold rodrigues. rewrite cos_PI2, sin_PI2.
  destruct i as [|[|[|i]]]; [| | |lia]; (destruct j as [|[|[|j]]]; [| | |lia]); cbn [nth Nat.add Nat.mul]; ring.
Qed.

(** C25: [adjugate_in_place] is R' times the computed determinant; on an orthogonal matrix up to 3 x 3 this satisfies
    R adj(R) = det(R) I *)
Theorem C25_adjugate :
  forall (m : Mat (T (Arith := RX))) (n : nat) (a : nat -> nat -> R) (b : bool) (d : R), mat_r m n n a ->
  m_is_so_n m = Ok b -> m_det m = Ok (Some d) ->
  exists m', m_adjugate_in_place m = (m', Ok tt) /\ mat_r m' n n (fun i j => d * a j i) /\
  (req n n (rmul n a (rtr a)) rid ->
     forall i j, (i < n)%nat -> (j < n)%nat -> rmul n a (fun i j => d * a j i) i j = d * rid i j) /\
  ((n <= 3)%nat -> d = rdet n a).
Proof. exact l_adjugate. Qed.
Print Assumptions C25_adjugate.

(** C25, violation for every libm: diag(2,1) has adjugate diag(1,2); [adjugate_in_place] succeeds with diag(4,2) *)
Theorem C25_adjugate_refuted :
  exists m : Mat f32, forall lm : Libm, wfm (A := F32 lm) m /\ show_m m = (2%nat, 2%nat, true, map sf [2; 0; 0; 1]%Z) /\
  rmap show_m (exec (m_adjugate_in_place (A := F32 lm)) m) = Ok (2%nat, 2%nat, true, map sf [4; 0; 0; 2]%Z).
Proof. exact l_adjugate_w. Qed.
Print Assumptions C25_adjugate_refuted.

(** C25, violation for every arithmetic: whatever A and Q, a successful [dlyap] returns the zero matrix *)
Theorem C25_dlyap :
  forall (A : Arith) (OK : ArithOk A) (ma mq mp : Mat T) (r c rq cq : nat) (f g : nat -> nat -> T),
  mat_is ma r c f -> mat_is mq rq cq g -> m_dlyap ma mq = Ok mp -> r = c /\ rq = r /\ cq = r /\ mat_is mp r r (fun _ _ => f0).
Proof. exact l_dlyap. Qed.
Print Assumptions C25_dlyap.

(** C25, violation over exact reals: the result P of a successful [dlyap A Q] satisfies A P A' - P + Q = 0 exactly when Q = 0 *)
Theorem C25_dlyap_unsolved :
  forall (ma mq mp : Mat (T (Arith := RX))) (n : nat) (a q : nat -> nat -> R), mat_r ma n n a -> mat_r mq n n q -> m_dlyap ma mq = Ok mp ->
  exists p, mat_r mp n n p /\
    (req n n (fun i j => rmul n (rmul n a p) (rtr a) i j - p i j + q i j) (fun _ _ => 0) <-> req n n q (fun _ _ => 0)).
Proof. exact l_dlyap_unsolved. Qed.
Print Assumptions C25_dlyap_unsolved.

(** test: [dlyap] succeeds on A = Q = identity, so the violation is not vacuous *)
Example C25_example :
  let A := F32 lm_id in
  let m := mk_mat 2 2 (map z32 [1; 0; 0; 1]%Z) in
  wfm m /\ rmap show_m (m_dlyap m m) = Ok (2%nat, 2%nat, true, map sf [0; 0; 0; 0]%Z) /\
  m_is_so_n m = Ok true /\ rmap B2SF (m_det m) = Ok (sf 1) /\
  rmap show_m (exec m_adjugate_in_place m) = Ok (2%nat, 2%nat, true, map sf [1; 0; 0; 1]%Z).
Proof. cbv zeta. split; [apply wfm_b_ok; vm_compute; reflexivity|]. split; [|split; [|split]]; vm_compute; reflexivity. Qed.
