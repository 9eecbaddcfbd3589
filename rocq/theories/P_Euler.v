(** C35: Euler angles. *)
(*@+*)
From Coq Require Import List Arith ZArith Reals Lia Bool Lra.
From Flocq Require Import Core BinarySingleNaN.
From Verif Require Import M_Base M_Arith M_Utils M_Vector M_Matrix M_Quaternion M_F32 M_RX
  S_Spec S_Linalg S_Norm S_Quat P_Inst P_InstQ.
Import ListNotations.
Local Open Scope R_scope.
(*@-*)
From Coq Require Import Psatz.
From Verif Require Import P_Hoare P_Cont P_Loops P_Access P_Pointwise P_Trans P_Float P_Product
  P_Compare P_Dot P_Norm P_FErr P_Norm32 P_Quat P_Rot P_Dcm.

Lemma cos_atan_pos t : 0 < cos (atan t).
Proof. destruct (atan_bound t). apply cos_gt_0; lra. Qed.
Lemma sin_atan_cos t : sin (atan t) = t * cos (atan t).
Proof.
  pose proof (cos_atan_pos t) as P. rewrite <- (tan_atan t) at 2. unfold tan. field. lra.
Qed.
Lemma cos_atan_sq t : cos (atan t) * cos (atan t) * (1 + t * t) = 1.
Proof.
  pose proof (sin2_cos2 (atan t)) as H. unfold Rsqr in H. rewrite (sin_atan_cos t) in H. nra.
Qed.
(** [Ratan2] is the polar angle *)
Lemma atan2_polar (y x r : R) : 0 < r -> x * x + y * y = r * r ->
  r * cos (Ratan2 y x) = x /\ r * sin (Ratan2 y x) = y.
Proof.
  intros Hr H. unfold Ratan2.
  assert (G : x <> 0 -> r * cos (atan (y / x)) = Rabs x /\ r * sin (atan (y / x)) = Rabs x * (y / x)).
  { intros Hx. set (t := y / x). pose proof (cos_atan_pos t) as P. pose proof (cos_atan_sq t) as S.
    assert (E : x * x * (1 + t * t) = r * r) by (rewrite <- H; unfold t; field; auto).
    assert (K : r * cos (atan t) = Rabs x).
    { apply Rsqr_inj; [nra|apply Rabs_pos|]. rewrite <- Rsqr_abs. unfold Rsqr.
      set (c := cos (atan t)) in *. transitivity (r * r * (c * c)); [ring|]. rewrite <- E.
      transitivity (x * x * (c * c * (1 + t * t))); [ring|]. rewrite S. ring. }
    split; auto. rewrite sin_atan_cos. transitivity (t * (r * cos (atan t))); [ring|]. rewrite K. ring. }
  destruct (Rlt_bool_spec 0 x) as [Lx|Lx].
  - destruct (G ltac:(lra)) as [G1 G2]. rewrite Rabs_right in G1, G2 by lra. split; auto. rewrite G2. field. lra.
  - destruct (Rlt_bool_spec x 0) as [Lx'|Lx'].
    + destruct (G ltac:(lra)) as [G1 G2]. rewrite Rabs_left in G1, G2 by lra.
      assert (G2' : - (r * sin (atan (y / x))) = y) by (rewrite G2; field; lra).
      destruct (Rle_bool_spec 0 y).
      * rewrite neg_cos, neg_sin. lra.
      * assert (C : cos (atan (y / x) - PI) = - cos (atan (y / x))).
        { rewrite cos_minus, cos_PI, sin_PI. ring. }
        assert (S : sin (atan (y / x) - PI) = - sin (atan (y / x))).
        { rewrite sin_minus, cos_PI, sin_PI. ring. }
        rewrite C, S. lra.
    + assert (x = 0) as -> by lra.
      destruct (Rlt_bool_spec 0 y) as [Ly|Ly].
      * rewrite cos_PI2, sin_PI2. assert (r = y) by nra. lra.
      * destruct (Rlt_bool_spec y 0) as [Ly'|Ly'].
        -- rewrite cos_neg, sin_neg, cos_PI2, sin_PI2. assert (r = - y) by nra. lra.
        -- assert (y = 0) by lra. subst. nra.
Qed.

Lemma mul_cancel c a b : c <> 0 -> c * c * a = c * c * b -> a = b.
Proof. intros Hc H. apply Rmult_eq_reg_l with (c * c); [auto|]. apply Rmult_integral_contrapositive_currified; auto. Qed.

(*@ C35_euler *)
(** C35: for a unit quaternion with |pitch| < 90 degrees, the three angles reproduce the matrix:
    Rz(yaw) Ry(pitch) Rx(roll) = R(q) *)
Lemma l_euler :
  forall (v : Vec (T (Arith := RX))) (q : quat), quat_r v q -> unitq q ->
  -1 < 2 * (Qw q * Qy q - Qz q * Qx q) < 1 ->
  exists roll pitch yaw,
    q_convert_to_euler v = Ok (Some roll, Some pitch, Some yaw) /\
    - PI / 2 < pitch < PI / 2 /\
    req 3 3 (rmul 3 (Rz yaw) (rmul 3 (Ry pitch) (Rx roll))) (rotmat q).
Proof.
  intros v q Hv U Hg. unfold q_convert_to_euler, q_get_qw, q_get_qx, q_get_qy, q_get_qz.
  rewrite !(q_get_is _ _ _ Hv) by lia. cbn [rbind].
  pose proof U as U1. unfold unitq, qnorm2 in U1.
  pose proof (rotmat_list q) as RL.
  destruct q as [w x y z]. cbn [Qw Qx Qy Qz qf quad] in *.
  rewrite f2_RX, f1_RX.
  set (s := 2 * (w * y - z * x)) in *.
  set (a := 1 - 2 * (x * x + y * y)). set (b := 2 * (w * x + y * z)).
  set (d := 1 - 2 * (y * y + z * z)). set (e := 2 * (w * z + x * y)).
  set (theta := asin s).
  assert (Sth : sin theta = s) by (apply sin_asin; lra).
  assert (Bth : - PI / 2 < theta < PI / 2).
  { destruct (asin_bound_lt s Hg). unfold theta. lra. }
  assert (Cth : 0 < cos theta) by (apply cos_gt_0; lra).
  set (c := cos theta) in *.
  assert (C2 : c * c = 1 - s * s).
  { pose proof (sin2_cos2 theta) as H. unfold Rsqr in H. rewrite Sth in H. fold c in H. lra. }
  (* homogeneous forms *)
  assert (Ha : a = w*w - x*x - y*y + z*z) by (unfold a; rewrite <- U1 at 1; ring).
  assert (Hd : d = w*w + x*x - y*y - z*z) by (unfold d; rewrite <- U1 at 1; ring).
  assert (N : 1 = (w*w + x*x + y*y + z*z) * (w*w + x*x + y*y + z*z)) by (rewrite U1; ring).
  assert (P1 : a * a + b * b = c * c) by (rewrite C2, N, Ha; unfold b, s; ring).
  assert (P2 : d * d + e * e = c * c) by (rewrite C2, N, Hd; unfold e, s; ring).
  destruct (atan2_polar b a c Cth P1) as [A1 A2]. destruct (atan2_polar e d c Cth P2) as [D1 D2].
  exists (Ratan2 b a), theta, (Ratan2 e d). split.
  { cbn. unfold in_unit. fold s. rewrite !Rle_bool_true by lra. cbn. reflexivity. }
  split; [exact Bth|].
  set (phi := Ratan2 b a) in *. set (psi := Ratan2 e d) in *.
  intros i j Hi Hj. specialize (RL i j Hi Hj U). cbn in RL. rewrite RL. clear RL.
  assert (M1 : 1 - 2 * (x * x + z * z) = w*w - x*x + y*y - z*z) by (rewrite <- U1 at 1; ring).
  assert (M2 : 1 - 2 * (x * x + y * y) = w*w - x*x - y*y + z*z) by (rewrite <- U1 at 1; ring).
  assert (C2' : c * c = (w*w + x*x + y*y + z*z) * (w*w + x*x + y*y + z*z) - s * s) by (rewrite C2, N; ring).
  destruct i as [|[|[|i]]]; [| | |lia]; (destruct j as [|[|[|j]]]; [| | |lia]);
    cbn [rmul Rsum Rx Ry Rz nth Nat.add Nat.mul]; rewrite ?Sth; fold c; rewrite ?M1, ?M2.
  - transitivity (c * cos psi); [ring|]. rewrite D1. exact Hd.
  - apply (mul_cancel c); [lra|].
    transitivity ((c * cos psi) * s * (c * sin phi) - (c * sin psi) * (c * cos phi) * (w*w + x*x + y*y + z*z)); [rewrite U1; ring|].
    rewrite D1, D2, A1, A2, Ha, Hd, C2'. unfold b, e, s. ring.
  - apply (mul_cancel c); [lra|].
    transitivity ((c * cos psi) * s * (c * cos phi) + (c * sin psi) * (c * sin phi) * (w*w + x*x + y*y + z*z)); [rewrite U1; ring|].
    rewrite D1, D2, A1, A2, Ha, Hd, C2'. unfold b, e, s. ring.
  - transitivity (c * sin psi); [ring|]. rewrite D2. unfold e. ring.
  - apply (mul_cancel c); [lra|].
    transitivity ((c * sin psi) * s * (c * sin phi) + (c * cos psi) * (c * cos phi) * (w*w + x*x + y*y + z*z)); [rewrite U1; ring|].
    rewrite D1, D2, A1, A2, Ha, Hd, C2'. unfold b, e, s. ring.
  - apply (mul_cancel c); [lra|].
    transitivity ((c * sin psi) * s * (c * cos phi) - (c * cos psi) * (c * sin phi) * (w*w + x*x + y*y + z*z)); [rewrite U1; ring|].
    rewrite D1, D2, A1, A2, Ha, Hd, C2'. unfold b, e, s. ring.
  - unfold s. ring.
  - transitivity (c * sin phi); [ring|]. rewrite A2. unfold b. ring.
  - transitivity (c * cos phi); [ring|]. rewrite A1. exact Ha.
Qed.

(*@ C35_bounds *)
(** C35: over the reals the pitch is always defined for a unit quaternion *)
Lemma l_euler_total :
  forall (v : Vec (T (Arith := RX))) (q : quat), quat_r v q -> unitq q ->
  exists roll yaw, q_convert_to_euler v = Ok (Some roll, Some (asin (2 * (Qw q * Qy q - Qz q * Qx q))), Some yaw) /\
    - PI < roll <= PI /\ - PI < yaw <= PI.
Proof.
  intros v q Hv U. unfold q_convert_to_euler, q_get_qw, q_get_qx, q_get_qy, q_get_qz.
  rewrite !(q_get_is _ _ _ Hv) by lia. cbn [rbind].
  unfold unitq, qnorm2 in U. destruct q as [w x y z]. cbn [Qw Qx Qy Qz qf quad] in *.
  rewrite f2_RX, f1_RX.
  assert (B : -1 <= 2 * (w * y - z * x) <= 1).
  { pose proof (Rle_0_sqr (w - y)). pose proof (Rle_0_sqr (w + y)). pose proof (Rle_0_sqr (x - z)). pose proof (Rle_0_sqr (x + z)).
    unfold Rsqr in *. nra. }
  do 2 eexists. split.
  { cbn. unfold in_unit. rewrite !Rle_bool_true by lra. cbn. reflexivity. }
  assert (A2 : forall y x, - PI < Ratan2 y x <= PI).
  { intros y0 x0. pose proof PI_RGT_0 as P. unfold Ratan2. destruct (atan_bound (y0 / x0)) as [L1 L2].
    destruct (Rlt_bool_spec 0 x0); [lra|]. destruct (Rlt_bool_spec x0 0).
    - assert (S : 0 <= y0 -> atan (y0 / x0) <= 0).
      { intros Hy. rewrite <- atan_0. destruct (Rle_lt_or_eq_dec 0 y0 Hy) as [Hy'| <-].
        - left. apply atan_increasing. apply Ropp_lt_cancel. rewrite Ropp_0. unfold Rdiv.
          rewrite <- Ropp_mult_distr_r_reverse. apply Rmult_lt_0_compat; auto.
          rewrite <- Rinv_opp. apply Rinv_0_lt_compat. lra.
        - right. f_equal. unfold Rdiv. ring. }
      assert (S' : y0 < 0 -> 0 < atan (y0 / x0)).
      { intros Hy. rewrite <- atan_0. apply atan_increasing. replace (y0 / x0) with ((- y0) * / (- x0)) by (field; lra).
        apply Rmult_lt_0_compat; [lra|]. apply Rinv_0_lt_compat. lra. }
      destruct (Rle_bool_spec 0 y0) as [Hy|Hy]; [specialize (S Hy)|specialize (S' Hy)]; lra.
    - destruct (Rlt_bool_spec 0 y0); [lra|]. destruct (Rlt_bool_spec y0 0); lra. }
  split; apply A2.
Qed.

(*@ C35_pitch_refuted *)
(** C35, violation: normalising (3, 0, 3, 0) in f32 gives a quaternion that passes [is_versor] and for
    which the arcsine is taken of a number above 1, unchecked; with a libm that answers NaN there, the
    pitch returned with Ok is NaN *)
Lemma l_pitch_w :
  exists (v q : Vec f32) (x : f32), 1 < B2R x /\ forall (lm : Libm),
    v_normalize (A := F32 lm) v = (q, Ok tt) /\ q_is_versor (A := F32 lm) q = Ok true /\
    (exists roll yaw, q_convert_to_euler (A := F32 lm) q = Ok (roll, lm_asin lm x, yaw)) /\
    ((forall t, 1 < B2R t -> lm_asin lm t = nan32) ->
     exists roll yaw, q_convert_to_euler (A := F32 lm) q = Ok (roll, nan32, yaw)).
Proof.
  set (v := mk_vec (A := F32 lm_id) [z32 3; z32 0; z32 3; z32 0]).
  set (q := fst (v_normalize (A := F32 lm_id) v)).
  set (e i := vec_of (A := F32 lm_id) q i : f32).
  set (x := Bmult mode_NE (lit32 2 1) (Bminus mode_NE (Bmult mode_NE (e 0%nat) (e 2%nat)) (Bmult mode_NE (e 3%nat) (e 1%nat)))).
  assert (HX : 1 < B2R x).
  { rewrite <- SF2R_B2SF.
    assert (Ex : B2SF x = SpecFloat.S754_finite false 8388609 (-23)) by (vm_compute; reflexivity).
    rewrite Ex. unfold SF2R, F2R. cbn. lra. }
  exists v, q, x. split; [exact HX|].
  intros lm.
  assert (N : v_normalize (A := F32 lm) v = (q, Ok tt)).
  { assert (S : snd (v_normalize (A := F32 lm_id) v) = Ok tt) by (vm_compute; reflexivity).
    change (v_normalize (A := F32 lm) v) with (v_normalize (A := F32 lm_id) v).
    rewrite (surjective_pairing (v_normalize (A := F32 lm_id) v)), S. reflexivity. }
  assert (V : vec_is (A := F32 lm) q 4 e).
  { apply (vec_is_of (A := F32 lm) q); [apply wfv_b_ok|]; vm_compute; reflexivity. }
  assert (C : exists roll yaw, q_convert_to_euler (A := F32 lm) q = Ok (roll, lm_asin lm x, yaw)).
  { unfold q_convert_to_euler, q_get_qw, q_get_qx, q_get_qy, q_get_qz.
    rewrite !(q_get_is _ _ _ V) by lia. cbn [rbind]. do 2 eexists. reflexivity. }
  split; [exact N|]. split; [vm_compute; reflexivity|]. split; [exact C|].
  intros K. destruct C as (r & y & C). rewrite (K x HX) in C. eauto.
Qed.

(*@ example *)
Example C35_example :
  let q := Quat (1/2) (1/2) (1/2) (-1/2) in let p := Quat (4/5) (3/5) 0 0 in
  quat_r (rvec [4/5; 3/5; 0; 0]) p /\ unitq p /\ -1 < 2 * (Qw p * Qy p - Qz p * Qx p) < 1 /\
  quat_r (rvec [1/2; 1/2; 1/2; -1/2]) q /\ unitq q /\ 2 * (Qw q * Qy q - Qz q * Qx q) = 1.
Proof.
  cbv zeta. split; [apply rquat_is|]. split; [unfold unitq, qnorm2; cbn; lra|]. split; [cbn; lra|].
  split; [apply rquat_is|]. unfold unitq, qnorm2. cbn. split; lra.
Qed.
