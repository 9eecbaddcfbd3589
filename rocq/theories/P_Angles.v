(** C89: from the errors of the attitude, and from raw readings, to the errors of the Euler angles, in f32. *)
(*@+*)
From Coq Require Import List Arith ZArith NArith Reals Lia Bool Lra SpecFloat.
From Flocq Require Import Core BinarySingleNaN.
From Verif Require Import M_Base M_Arith M_Utils M_Vector M_Matrix M_Quaternion M_Sensors M_Ar M_Aqua M_F32 M_RX
  S_Spec S_Linalg S_Norm S_Quat S_Sensors S_Ar S_Aqua S_F32 S_Reading S_Rest S_Raw S_Euler32 S_Angles S_Track S_RawGyr P_Inst P_InstF P_Rest32 P_Euler32.
Import ListNotations.
Local Open Scope R_scope.
(*@-*)
From Coq Require Import Psatz.
From Verif Require Import P_Float P_Norm P_FErr P_Norm32 P_Quat P_Rot P_Sensors P_Aqua P_AquaR P_AquaM P_FAcc P_F32Mul P_F32Rot P_F32App P_F32Am P_AmGeo P_Am32 P_RestGeo P_MargRun P_RestF P_Rest32 P_AmTrue P_Qr32 P_Calib32 P_Raw P_Euler P_Euler32 P_ArR P_InstQ P_F32Ar P_RawGyr.

Lemma sin_half_tri a b c : Rabs (sin ((a - c) / 2)) <= Rabs (sin ((a - b) / 2)) + Rabs (sin ((b - c) / 2)).
Proof.
  replace ((a - c) / 2) with ((a - b) / 2 + (b - c) / 2) by field. rewrite sin_plus. eapply Rle_trans; [apply Rabs_triang|]. rewrite !Rabs_mult.
  pose proof (Rabs_pos (sin ((a - b) / 2))) as P1. pose proof (Rabs_pos (sin ((b - c) / 2))) as P3.
  assert (C1 : Rabs (cos ((a - b) / 2)) <= 1) by (apply Rabs_le, COS_bound). assert (C2 : Rabs (cos ((b - c) / 2)) <= 1) by (apply Rabs_le, COS_bound).
  nra.
Qed.
Lemma polar2 r c e s t : 0 <= e -> 8 * e <= c -> 0 < c -> 0 <= r -> Rabs (r * cos s - c * cos t) <= e -> Rabs (r * sin s - c * sin t) <= e ->
  3 / 4 * c <= r /\ Rabs (sin ((s - t) / 2)) <= e / c.
Proof.
  intros He Hc C1 R0 HX HY. pose proof (sin2_cos2 s) as Ss. pose proof (sin2_cos2 t) as St. unfold Rsqr in Ss, St.
  pose proof (sin_half_chord s t) as CH. set (S := sin ((s - t) / 2)) in *.
  assert (D : (r * cos s - c * cos t) * (r * cos s - c * cos t) + (r * sin s - c * sin t) * (r * sin s - c * sin t) <= 2 * (e * e)).
  { assert (Q : forall a, Rabs a <= e -> a * a <= e * e) by (intros a Ha; apply Rabs_le_inv in Ha; nra). pose proof (Q _ HX). pose proof (Q _ HY). lra. }
  assert (I : (r * cos s - c * cos t) * (r * cos s - c * cos t) + (r * sin s - c * sin t) * (r * sin s - c * sin t) = (r - c) * (r - c) + 4 * (r * c) * (S * S)).
  { set (a := cos s) in *. set (b := sin s) in *. set (p := cos t) in *. set (q := sin t) in *.
    replace (4 * (r * c) * (S * S)) with (r * c * (4 * (S * S))) by ring. rewrite <- CH.
    transitivity (r * r * (b * b + a * a) + c * c * (q * q + p * p) - 2 * (r * c) * (a * p + b * q)); [ring|].
    transitivity (r * r + c * c - 2 * (r * c) + r * c * ((b * b + a * a) + (q * q + p * p) - 2 * (a * p + b * q))); [rewrite Ss, St; ring|ring]. }
  assert (RC : 3 / 4 * c <= r).
  { apply Rnot_lt_le. intros L. assert (c / 4 <= c - r) by lra.
    assert (c / 4 * (c / 4) <= (r - c) * (r - c)) by nra. assert (0 <= 4 * (r * c) * (S * S)) by (apply Rmult_le_pos; [nra|apply Rle_0_sqr]).
    assert (e * e <= c / 8 * (c / 8)) by nra. nra. }
  split; [exact RC|].
  assert (K : 3 * (c * c) * (S * S) <= 2 * (e * e)).
  { assert (0 <= (r - c) * (r - c)) by apply Rle_0_sqr. assert (3 * (c * c) * (S * S) <= 4 * (r * c) * (S * S)); [|lra].
    apply Rmult_le_compat_r; [apply Rle_0_sqr|]. nra. }
  apply Rmult_le_reg_r with c; [lra|]. replace (e / c * c) with e by (field; lra). rewrite <- (Rabs_pos_eq c) at 1 by lra. rewrite <- Rabs_mult.
  rewrite <- (Rabs_pos_eq e) by lra. apply Rsqr_le_abs_0. unfold Rsqr. assert (0 <= e * e) by nra. nra.
Qed.

Lemma basis_1 j : (j < 3)%nat -> rnorm 3 (basis j) = 1.
Proof.
  intros Hj. unfold rnorm, rdot, basis, rid. cbn [Rsum]. transitivity (sqrt 1); [f_equal; destruct j as [|[|[|j]]]; [| | |lia]; cbn; ring|apply sqrt_1].
Qed.
(** two attitudes whose tilt and heading errors add up to at most s: the elements of their matrices *)
Lemma elements_near q t s : 0 < qnorm q -> unitq t -> tilt_error q t + heading_error q t <= s -> s <= 1 / 20 ->
  forall i j, (i < 3)%nat -> (j < 3)%nat -> Rabs (rotmat (qunit q) i j - rotmat t i j) <= 201 / 100 * s.
Proof.
  intros N0 Ut Hs S1. pose proof (qunit_unit q N0) as Up. unfold tilt_error, heading_error, missing in Hs. set (p := qunit q) in *. clearbody p.
  set (E := qmul (qconj p) t) in *.
  assert (UE : unitq E). { unfold unitq, E. rewrite qnorm2_mul. unfold unitq in *. rewrite Ut. replace (qnorm2 (qconj p)) with (qnorm2 p) by (unfold qnorm2; cbn; ring). rewrite Up. ring. }
  assert (W : Qw E = Qw p * Qw t + Qx p * Qx t + Qy p * Qy t + Qz p * Qz t) by (unfold E; cbn; ring).
  unfold unitq, qnorm2 in UE. destruct E as [w x y z]. cbn [Qw Qx Qy Qz] in *. 
  assert (PP : forall a, 0 <= a * a) by (intros; apply Rle_0_sqr). pose proof (PP w) as Pw. pose proof (PP x) as Px. pose proof (PP y) as Py. pose proof (PP z) as Pz.
  set (a := sqrt (x * x + y * y)) in *. assert (A0 : 0 <= a) by apply sqrt_pos. assert (AA : a * a = x * x + y * y) by (apply sqrt_sqrt; lra).
  assert (HZ : Rabs z <= Rabs z / sqrt (w * w + z * z)).
  { destruct (Req_dec z 0) as [-> | Z0]. { rewrite Rabs_R0. unfold Rdiv. rewrite Rmult_0_l. lra. }
    assert (Z2 : 0 < z * z) by nra. set (k := sqrt (w * w + z * z)). assert (K0 : 0 < k) by (apply sqrt_lt_R0; lra).
    assert (K1 : k <= 1). { unfold k. rewrite <- sqrt_1. apply sqrt_le_1_alt. lra. }
    apply Rmult_le_reg_r with k; [exact K0|]. replace (Rabs z / k * k) with (Rabs z) by (field; lra). pose proof (Rabs_pos z). nra. }
  assert (VS : x * x + y * y + z * z <= s * s).
  { rewrite <- AA. assert (HB : a + Rabs z <= s) by lra. pose proof (Rabs_pos z). replace (z * z) with (Rabs z * Rabs z) by (rewrite <- Rabs_mult; apply Rabs_pos_eq; lra). nra. }
  assert (S0 : 0 <= s) by (pose proof (Rabs_pos z); lra).
  assert (W2 : 1 - s * s <= w * w <= 1) by lra.
  assert (KEY : exists t', unitq t' /\ (forall i j, (i < 3)%nat -> (j < 3)%nat -> rotmat t' i j = rotmat t i j) /\ qdist p t' <= 201 / 200 * s).
  { assert (SQ : forall n, 0 <= n -> n <= 800 / 799 * (s * s) -> sqrt n <= 201 / 200 * s).
    { intros n Hn Hn2. rewrite <- (sqrt_square (201 / 200 * s)) by lra. apply sqrt_le_1_alt. nra. }
    unfold unitq, qnorm2 in Up, Ut.
    destruct (Rle_lt_dec 0 w) as [L|L].
    - exists t. split; [exact Ut|]. split; [reflexivity|]. unfold qdist, qnorm. apply SQ; [unfold qnorm2; pose proof (PP (Qw (qsub p t))); pose proof (PP (Qx (qsub p t))); pose proof (PP (Qy (qsub p t))); pose proof (PP (Qz (qsub p t))); lra|].
      replace (qnorm2 (qsub p t)) with (2 - 2 * w) by (rewrite W; unfold qnorm2; cbn; nra). assert (399 / 400 <= w) by nra. nra.
    - exists (qneg t). split; [unfold unitq, qnorm2; cbn; lra|]. split.
      { intros i j Hi Hj. unfold rotmat, qrot. destruct i as [|[|[|i]]]; [| | |lia]; cbn; ring. }
      unfold qdist, qnorm. apply SQ; [unfold qnorm2; pose proof (PP (Qw (qsub p (qneg t)))); pose proof (PP (Qx (qsub p (qneg t)))); pose proof (PP (Qy (qsub p (qneg t)))); pose proof (PP (Qz (qsub p (qneg t)))); lra|].
      replace (qnorm2 (qsub p (qneg t))) with (2 + 2 * w) by (rewrite W; unfold qnorm2; cbn; nra). assert (w <= - (399 / 400)) by nra. nra. }
  destruct KEY as (t' & Ut' & RT & D). intros i j Hi Hj. rewrite <- RT by auto. unfold rotmat.
  eapply Rle_trans; [apply (vdist_comp (qrot p (basis j)) (qrot t' (basis j)) i Hi)|]. eapply Rle_trans; [apply (qrot_close p t' (basis j) Up Ut')|].
  rewrite basis_1 by exact Hj. lra.
Qed.

Lemma angles_of (lm : Libm) (v : Vec (T (Arith := F32 lm))) (q t : quat) (e1 d roll pitch yaw : R) :
  quat_f v q -> Rabs (qnorm q - 1) <= / 1000000 -> 0 <= e1 ->
  (forall i j, (i < 3)%nat -> (j < 3)%nat -> Rabs (rotmat (qunit q) i j - rotmat t i j) <= e1) -> libm_angles lm d ->
  euler_of t roll pitch yaw -> / 100 <= cos pitch -> 8 * e1 <= cos pitch ->
  exists a b c, q_convert_to_euler v = Ok (a, b, c) /\ angles_within a b c roll pitch yaw ((e1 + 8 / 1000000) / cos pitch + d / 2).
Proof.
  intros Hv HN E0 EN HL [Ht EQ] C1 E8.
  assert (N0 : 0 < qnorm q) by (apply Rabs_le_inv in HN; lra). assert (CB : cos pitch <= 1) by apply COS_bound.
  pose proof (qunit_unit q N0) as Up. set (p := qunit q) in *.
  (* the Euler angles of the attitude held *)
  assert (ROW : rotmat p 2 0 * rotmat p 2 0 + (rotmat p 2 1 * rotmat p 2 1 + rotmat p 2 2 * rotmat p 2 2) = 1).
  { destruct p as [w x y z]. unfold unitq, qnorm2 in Up. cbn [Qw Qx Qy Qz] in Up.
    transitivity ((w * w + x * x + y * y + z * z) * (w * w + x * x + y * y + z * z)); [unfold rotmat, qrot, basis, rid; cbn; ring|rewrite Up; ring]. }
  assert (T21 : rotmat t 2 1 = cos pitch * sin roll) by (rewrite <- EQ by lia; unfold rmul, Rx, Ry, Rz; cbn [Nat.mul Nat.add nth Rsum]; ring).
  assert (T22 : rotmat t 2 2 = cos pitch * cos roll) by (rewrite <- EQ by lia; unfold rmul, Rx, Ry, Rz; cbn [Nat.mul Nat.add nth Rsum]; ring).
  assert (T20 : rotmat t 2 0 = - sin pitch) by (rewrite <- EQ by lia; unfold rmul, Rx, Ry, Rz; cbn [Nat.mul Nat.add nth Rsum]; ring).
  assert (T10 : rotmat t 1 0 = cos pitch * sin yaw) by (rewrite <- EQ by lia; unfold rmul, Rx, Ry, Rz; cbn [Nat.mul Nat.add nth Rsum]; ring).
  assert (T00 : rotmat t 0 0 = cos pitch * cos yaw) by (rewrite <- EQ by lia; unfold rmul, Rx, Ry, Rz; cbn [Nat.mul Nat.add nth Rsum]; ring).
  assert (B20 : -1 < rotmat p 2 0 < 1).
  { pose proof (EN 2%nat 1%nat ltac:(lia) ltac:(lia)) as H1. pose proof (EN 2%nat 2%nat ltac:(lia) ltac:(lia)) as H2. rewrite T21 in H1. rewrite T22 in H2.
    assert (0 < rotmat p 2 1 * rotmat p 2 1 + rotmat p 2 2 * rotmat p 2 2); [|nra].
    pose proof (sin2_cos2 roll) as SC. unfold Rsqr in SC. set (S := sin roll) in *. set (C := cos roll) in *. set (c := cos pitch) in *.
    apply Rnot_le_lt. intros L. assert (Z1 : rotmat p 2 1 = 0) by nra. assert (Z2 : rotmat p 2 2 = 0) by nra. rewrite Z1 in H1. rewrite Z2 in H2.
    apply Rabs_le_inv in H1. apply Rabs_le_inv in H2. assert (e1 <= c / 8) by lra.
    assert (Q1 : c * S * (c * S) <= e1 * e1) by nra. assert (Q2 : c * C * (c * C) <= e1 * e1) by nra.
    assert (c * c * (S * S + C * C) <= 2 * (e1 * e1)) by lra. rewrite SC in *. nra. }
  assert (HP : -1 < 2 * (Qw p * Qy p - Qz p * Qx p) < 1).
  { replace (2 * (Qw p * Qy p - Qz p * Qx p)) with (- rotmat p 2 0); [lra|]. unfold rotmat, qrot, basis, rid. cbn. ring. }
  destruct (l_euler (rvec [Qw p; Qx p; Qy p; Qz p]) p) as (roll' & pitch' & yaw' & _ & Hp' & EQ'); [|exact Up|exact HP|].
  { destruct p as [pw px py pz]. apply rquat_is. }
  assert (P21 : rotmat p 2 1 = cos pitch' * sin roll') by (rewrite <- EQ' by lia; unfold rmul, Rx, Ry, Rz; cbn [Nat.mul Nat.add nth Rsum]; ring).
  assert (P22 : rotmat p 2 2 = cos pitch' * cos roll') by (rewrite <- EQ' by lia; unfold rmul, Rx, Ry, Rz; cbn [Nat.mul Nat.add nth Rsum]; ring).
  assert (P20 : rotmat p 2 0 = - sin pitch') by (rewrite <- EQ' by lia; unfold rmul, Rx, Ry, Rz; cbn [Nat.mul Nat.add nth Rsum]; ring).
  assert (P10 : rotmat p 1 0 = cos pitch' * sin yaw') by (rewrite <- EQ' by lia; unfold rmul, Rx, Ry, Rz; cbn [Nat.mul Nat.add nth Rsum]; ring).
  assert (P00 : rotmat p 0 0 = cos pitch' * cos yaw') by (rewrite <- EQ' by lia; unfold rmul, Rx, Ry, Rz; cbn [Nat.mul Nat.add nth Rsum]; ring).
  assert (CP' : 0 < cos pitch') by (apply cos_gt_0; lra).
  destruct (polar2 (cos pitch') (cos pitch) e1 roll' roll E0 E8 ltac:(lra) ltac:(lra)) as [RC AR].
  { rewrite <- P22, <- T22. apply EN; lia. } { rewrite <- P21, <- T21. apply EN; lia. }
  destruct (polar2 (cos pitch') (cos pitch) e1 yaw' yaw E0 E8 ltac:(lra) ltac:(lra)) as [_ AY].
  { rewrite <- P00, <- T00. apply EN; lia. } { rewrite <- P10, <- T10. apply EN; lia. }
  assert (AP : Rabs (sin ((pitch' - pitch) / 2)) <= e1 / cos pitch).
  { pose proof (asin_close (sin pitch') pitch e1 Ht E0) as A. rewrite asin_sin in A by lra. apply A; [apply Rabs_le, SIN_bound|].
    pose proof (EN 2%nat 0%nat ltac:(lia) ltac:(lia)) as H. rewrite P20, T20 in H. rewrite <- Rabs_Ropp in H. eapply Rle_trans; [|exact H]. right. f_equal. ring. }
  destruct (l_euler32 lm v q (/ 1000000) d roll' pitch' yaw' Hv HN ltac:(lra) HL Hp' EQ' ltac:(nra)) as (a & b & c & EV & Fa & Fb & Fc & Ha & Hb & Hc).
  exists a, b, c. split; [exact EV|]. unfold angles_within. do 3 (split; [assumption|]).
  assert (CMP : (5 * / 1000000 + / 1000000) / cos pitch' <= 8 / 1000000 / cos pitch).
  { apply Rmult_le_reg_r with (cos pitch' * cos pitch); [nra|]. 
    replace ((5 * / 1000000 + / 1000000) / cos pitch' * (cos pitch' * cos pitch)) with ((5 * / 1000000 + / 1000000) * cos pitch) by (field; lra).
    replace (8 / 1000000 / cos pitch * (cos pitch' * cos pitch)) with (8 / 1000000 * cos pitch') by (field; lra). lra. }
  assert (SPL : (e1 + 8 / 1000000) / cos pitch = e1 / cos pitch + 8 / 1000000 / cos pitch) by (field; lra). rewrite SPL.
  split; [|split]; (eapply Rle_trans; [eapply sin_half_tri|]).
  - apply Rle_trans with (1 := Rplus_le_compat _ _ _ _ Ha AR). lra.
  - apply Rle_trans with (1 := Rplus_le_compat _ _ _ _ Hb AP). lra.
  - apply Rle_trans with (1 := Rplus_le_compat _ _ _ _ Hc AY). lra.
Qed.

(*@ C89_angles *)
(** C89: take an attitude of norm 1 within 1e-6 whose tilt and heading errors relative to a true attitude t add up to at
    most s, and a libm whose asin and atan2 are off by at most d.  If t has the Euler angles roll, pitch and yaw, away from
    the vertical (cos pitch at least 0.01 and at least 20 s), [convert_to_euler] returns three finite angles, and the sine of
    half of each error is at most (2.01 s + 8e-6) / cos pitch + d / 2 *)
Lemma l_angles :
  forall (lm : Libm) (v : Vec (T (Arith := F32 lm))) (q t : quat) (s d roll pitch yaw : R),
  quat_f v q -> Rabs (qnorm q - 1) <= / 1000000 -> unitq t -> tilt_error q t + heading_error q t <= s -> libm_angles lm d ->
  euler_of t roll pitch yaw -> / 100 <= cos pitch -> 20 * s <= cos pitch ->
  exists a b c, q_convert_to_euler v = Ok (a, b, c) /\ angles_within a b c roll pitch yaw ((201 / 100 * s + 8 / 1000000) / cos pitch + d / 2).
Proof.
  intros lm v q t s d roll pitch yaw Hv HN Ut Hs HL HE C1 C2.
  assert (N0 : 0 < qnorm q) by (apply Rabs_le_inv in HN; lra). assert (CB : cos pitch <= 1) by apply COS_bound.
  assert (S0 : 0 <= s). { eapply Rle_trans; [|exact Hs]. apply Rplus_le_le_0_compat; [apply sqrt_pos|]. unfold heading_error, Rdiv. cbv zeta.
    set (k := sqrt _). assert (K : 0 <= k) by apply sqrt_pos. apply Rmult_le_pos; [apply Rabs_pos|]. destruct (Rle_lt_or_eq_dec 0 k K) as [K1 | <-]; [left; apply Rinv_0_lt_compat, K1|rewrite Rinv_0; lra]. }
  apply (angles_of lm v q t (201 / 100 * s)); auto; [lra| |lra]. apply elements_near; auto; lra.
Qed.

(*@ C89_raw *)
(** C89: so an update in mode AM from raw readings (the situation of C79) leaves an attitude whose Euler angles, as
    returned by [convert_to_euler], are those of the true attitude with the error given by the noise of the readings *)
Lemma l_raw_angles :
  forall (lm : Libm) (s : Aqua (A := F32 lm)) (ca cm : Config (A := F32 lm)) (gx gy gz : option (T (Arith := F32 lm)))
    (ax ay az mx my mz : T (Arith := F32 lm)) (t : quat) (h v eta mu Ka Km d roll pitch yaw : R),
  aq_hist s Live -> aq_mode s = AM -> aq_get_accelerometer_config s = Ok ca -> aq_get_magnetometer_config s = Ok cm ->
  let a := calibrated Acc ca (raw3 ax ay az) in let m := calibrated Mag cm (raw3 mx my mz) in
  ordinary Acc ca (raw3 ax ay az) -> ordinary Mag cm (raw3 mx my mz) ->
  mixing Acc ca (raw3 ax ay az) Ka -> mixing Mag cm (raw3 mx my mz) Km -> 1 <= Ka <= 10000 -> 1 <= Km <= 10000 ->
  3 * eps <= rnorm 3 a <= bpow radix2 59 -> 3 * eps <= rnorm 3 m <= bpow radix2 59 ->
  unitq t -> 2 / 1000 <= h -> h * h + v * v = 1 ->
  vdist 3 (fun i => a i / rnorm 3 a) (qrot t (triple 0 0 (-1))) <= eta ->
  vdist 3 (fun i => m i / rnorm 3 m) (qrot t (triple h 0 v)) <= mu ->
  let rho := (mu + 13 / 10000000 * Km) + 102 / 100 * (eta + 13 / 10000000 * Ka) + 14 / 100000 in rho <= 1 / 3 * h ->
  libm_angles lm d -> euler_of t roll pitch yaw ->
  let e := (eta + 13 / 10000000 * Ka) / 2 + 15 / 1000000 + 51 / 100 * (rho / h) in / 100 <= cos pitch -> 20 * e <= cos pitch ->
  exists s' w r p y, aq_update gx gy gz ax ay az mx my mz s = (s', Ok tt) /\ aq_get_attitude s' = Ok w /\
    q_convert_to_euler w = Ok (r, p, y) /\ angles_within r p y roll pitch yaw ((201 / 100 * e + 8 / 1000000) / cos pitch + d / 2).
Proof.
  intros lm s ca cm gx gy gz ax ay az mx my mz t h v eta mu Ka Km d roll pitch yaw HH EM Ca Cm a m Oa Om Ma Mm HKa HKm Na Nm Ut Hh Hv Da Dm rho Hrho HL HE e C1 C2.
  destruct (l_raw_am lm s ca cm gx gy gz ax ay az mx my mz t h v eta mu Ka Km HH EM Ca Cm Oa Om Ma Mm HKa HKm Na Nm Ut Hh Hv Da Dm Hrho) as (s' & w & q & EU & EA & Hq & HN & HT & HD).
  fold rho in HD.
  destruct (l_angles lm w q t e d roll pitch yaw Hq ltac:(left; exact HN) Ut ltac:(unfold e; lra) HL HE C1 C2) as (r & p & y & EC & HW).
  exists s', w, r, p, y. auto.
Qed.

(*@ C89_rest *)
(** C89: likewise for mode MARG with fixed gains: after a number of updates at rest that depends only on the gains, the
    horizontal field and the margin d, the Euler angles returned are those of the true attitude, with the error given by
    the remainders of C66 *)
Lemma l_rest_angles :
  forall (ka kb h d : R), 0 < ka <= 1 -> 0 < kb <= 1 -> 0 < h -> 0 < d ->
  exists N, forall (lm : Libm) (s : Aqua (A := F32 lm)) (cg ca cm : Config (A := F32 lm)) (q t : quat) (ts ta tm e eta mu dl roll pitch yaw : R) (z : nat -> nat -> T (Arith := F32 lm)),
  marg32 s cg ca cm q ts ka ta kb tm -> unitq t -> (forall n, resting cg ca cm t h ts e eta mu (z n)) -> quiet ka kb h e eta mu -> near_truth q t h ->
  libm_angles lm dl -> euler_of t roll pitch yaw ->
  let b := tilt_rest ka e eta + heading_rest ka kb h e eta mu + d in / 100 <= cos pitch -> 20 * b <= cos pitch ->
  forall n, (N <= n)%nat -> exists s' w r p y, run_with z n s = Some s' /\ aq_get_attitude s' = Ok w /\
    q_convert_to_euler w = Ok (r, p, y) /\ angles_within r p y roll pitch yaw ((201 / 100 * b + 8 / 1000000) / cos pitch + dl / 2).
Proof.
  intros ka kb h d Hka Hkb Hh Hd. destruct (l_rest_settles ka kb h (d / 2) Hka Hkb Hh ltac:(lra)) as (N & HNN). exists N.
  intros lm s cg ca cm q t ts ta tm e eta mu dl roll pitch yaw z HM Ut HR HQ HT HL HE b C1 C2 n Hn.
  destruct (HNN lm s cg ca cm q t ts ta tm e eta mu z HM Ut HR HQ HT n Hn) as (s' & w & q' & ER & EA & Hq & Hno & H1 & H2).
  destruct (l_angles lm w q' t b dl roll pitch yaw Hq ltac:(left; exact Hno) Ut ltac:(unfold b; lra) HL HE C1 C2) as (r & p & y & EC & HW).
  exists s', w, r, p, y. auto.
Qed.

Lemma turn_unit0 w t : qnorm2 (turn w t) = 1.
Proof.
  destruct (Req_dec (rnorm 3 w) 0) as [Z|Z]; [|apply turn_unit, Z]. unfold turn. replace (sqrt _) with 0 by (rewrite <- Z; unfold rnorm, rdot; cbn [Rsum]; f_equal; ring). unfold qnorm2. cbn [Qw Qx Qy Qz]. replace (0 * t / 2) with 0 by field. rewrite cos_0, sin_0. ring.
Qed.
Lemma turns_unit t l : forall p, unitq p -> unitq (turns t p l).
Proof.
  induction l as [|w l IH]; intros p U; [exact U|]. cbn [turns fold_left]. apply IH. unfold unitq in *. rewrite qnorm2_mul, U, turn_unit0. ring.
Qed.

(*@ C89_rates *)
(** C89: likewise for the angular-rate filter in closed form (the situation of C83), fed with any number of raw samples:
    the Euler angles returned are those of the body turned at its true rates, with the error given by the bound of C83 *)
Lemma l_rate_angles :
  forall (lm : Libm) (ck : bool) (s : AR (A := F32 lm)) (c : Config (A := F32 lm)) (l : list (sample lm)) (q p : quat) (d B M dl roll pitch yaw : R),
  ar_hist ck s Live -> ar_method s = ClosedForm -> is_finite (ar_ts s : f32) = true -> let t := B2R (ar_ts s : f32) in
  sensor_get_config Gyr (M_Ar.ar_gyr s) = Ok c -> quat_f (ar_attitude s) q -> Rabs (qnorm q - 1) < / 1000000 -> unitq p ->
  libm_accurate lm d B -> 0 <= d <= / 100 -> 1 <= B <= 1000 -> 0 <= M ->
  Forall (fun z => bounded c M z /\ rnorm 3 (true_rate z) + rate_error c M z <= bpow radix2 60 /\ (rnorm 3 (true_rate z) + rate_error c M z) * Rabs t <= B) l ->
  libm_angles lm dl -> euler_of (turns t p (map true_rate l)) roll pitch yaw ->
  let e := qdist q p + sum_map (fun z => (7 + 2 * (rnorm 3 (true_rate z) * Rabs t)) / 1000000 + 5 * d + eps * Rabs t + 501 / 1000 * (rate_error c M z * Rabs t)) l in
  / 100 <= cos pitch -> 17 * e <= cos pitch ->
  exists s' r y z, ar_feed ck l s = (s', Ok tt) /\
    q_convert_to_euler (ar_attitude s') = Ok (r, y, z) /\ angles_within r y z roll pitch yaw ((2 * e + 1 / 100000) / cos pitch + dl / 2).
Proof.
  intros lm ck s c l q p d B M dl roll pitch yaw HH EM Ft t EG Hq HN Up HL Hd HB HM HF HA HE e C1 C2.
  destruct (l_feed lm ck s c l q p d B M HH EM Ft EG Hq HN HL Hd HB HM HF) as (s' & r & EF & Hr & Nr & D). fold t e in D.
  set (T := turns t p (map true_rate l)) in *. assert (UT : unitq T) by (apply turns_unit, Up).
  assert (N0 : 0 < qnorm r) by (apply Rabs_def2 in Nr; lra). pose proof (qunit_unit r N0) as Ur.
  assert (DU : qdist (qunit r) T <= e + / 1000000).
  { eapply Rle_trans; [apply (qdist_tri _ r)|]. rewrite qdist_sym, qunit_dist by exact N0. lra. }
  assert (D0 : 0 <= qdist (qunit r) T) by apply sqrt_pos.
  destruct (angles_of lm (ar_attitude s') r T (2 * e + 2 / 1000000) dl roll pitch yaw Hr ltac:(left; exact Nr) ltac:(lra)) as (a & b & k & EC & HW); [|exact HA|exact HE|exact C1|lra|].
  - intros i j Hi Hj. unfold rotmat. eapply Rle_trans; [apply (vdist_comp (qrot (qunit r) (basis j)) (qrot T (basis j)) i Hi)|]. eapply Rle_trans; [apply (qrot_close _ _ (basis j) Ur UT)|].
    rewrite basis_1 by exact Hj. lra.
  - exists s', a, b, k. split; [exact EF|]. split; [exact EC|]. replace (2 * e + 1 / 100000) with (2 * e + 2 / 1000000 + 8 / 1000000) by lra. exact HW.
Qed.

Lemma euler_exists t : unitq t -> -1 < 2 * (Qw t * Qy t - Qz t * Qx t) < 1 ->
  exists roll pitch yaw, euler_of t roll pitch yaw /\ 0 < cos pitch /\ cos pitch * cos pitch = 1 - (2 * (Qw t * Qy t - Qz t * Qx t)) * (2 * (Qw t * Qy t - Qz t * Qx t)).
Proof.
  intros U H. destruct (l_euler (rvec [Qw t; Qx t; Qy t; Qz t]) t) as (roll & pitch & yaw & _ & Hp & EQ); [destruct t; apply rquat_is|exact U|exact H|].
  exists roll, pitch, yaw. split; [split; assumption|]. split; [apply cos_gt_0; lra|].
  assert (P20 : - sin pitch = rotmat t 2 0) by (rewrite <- EQ by lia; unfold rmul, Rx, Ry, Rz; cbn [Nat.mul Nat.add nth Rsum]; ring).
  assert (E : sin pitch = 2 * (Qw t * Qy t - Qz t * Qx t)) by (rewrite <- (Ropp_involutive (sin pitch)), P20; unfold rotmat, qrot, basis, rid; cbn; ring).
  rewrite <- E. pose proof (sin2_cos2 pitch) as S. unfold Rsqr in S. lra.
Qed.
Lemma angles_ex :
  exists (v : Vec (T (Arith := F32 angle_libm))), let t := Quat (cos (/ 100)) 0 0 (sin (/ 100)) in
  quat_f v qone /\ Rabs (qnorm qone - 1) <= / 1000000 /\ unitq t /\ tilt_error qone t + heading_error qone t <= / 100 /\
  libm_angles angle_libm (5 / 10000000) /\ euler_of t 0 0 (2 / 100) /\ / 100 <= cos 0 /\ 20 * / 100 <= cos 0.
Proof.
  destruct (rest_ex_h angle_libm) as (s & ts & ka & ta & kb & tm & M & _). destruct (m32_att _ _ _ _ _ _ _ _ _ _ M) as (v & _ & Hv).
  exists v. cbv zeta. split; [exact Hv|]. pose proof (sin2_cos2 (/ 100)) as SC. unfold Rsqr in SC. pose proof PI_RGT_0 as P0.
  assert (N1 : qnorm qone = 1) by (unfold qnorm, qnorm2; cbn; replace (1 * 1 + 0 * 0 + 0 * 0 + 0 * 0) with 1 by ring; apply sqrt_1).
  assert (UT : unitq (Quat (cos (/ 100)) 0 0 (sin (/ 100)))) by (unfold unitq, qnorm2; cbn; lra).
  split; [rewrite N1, Rminus_diag_eq, Rabs_R0 by reflexivity; lra|]. split; [exact UT|]. split.
  { assert (EM : missing qone (Quat (cos (/ 100)) 0 0 (sin (/ 100))) = Quat (cos (/ 100)) 0 0 (sin (/ 100))).
    { unfold missing. rewrite qunit_of_unit by (unfold unitq, qnorm2; cbn; ring). apply quat_eta; cbn; ring. }
    unfold tilt_error, heading_error. rewrite EM. cbn [Qw Qx Qy Qz]. replace (0 * 0 + 0 * 0) with 0 by ring.
    replace (cos (/ 100) * cos (/ 100) + sin (/ 100) * sin (/ 100)) with 1 by lra. rewrite sqrt_0, sqrt_1.
    pose proof (Rabs_sin_le (/ 100)) as L. rewrite (Rabs_pos_eq (/ 100)) in L by lra. lra. }
  split; [exact angle_accurate|]. split.
  { split; [lra|]. intros i j Hi Hj. replace (2 / 100) with (2 * / 100) by field. unfold rmul, Rx, Ry, Rz. rewrite cos_0, sin_0, cos_2a, sin_2a.
    destruct i as [|[|[|i]]]; [| | |lia]; (destruct j as [|[|[|j]]]; [| | |lia]); cbn; try ring; lra. }
  rewrite cos_0. lra.
Qed.
Lemma raw_angles_ex : exists (s : Aqua (A := F32 angle_libm)) (ca : Config (A := F32 angle_libm)), aq_hist s Live /\ aq_mode s = AM /\
  aq_get_accelerometer_config s = Ok ca /\ aq_get_magnetometer_config s = Ok default_config /\
  let ra := raw3 (A := F32 angle_libm) (z32 (-9)) (z32 4) (z32 1) in let rm := raw3 (A := F32 angle_libm) (z32 125) (z32 0) (z32 0) in
  let a := calibrated Acc ca ra in let m := calibrated Mag default_config rm in
  ordinary Acc ca ra /\ ordinary Mag default_config rm /\ mixing Acc ca ra 1 /\ mixing Mag default_config rm 1 /\
  3 * eps <= rnorm 3 a <= bpow radix2 59 /\ 3 * eps <= rnorm 3 m <= bpow radix2 59 /\
  let t := Quat (4 / 5) (2 / 5) (2 / 5) (1 / 5) in unitq t /\
  vdist 3 (fun i => a i / rnorm 3 a) (qrot t (triple 0 0 (-1))) <= 1 / 100 /\
  vdist 3 (fun i => m i / rnorm 3 m) (qrot t (triple (3 / 5) 0 (4 / 5))) <= 2 / 100 /\
  let rho := (2 / 100 + 13 / 10000000 * 1) + 102 / 100 * (1 / 100 + 13 / 10000000 * 1) + 14 / 100000 in rho <= 1 / 3 * (3 / 5) /\
  libm_angles angle_libm (5 / 10000000) /\
  exists roll pitch yaw, euler_of t roll pitch yaw /\ / 100 <= cos pitch /\
    20 * ((1 / 100 + 13 / 10000000 * 1) / 2 + 15 / 1000000 + 51 / 100 * (rho / (3 / 5))) <= cos pitch.
Proof.
  destruct (am_raw_ex angle_libm) as (s & ca & H1 & H2 & H3 & H4 & H5). exists s, ca. do 4 (split; [assumption|]). cbv zeta in *.
  destruct H5 as (A1 & A2 & A3 & A4 & A5 & A6 & A7 & A8 & A9 & A10). do 9 (split; [assumption|]). split; [exact A10|]. split; [exact angle_accurate|].
  destruct (euler_exists _ A7) as (roll & pitch & yaw & HE & HC & HS); [cbn [Qw Qx Qy Qz]; lra|]. cbn [Qw Qx Qy Qz] in HS.
  exists roll, pitch, yaw. split; [exact HE|]. assert (L : 8 / 10 <= cos pitch) by nra. split; lra.
Qed.
Lemma rest_angles_ex : exists (s : Aqua (A := F32 angle_libm)) ts ka ta kb tm roll pitch yaw,
  marg32 s default_config default_config default_config qone ts ka ta kb tm /\ unitq ex_t /\
  resting (lm := angle_libm) default_config default_config default_config ex_t (3 / 5) ts 0 0 0 (ex_z angle_libm) /\
  quiet ka kb (3 / 5) 0 0 0 /\ near_truth qone ex_t (3 / 5) /\ 0 < ka <= 1 /\ 0 < kb <= 1 /\
  libm_angles angle_libm (5 / 10000000) /\ euler_of ex_t roll pitch yaw /\ / 100 <= cos pitch /\
  20 * (tilt_rest ka 0 0 + heading_rest ka kb (3 / 5) 0 0 0 + / 100) <= cos pitch.
Proof.
  destruct (rest_ex_h angle_libm) as (s & ts & ka & ta & kb & tm & M & U & HR & HQ & HT & _ & HK & HB).
  destruct (euler_exists _ U) as (roll & pitch & yaw & HE & HC & HS); [unfold ex_t; cbn [Qw Qx Qy Qz]; lra|]. unfold ex_t in HS. cbn [Qw Qx Qy Qz] in HS.
  assert (C1 : cos pitch = 1) by nra. pose proof (m32_kb _ _ _ _ _ _ _ _ _ _ M) as KB.
  exists s, ts, ka, ta, kb, tm, roll, pitch, yaw. do 5 (split; [assumption|]). split; [lra|]. split; [lra|]. split; [exact angle_accurate|]. split; [exact HE|].
  rewrite C1. split; [lra|].
  assert (T1 : tilt_rest ka 0 0 <= 506 / 100000).
  { unfold tilt_rest, tilt_drift. apply Rmult_le_reg_r with (4 / 5 * ka); [lra|]. unfold Rdiv. rewrite Rmult_assoc, Rinv_l by lra. lra. }
  assert (T2 : heading_rest ka kb (3 / 5) 0 0 0 <= 3 / 100).
  { unfold heading_rest, heading_drift. set (T := tilt_rest ka 0 0) in *.
    apply Rmult_le_reg_r with (4 / 5 * kb); [lra|]. unfold Rdiv at 1. rewrite Rmult_assoc, Rinv_l by lra.
    assert ((204 / 100 * T + 0 + 7 / 100000) / (3 / 5) <= 18 / 1000) by lra.
    assert (kb * ((204 / 100 * T + 0 + 7 / 100000) / (3 / 5)) <= kb * (18 / 1000)) by (apply Rmult_le_compat_l; lra). lra. }
  lra.
Qed.

(*@ example *)
(** an attitude that is the identity while the true one is turned by 0.02 rad about the vertical *)
Example C89_example_angles :
  exists (v : Vec (T (Arith := F32 angle_libm))), let t := Quat (cos (/ 100)) 0 0 (sin (/ 100)) in
  quat_f v qone /\ Rabs (qnorm qone - 1) <= / 1000000 /\ unitq t /\ tilt_error qone t + heading_error qone t <= / 100 /\
  libm_angles angle_libm (5 / 10000000) /\ euler_of t 0 0 (2 / 100) /\ / 100 <= cos 0 /\ 20 * / 100 <= cos 0.
Proof. exact angles_ex. Qed.

(*@ example *)
(** the raw readings of C79's example, with an error of about a degree, satisfy the hypotheses of [C89_raw] *)
Example C89_example_raw : exists (s : Aqua (A := F32 angle_libm)) (ca : Config (A := F32 angle_libm)), aq_hist s Live /\ aq_mode s = AM /\
  aq_get_accelerometer_config s = Ok ca /\ aq_get_magnetometer_config s = Ok default_config /\
  let ra := raw3 (A := F32 angle_libm) (z32 (-9)) (z32 4) (z32 1) in let rm := raw3 (A := F32 angle_libm) (z32 125) (z32 0) (z32 0) in
  let a := calibrated Acc ca ra in let m := calibrated Mag default_config rm in
  ordinary Acc ca ra /\ ordinary Mag default_config rm /\ mixing Acc ca ra 1 /\ mixing Mag default_config rm 1 /\
  3 * eps <= rnorm 3 a <= bpow radix2 59 /\ 3 * eps <= rnorm 3 m <= bpow radix2 59 /\
  let t := Quat (4 / 5) (2 / 5) (2 / 5) (1 / 5) in unitq t /\
  vdist 3 (fun i => a i / rnorm 3 a) (qrot t (triple 0 0 (-1))) <= 1 / 100 /\
  vdist 3 (fun i => m i / rnorm 3 m) (qrot t (triple (3 / 5) 0 (4 / 5))) <= 2 / 100 /\
  let rho := (2 / 100 + 13 / 10000000 * 1) + 102 / 100 * (1 / 100 + 13 / 10000000 * 1) + 14 / 100000 in rho <= 1 / 3 * (3 / 5) /\
  libm_angles angle_libm (5 / 10000000) /\
  exists roll pitch yaw, euler_of t roll pitch yaw /\ / 100 <= cos pitch /\
    20 * ((1 / 100 + 13 / 10000000 * 1) / 2 + 15 / 1000000 + 51 / 100 * (rho / (3 / 5))) <= cos pitch.
Proof. exact raw_angles_ex. Qed.

(*@ example *)
(** the filter of C66's example, 25 degrees off at first, satisfies the hypotheses of [C89_rest] *)
Example C89_example_rest : exists (s : Aqua (A := F32 angle_libm)) ts ka ta kb tm roll pitch yaw,
  marg32 s default_config default_config default_config qone ts ka ta kb tm /\ unitq ex_t /\
  resting (lm := angle_libm) default_config default_config default_config ex_t (3 / 5) ts 0 0 0 (ex_z angle_libm) /\
  quiet ka kb (3 / 5) 0 0 0 /\ near_truth qone ex_t (3 / 5) /\ 0 < ka <= 1 /\ 0 < kb <= 1 /\
  libm_angles angle_libm (5 / 10000000) /\ euler_of ex_t roll pitch yaw /\ / 100 <= cos pitch /\
  20 * (tilt_rest ka 0 0 + heading_rest ka kb (3 / 5) 0 0 0 + / 100) <= cos pitch.
Proof. exact rest_angles_ex. Qed.

(** all six functions accurate *)
Definition good_libm : Libm :=
  mkLibm (fun x => near (sin (B2R x))) (fun x => near (cos (B2R x))) (fun x => near (asin (B2R x))) (fun x => x)
    (fun y x => near (Ratan2 (B2R y) (B2R x))) (fun x _ => x) (fun x => x).
Lemma good_accurate : libm_accurate good_libm (2 / 10000000) 1000. Proof. exact (near_accurate 1000). Qed.
Lemma good_angles : libm_angles good_libm (5 / 10000000). Proof. exact angle_accurate. Qed.
Lemma rate_angles_ex :
  forall ck : bool, exists (s : AR (A := F32 good_libm)) (c : Config (A := F32 good_libm)),
  ar_hist ck s Live /\ ar_method s = ClosedForm /\ is_finite (ar_ts s : f32) = true /\ B2R (ar_ts s : f32) = 1 /\
  sensor_get_config Gyr (M_Ar.ar_gyr s) = Ok c /\ quat_f (ar_attitude s) qone /\ Rabs (qnorm qone - 1) < / 1000000 /\
  libm_accurate good_libm (2 / 10000000) 1000 /\ libm_angles good_libm (5 / 10000000) /\
  let z := Sample (lm := good_libm) (z32 1) (z32 0) (z32 1) (triple 0 0 (101 / 100)) in
  bounded c 4 z /\ rnorm 3 (true_rate z) + rate_error c 4 z <= bpow radix2 60 /\ (rnorm 3 (true_rate z) + rate_error c 4 z) * Rabs 1 <= 1000 /\
  euler_of (turns 1 qone [true_rate z]) 0 0 (101 / 100) /\ / 100 <= cos 0 /\
  17 * (qdist qone qone + ((7 + 2 * (rnorm 3 (true_rate z) * Rabs 1)) / 1000000 + 5 * (2 / 10000000) + eps * Rabs 1 + 501 / 1000 * (rate_error c 4 z * Rabs 1))) <= cos 0.
Proof.
  intros ck. destruct (ex_config good_libm) as (c & Hc & Ef & HO). destruct (live_filter good_libm ck c ClosedForm 1%nat Hc) as (s & H & M & _ & ET & GC & HQ). exists s, c.
  assert (T1 : is_finite (ar_ts s : f32) = true /\ B2R (ar_ts s : f32) = 1). { rewrite ET. apply z32_R. lia. }
  split; [exact H|]. split; [exact M|]. split; [apply T1|]. split; [apply T1|]. split; [exact GC|].
  split; [exact HQ|]. split. { unfold qnorm, qnorm2. cbn [qone Qw Qx Qy Qz]. replace (1 * 1 + 0 * 0 + 0 * 0 + 0 * 0) with 1 by ring. rewrite sqrt_1, Rminus_diag_eq, Rabs_R0 by reflexivity. lra. }
  split; [exact good_accurate|]. split; [exact good_angles|]. clear s H M ET GC HQ T1 Ef Hc. cbv zeta. set (z := Sample _ _ _ _).
  assert (B60 : 8 <= bpow radix2 60) by (change 8 with (bpow radix2 3); apply bpow_le; lia). rewrite Rabs_R1.
  assert (P24 : (4 <= 2 ^ 24)%Z) by (vm_compute; discriminate). assert (T19 : / 10 ^ 19 <= / 1000000) by (simpl; lra).
  destruct (HO 1%Z 0%Z 1%Z ltac:(lia) ltac:(lia) ltac:(lia)) as [O C].
  assert (NW : rnorm 3 (true_rate z) = 101 / 100) by (rewrite rnorm3; unfold z; cbn [true_rate triple]; transitivity (sqrt (101 / 100 * (101 / 100))); [f_equal; ring|apply sqrt_square; lra]).
  assert (RE : rate_error c 4 z <= 1001 / 100000).
  { unfold rate_error. assert (V : vdist 3 (calibrated Gyr c (raws z)) (true_rate z) <= 1 / 100); [|lra].
    eapply Rle_trans; [right; apply (vdist_readings _ (triple 0 0 1))|].
    - intros i Hi. unfold calibrated, raws, z. cbn [raw_x raw_y raw_z]. rewrite !C by lia. rewrite <- !plus_IZR.
      destruct i as [|[|[|]]]; [| | |lia]; reflexivity.
    - unfold vdist, rnorm, rdot, z. cbn [Rsum triple true_rate]. rewrite <- (sqrt_square (1 / 100)) by lra. apply sqrt_le_1_alt. lra. }
  split. { split; [exact O|]. intros b Hb. unfold raws, z. cbn [raw_x raw_y raw_z]. rewrite !C by lia. rewrite <- !abs_IZR, <- !plus_IZR. apply IZR_le.
    destruct b as [|[|[|]]]; [| | |lia]; cbn [rawC rawB zraw]; lia. }
  split; [lra|]. split; [lra|]. pose proof PI_RGT_0 as P0. split.
  { split; [lra|]. unfold turns. cbn [fold_left]. intros i j Hi Hj. unfold turn, z. cbn [true_rate triple].
    replace (sqrt _) with (101 / 100) by (transitivity (sqrt (101 / 100 * (101 / 100))); [symmetry; apply sqrt_square; lra|f_equal; ring]).
    assert (E2 : cos (101 / 100) = cos (101 / 100 * 1 / 2) * cos (101 / 100 * 1 / 2) - sin (101 / 100 * 1 / 2) * sin (101 / 100 * 1 / 2)) by (rewrite <- cos_2a; f_equal; field).
    assert (E3 : sin (101 / 100) = 2 * sin (101 / 100 * 1 / 2) * cos (101 / 100 * 1 / 2)) by (rewrite <- sin_2a; f_equal; field).
    pose proof (sin2_cos2 (101 / 100 * 1 / 2)) as SC. unfold Rsqr in SC.
    unfold rmul, Rx, Ry, Rz. rewrite cos_0, sin_0, E2, E3. set (C0 := cos (101 / 100 * 1 / 2)) in *. set (S0 := sin (101 / 100 * 1 / 2)) in *.
    replace (0 / (101 / 100)) with 0 by (field; lra). replace (101 / 100 / (101 / 100)) with 1 by (field; lra).
    destruct i as [|[|[|i]]]; [| | |lia]; (destruct j as [|[|[|j]]]; [| | |lia]); cbn; try ring; lra. }
  rewrite cos_0. split; [lra|]. rewrite NW. replace (qdist qone qone) with 0; [unfold eps; lra|].
  transitivity (sqrt 0); [symmetry; apply sqrt_0|]. unfold qdist, qnorm, qnorm2. f_equal. cbn. ring.
Qed.

(*@ example *)
(** one raw sample, one percent off, of a body turning about its vertical axis *)
Example C89_example_rates :
  forall ck : bool, exists (s : AR (A := F32 good_libm)) (c : Config (A := F32 good_libm)),
  ar_hist ck s Live /\ ar_method s = ClosedForm /\ is_finite (ar_ts s : f32) = true /\ B2R (ar_ts s : f32) = 1 /\
  sensor_get_config Gyr (M_Ar.ar_gyr s) = Ok c /\ quat_f (ar_attitude s) qone /\ Rabs (qnorm qone - 1) < / 1000000 /\
  libm_accurate good_libm (2 / 10000000) 1000 /\ libm_angles good_libm (5 / 10000000) /\
  let z := Sample (lm := good_libm) (z32 1) (z32 0) (z32 1) (triple 0 0 (101 / 100)) in
  bounded c 4 z /\ rnorm 3 (true_rate z) + rate_error c 4 z <= bpow radix2 60 /\ (rnorm 3 (true_rate z) + rate_error c 4 z) * Rabs 1 <= 1000 /\
  euler_of (turns 1 qone [true_rate z]) 0 0 (101 / 100) /\ / 100 <= cos 0 /\
  17 * (qdist qone qone + ((7 + 2 * (rnorm 3 (true_rate z) * Rabs 1)) / 1000000 + 5 * (2 / 10000000) + eps * Rabs 1 + 501 / 1000 * (rate_error c 4 z * Rabs 1))) <= cos 0.
Proof. exact rate_angles_ex. Qed.
