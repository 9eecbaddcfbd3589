(** C87: from raw gyrometer samples to Euler angles, on the Taylor series of order 1, in f32. *)
(*@+*)
From Coq Require Import List Arith ZArith NArith Reals Lia Bool Lra SpecFloat.
From Flocq Require Import Core BinarySingleNaN.
From Verif Require Import M_Base M_Arith M_Utils M_Vector M_Matrix M_Quaternion M_Sensors M_Ar M_Aqua M_F32 M_RX
  S_Spec S_Linalg S_Norm S_Quat S_Sensors S_Ar S_Aqua S_F32 S_Reading S_Rest S_Raw S_Euler32 S_Angles S_Track S_First S_RawGyr P_Inst P_InstF P_Rest32 P_Euler32 P_Angles.
Import ListNotations.
Local Open Scope R_scope.
(*@-*)
From Coq Require Import Psatz.
From Verif Require Import P_Float P_Norm P_FErr P_Norm32 P_Quat P_Rot P_Sensors P_FAcc P_F32Mul P_F32Rot P_AmGeo P_RestGeo P_Calib32 P_Raw P_F32Ar P_RawGyr P_ArFirst P_Qr32 P_AquaR P_AquaM P_F32App P_F32Am P_Am32 P_MargRun P_RestF P_AmTrue P_Euler P_ArR P_InstQ P_RawGyr1.

(*@ C87_angles *)
(** C87: hence the Euler angles of the body turned at its true rates come out with an error bounded by that of the attitude *)
Lemma l_taylor_angles :
  forall (lm : Libm) (ck : bool) (s : AR (A := F32 lm)) (c : Config (A := F32 lm)) (l : list (sample lm)) (q p : quat) (d M dl roll pitch yaw : R),
  ar_hist ck s Live -> ar_method s = TaylorSeries -> ar_order s = 1%nat -> is_finite (ar_ts s : f32) = true -> let t := B2R (ar_ts s : f32) in
  sensor_get_config Gyr (M_Ar.ar_gyr s) = Ok c -> quat_f (ar_attitude s) q -> Rabs (qnorm q - 1) < / 1000000 -> unitq p ->
  pow_one lm d -> 0 <= d <= / 1000 -> 0 <= M ->
  Forall (fun z => bounded c M z /\ rnorm 3 (true_rate z) + rate_error c M z <= bpow radix2 60 /\ (rnorm 3 (true_rate z) + rate_error c M z) * Rabs t <= 1000) l ->
  libm_angles lm dl -> euler_of (turns t p (map true_rate l)) roll pitch yaw ->
  let e := qdist q p + sum_map (fun z => let X := (rnorm 3 (true_rate z) + rate_error c M z) * Rabs t in X * X * X / 23 + 6 / 1000000 + 5 * d + eps * Rabs t + 501 / 1000 * (rate_error c M z * Rabs t)) l in
  / 100 <= cos pitch -> 17 * e <= cos pitch ->
  exists s' r y z, ar_feed ck l s = (s', Ok tt) /\
    q_convert_to_euler (ar_attitude s') = Ok (r, y, z) /\ angles_within r y z roll pitch yaw ((2 * e + 1 / 100000) / cos pitch + dl / 2).
Proof.
  intros lm ck s c l q p d M dl roll pitch yaw HH EM EO Ft t EG Hq HN Up HL Hd HM HF HA HE e C1 C2.
  destruct (l_feed_taylor lm ck s c l q p d M HH EM EO Ft EG Hq HN HL Hd HM HF) as (s' & r & EF & Hr & Nr & D). fold t e in D.
  set (T := turns t p (map true_rate l)) in *. assert (UT : unitq T) by (apply turns_unit, Up).
  assert (N0 : 0 < qnorm r) by (apply Rabs_def2 in Nr; lra). pose proof (qunit_unit r N0) as Ur.
  assert (DU : qdist (qunit r) T <= e + / 1000000).
  { eapply Rle_trans; [apply (qdist_tri _ r)|]. rewrite qdist_sym, qunit_dist by exact N0. lra. }
  assert (D0 : 0 <= qdist (qunit r) T) by apply sqrt_pos.
  destruct (angles_of lm (ar_attitude s') r T (2 * e + 2 / 1000000) dl roll pitch yaw Hr ltac:(left; exact Nr) ltac:(lra)) as (a & b & k & EC & HW); [|exact HA|exact HE|exact C1|lra|].
  - intros i j Hi Hj. unfold rotmat. eapply Rle_trans; [apply (vdist_comp (qrot (qunit r) (basis j)) (qrot T (basis j)) i Hi)|]. eapply Rle_trans; [apply (qrot_close _ _ (basis j) Ur UT)|].
    rewrite basis_1 by exact Hj. lra.
  - exists s', a, b, k. split; [exact EF|]. split; [exact EC|]. replace (2 * e + 1 / 100000) with (2 * e + 2 / 1000000 + 8 / 1000000) by lra. exact HW.
Qed.

Lemma good_pow : pow_one good_libm 0.
Proof. intros x F. split; [exact F|]. cbn [good_libm lm_pow]. rewrite Rminus_diag_eq, Rabs_R0 by reflexivity. lra. Qed.
Lemma taylor_angles_ex :
  forall ck : bool, exists (s : AR (A := F32 good_libm)) (c : Config (A := F32 good_libm)),
  ar_hist ck s Live /\ ar_method s = TaylorSeries /\ ar_order s = 1%nat /\ is_finite (ar_ts s : f32) = true /\ B2R (ar_ts s : f32) = 1 /\
  sensor_get_config Gyr (M_Ar.ar_gyr s) = Ok c /\ quat_f (ar_attitude s) qone /\ Rabs (qnorm qone - 1) < / 1000000 /\
  pow_one good_libm 0 /\ libm_angles good_libm (5 / 10000000) /\
  let z := Sample (lm := good_libm) (z32 1) (z32 0) (z32 1) (triple 0 0 (101 / 100)) in
  bounded c 4 z /\ rnorm 3 (true_rate z) + rate_error c 4 z <= bpow radix2 60 /\ (rnorm 3 (true_rate z) + rate_error c 4 z) * Rabs 1 <= 1000 /\
  euler_of (turns 1 qone [true_rate z]) 0 0 (101 / 100) /\ / 100 <= cos 0 /\
  let X := (rnorm 3 (true_rate z) + rate_error c 4 z) * Rabs 1 in
  17 * (qdist qone qone + (X * X * X / 23 + 6 / 1000000 + 5 * 0 + eps * Rabs 1 + 501 / 1000 * (rate_error c 4 z * Rabs 1))) <= cos 0.
Proof.
  intros ck. destruct (ex_config good_libm) as (c & Hc & Ef & HO). destruct (live_filter good_libm ck c TaylorSeries 1%nat Hc) as (s & H & M & O1 & ET & GC & HQ). exists s, c.
  assert (T1 : is_finite (ar_ts s : f32) = true /\ B2R (ar_ts s : f32) = 1). { rewrite ET. apply z32_R. lia. }
  split; [exact H|]. split; [exact M|]. split; [exact O1|]. split; [apply T1|]. split; [apply T1|]. split; [exact GC|].
  split; [exact HQ|]. split. { unfold qnorm, qnorm2. cbn [qone Qw Qx Qy Qz]. replace (1 * 1 + 0 * 0 + 0 * 0 + 0 * 0) with 1 by ring. rewrite sqrt_1, Rminus_diag_eq, Rabs_R0 by reflexivity. lra. }
  split; [exact good_pow|]. split; [exact good_angles|]. clear s H M O1 ET GC HQ T1 Ef Hc. cbv zeta. set (z := Sample _ _ _ _).
  assert (B60 : 8 <= bpow radix2 60) by (change 8 with (bpow radix2 3); apply bpow_le; lia). rewrite Rabs_R1.
  assert (P24 : (4 <= 2 ^ 24)%Z) by (vm_compute; discriminate). assert (T19 : / 10 ^ 19 <= / 1000000) by (simpl; lra).
  destruct (HO 1%Z 0%Z 1%Z ltac:(lia) ltac:(lia) ltac:(lia)) as [O C].
  assert (NW : rnorm 3 (true_rate z) = 101 / 100) by (rewrite rnorm3; unfold z; cbn [true_rate triple]; transitivity (sqrt (101 / 100 * (101 / 100))); [f_equal; ring|apply sqrt_square; lra]).
  assert (RE : rate_error c 4 z <= 1001 / 100000).
  { unfold rate_error. assert (V : vdist 3 (calibrated Gyr c (raws z)) (true_rate z) <= 1 / 100); [|lra].
    eapply Rle_trans; [right; apply (vdist_readings _ (triple 0 0 1))|].
    - intros i Hi. unfold calibrated, raws, z. cbn [raw_x raw_y raw_z]. rewrite !C by lia. rewrite <- !plus_IZR.
      destruct i as [|[|[|]]]; [| | |lia]; reflexivity.
    - unfold vdist, rnorm, rdot, z. cbn [Rsum triple true_rate]. rewrite <- (sqrt_square (1 / 100)) by lra. apply sqrt_le_1_alt. lra. }
  split. { split; [exact O|]. intros b Hb. unfold raws, z. cbn [raw_x raw_y raw_z]. rewrite !C by lia. rewrite <- !abs_IZR, <- !plus_IZR. apply IZR_le.
    destruct b as [|[|[|]]]; [| | |lia]; cbn [rawC rawB zraw]; lia. }
  split; [lra|]. split; [lra|]. pose proof PI_RGT_0 as P0. split.
  { split; [lra|]. unfold turns. cbn [fold_left]. intros i j Hi Hj. unfold turn, z. cbn [true_rate triple].
    replace (sqrt _) with (101 / 100) by (transitivity (sqrt (101 / 100 * (101 / 100))); [symmetry; apply sqrt_square; lra|f_equal; ring]).
    assert (E2 : cos (101 / 100) = cos (101 / 100 * 1 / 2) * cos (101 / 100 * 1 / 2) - sin (101 / 100 * 1 / 2) * sin (101 / 100 * 1 / 2)) by (rewrite <- cos_2a; f_equal; field).
    assert (E3 : sin (101 / 100) = 2 * sin (101 / 100 * 1 / 2) * cos (101 / 100 * 1 / 2)) by (rewrite <- sin_2a; f_equal; field).
    pose proof (sin2_cos2 (101 / 100 * 1 / 2)) as SC. unfold Rsqr in SC.
    unfold rmul, Rx, Ry, Rz. rewrite cos_0, sin_0, E2, E3. set (C0 := cos (101 / 100 * 1 / 2)) in *. set (S0 := sin (101 / 100 * 1 / 2)) in *.
    replace (0 / (101 / 100)) with 0 by (field; lra). replace (101 / 100 / (101 / 100)) with 1 by (field; lra).
    destruct i as [|[|[|i]]]; [| | |lia]; (destruct j as [|[|[|j]]]; [| | |lia]); cbn; try ring; lra. }
  rewrite cos_0. split; [lra|]. rewrite NW. replace (qdist qone qone) with 0.
  2:{ transitivity (sqrt 0); [symmetry; apply sqrt_0|]. unfold qdist, qnorm, qnorm2. f_equal. cbn. ring. }
  assert (R0 : 0 <= rate_error c 4 z) by (unfold rate_error; pose proof (rnorm_pos 3 (fun i => calibrated Gyr c (raws z) i - true_rate z i)) as V0; fold (vdist 3 (calibrated Gyr c (raws z)) (true_rate z)) in V0; assert (0 <= / 10 ^ 19) by (left; apply Rinv_0_lt_compat; lra); lra).
  clearbody z. set (r := rate_error c 4 z) in *. clearbody r.
  assert (X1 : 0 <= (101 / 100 + r) * 1 <= 10201 / 10000) by lra. set (X := (101 / 100 + r) * 1) in *. clearbody X.
  assert (X2 : X * X <= 10201 / 10000 * (10201 / 10000)) by (apply Rmult_le_compat; lra).
  assert (X3 : X * X * X <= 10201 / 10000 * (10201 / 10000) * (10201 / 10000)) by (apply Rmult_le_compat; try lra; apply Rle_0_sqr).
  unfold eps. lra.
Qed.
(*@ example *)
(** the sample of C89_example_rates, for a filter on the Taylor series of order 1 *)
Example C87_example_angles :
  forall ck : bool, exists (s : AR (A := F32 good_libm)) (c : Config (A := F32 good_libm)),
  ar_hist ck s Live /\ ar_method s = TaylorSeries /\ ar_order s = 1%nat /\ is_finite (ar_ts s : f32) = true /\ B2R (ar_ts s : f32) = 1 /\
  sensor_get_config Gyr (M_Ar.ar_gyr s) = Ok c /\ quat_f (ar_attitude s) qone /\ Rabs (qnorm qone - 1) < / 1000000 /\
  pow_one good_libm 0 /\ libm_angles good_libm (5 / 10000000) /\
  let z := Sample (lm := good_libm) (z32 1) (z32 0) (z32 1) (triple 0 0 (101 / 100)) in
  bounded c 4 z /\ rnorm 3 (true_rate z) + rate_error c 4 z <= bpow radix2 60 /\ (rnorm 3 (true_rate z) + rate_error c 4 z) * Rabs 1 <= 1000 /\
  euler_of (turns 1 qone [true_rate z]) 0 0 (101 / 100) /\ / 100 <= cos 0 /\
  let X := (rnorm 3 (true_rate z) + rate_error c 4 z) * Rabs 1 in
  17 * (qdist qone qone + (X * X * X / 23 + 6 / 1000000 + 5 * 0 + eps * Rabs 1 + 501 / 1000 * (rate_error c 4 z * Rabs 1))) <= cos 0.
Proof. exact taylor_angles_ex. Qed.
