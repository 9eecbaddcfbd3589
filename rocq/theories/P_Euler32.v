(** C69: Euler angles in f32. *)
(*@+*)
From Coq Require Import List Arith ZArith Reals Lia Bool Lra SpecFloat.
From Flocq Require Import Core BinarySingleNaN.
From Verif Require Import M_Base M_Arith M_Utils M_Vector M_Matrix M_Quaternion M_F32 M_RX
  S_Spec S_Linalg S_Norm S_Quat S_F32 S_Euler32 P_Inst P_InstF.
Import ListNotations.
Local Open Scope R_scope.
(*@-*)
From Coq Require Import Psatz.
From Verif Require Import P_Hoare P_Cont P_Loops P_Access P_Pointwise P_Trans P_Float P_Product
  P_Compare P_Dot P_Norm P_FErr P_Norm32 P_Quat P_Rot P_FAcc P_F32Mul P_F32Rot P_F32Ar P_Euler.

Lemma sin_half_chord s t : (cos s - cos t) * (cos s - cos t) + (sin s - sin t) * (sin s - sin t) = 4 * (sin ((s - t) / 2) * sin ((s - t) / 2)).
Proof.
  pose proof (sin2_cos2 s) as S. pose proof (sin2_cos2 t) as T. unfold Rsqr in S, T.
  assert (C : cos (s - t) = 1 - 2 * sin ((s - t) / 2) * sin ((s - t) / 2)) by (rewrite <- cos_2a_sin; f_equal; field).
  rewrite cos_minus in C. nra.
Qed.
Lemma sin_half_add s t r d : Rabs (r - s) <= d -> Rabs (sin ((r - t) / 2)) <= Rabs (sin ((s - t) / 2)) + d / 2.
Proof.
  intros H. replace ((r - t) / 2) with ((s - t) / 2 + (r - s) / 2) by field. rewrite sin_plus. eapply Rle_trans; [apply Rabs_triang|]. rewrite !Rabs_mult.
  pose proof (Rabs_pos (sin ((s - t) / 2))) as P1. pose proof (Rabs_pos (cos ((s - t) / 2))) as P2. pose proof (Rabs_pos (sin ((r - s) / 2))) as P3.
  assert (C1 : Rabs (cos ((r - s) / 2)) <= 1) by (apply Rabs_le, COS_bound). assert (C2 : Rabs (cos ((s - t) / 2)) <= 1) by (apply Rabs_le, COS_bound).
  assert (S1 : Rabs (sin ((r - s) / 2)) <= d / 2).
  { eapply Rle_trans; [apply Rabs_sin_le|]. unfold Rdiv. rewrite Rabs_mult, (Rabs_pos_eq (/ 2)) by lra. lra. }
  nra.
Qed.
(** a polar angle of a point close to c (cos t, sin t) *)
Lemma polar_close X Y c e s t : 0 <= e -> 8 * e <= c * c -> 0 < c <= 1 -> Rabs (X - c * cos t) <= e -> Rabs (Y - c * sin t) <= e ->
  X = sqrt (X * X + Y * Y) * cos s -> Y = sqrt (X * X + Y * Y) * sin s -> Rabs (sin ((s - t) / 2)) <= e / c.
Proof.
  intros He Hc C1 HX HY EX EY. set (r := sqrt (X * X + Y * Y)) in *.
  assert (R0 : 0 <= r) by apply sqrt_pos. pose proof (sin2_cos2 s) as Ss. pose proof (sin2_cos2 t) as St. unfold Rsqr in Ss, St.
  pose proof (sin_half_chord s t) as CH. set (S := sin ((s - t) / 2)) in *.
  assert (D : (X - c * cos t) * (X - c * cos t) + (Y - c * sin t) * (Y - c * sin t) <= 2 * (e * e)).
  { assert (Q : forall a, Rabs a <= e -> a * a <= e * e) by (intros a Ha; apply Rabs_le_inv in Ha; nra). pose proof (Q _ HX). pose proof (Q _ HY). lra. }
  assert (I : (X - c * cos t) * (X - c * cos t) + (Y - c * sin t) * (Y - c * sin t) = (r - c) * (r - c) + 4 * (r * c) * (S * S)).
  { rewrite EX, EY. set (a := cos s) in *. set (b := sin s) in *. set (p := cos t) in *. set (q := sin t) in *.
    replace (4 * (r * c) * (S * S)) with (r * c * (4 * (S * S))) by ring. rewrite <- CH.
    transitivity (r * r * (b * b + a * a) + c * c * (q * q + p * p) - 2 * (r * c) * (a * p + b * q)); [ring|].
    transitivity (r * r + c * c - 2 * (r * c) + r * c * ((b * b + a * a) + (q * q + p * p) - 2 * (a * p + b * q))); [rewrite Ss, St; ring|ring]. }
  assert (RC : 3 / 4 * c <= r).
  { apply Rnot_lt_le. intros L. assert (c / 4 <= c - r) by lra. assert (e <= c / 8) by nra.
    assert (c / 4 * (c / 4) <= (r - c) * (r - c)) by nra. assert (0 <= 4 * (r * c) * (S * S)) by (apply Rmult_le_pos; [nra|apply Rle_0_sqr]).
    assert (e * e <= c / 8 * (c / 8)) by nra. nra. }
  assert (K : 3 * (c * c) * (S * S) <= 2 * (e * e)).
  { assert (0 <= (r - c) * (r - c)) by apply Rle_0_sqr. assert (3 * (c * c) * (S * S) <= 4 * (r * c) * (S * S)); [|lra].
    apply Rmult_le_compat_r; [apply Rle_0_sqr|]. nra. }
  apply Rmult_le_reg_r with c; [lra|]. replace (e / c * c) with e by (field; lra). rewrite <- (Rabs_pos_eq c) at 1 by lra. rewrite <- Rabs_mult.
  rewrite <- (Rabs_pos_eq e) by lra. apply Rsqr_le_abs_0. unfold Rsqr. assert (0 <= e * e) by nra. nra.
Qed.
(** the arcsine, away from +-1 *)
Lemma asin_close s th e : - PI / 2 < th < PI / 2 -> 0 <= e -> Rabs s <= 1 -> Rabs (s - sin th) <= e -> Rabs (sin ((asin s - th) / 2)) <= e / cos th.
Proof.
  intros Ht He Hs H. assert (C0 : 0 < cos th) by (apply cos_gt_0; lra). apply Rabs_le_inv in Hs.
  destruct (asin_bound s) as [B1 B2]. set (a := asin s) in *.
  assert (Sa : sin a = s) by (apply sin_asin; lra). assert (Ca : 0 <= cos a) by (apply cos_ge_0; lra).
  rewrite <- Sa in H. rewrite form4 in H.
  assert (F : cos a + cos th = 2 * cos ((a - th) / 2) * cos ((a + th) / 2)) by (rewrite form1; reflexivity).
  assert (P : 0 < cos ((a + th) / 2)) by (apply cos_gt_0; lra).
  assert (Q : cos ((a - th) / 2) <= 1) by apply COS_bound.
  assert (L : cos th <= 2 * cos ((a + th) / 2)) by nra.
  rewrite !Rabs_mult, (Rabs_pos_eq 2), (Rabs_pos_eq (cos ((a + th) / 2))) in H by lra.
  apply Rmult_le_reg_r with (cos th); [exact C0|]. replace (e / cos th * cos th) with e by (field; lra).
  eapply Rle_trans; [|exact H]. rewrite Rmult_comm. apply Rmult_le_compat_r; [apply Rabs_pos|exact L].
Qed.

(** ** the arguments of the three functions *)
Section Args.
  Variables (lm : Libm) (w x y z : f32) (d : R).
  Notation q := (Quat (B2R w) (B2R x) (B2R y) (B2R z)).
  Hypothesis (Fw : is_finite w = true) (Fx : is_finite x = true) (Fy : is_finite y = true) (Fz : is_finite z = true).
  Hypothesis (HN : Rabs (qnorm q - 1) <= d) (Hd : d <= / 100).
  Notation two_ := (Bmult mode_NE (f2 (A := F32 lm))).
  Let W := B2R w. Let X := B2R x. Let Y := B2R y. Let Z := B2R z.
  Lemma sq_sum : W * W + X * X + Y * Y + Z * Z <= 51 / 50 + / 1000.
  Proof. change (qnorm2 q <= 51 / 50 + / 1000). rewrite <- qnorm_sqr. apply Rabs_le_inv in HN. nra. Qed.
  Lemma off b x0 y0 x1 y1 : is_finite x0 = true -> is_finite y0 = true -> is_finite x1 = true -> is_finite y1 = true ->
    (B2R x0 * B2R x0 + B2R y0 * B2R y0) + (B2R x1 * B2R x1 + B2R y1 * B2R y1) <= 51 / 50 + / 1000 ->
    let N := if b : bool then B2R x0 * B2R y0 + B2R x1 * B2R y1 else B2R x0 * B2R y0 - B2R x1 * B2R y1 in
    is_finite (two_ (two b x0 y0 x1 y1)) = true /\ Rabs (B2R (two_ (two b x0 y0 x1 y1)) - 2 * N) <= 9 / 10000000.
  Proof.
    intros F1 F2 F3 F4 H. assert (AB : forall a b, Rabs (a * b) <= (a * a + b * b) / 2).
    { intros a c. pose proof (Rle_0_sqr (a - c)). pose proof (Rle_0_sqr (a + c)). unfold Rsqr in *. apply Rabs_le. lra. }
    pose proof (AB (B2R x0) (B2R y0)). pose proof (AB (B2R x1) (B2R y1)).
    destruct (two_two lm b x0 y0 x1 y1 F1 F2 F3 F4 ltac:(lra)) as [Fm Em]. split; [exact Fm|]. cbv zeta. lra.
  Qed.
  Lemma dia x0 x1 : is_finite x0 = true -> is_finite x1 = true -> B2R x0 * B2R x0 + B2R x1 * B2R x1 <= 51 / 50 + / 1000 ->
    let t := Bminus mode_NE (f1 (A := F32 lm)) (two_ (two true x0 x0 x1 x1)) in
    is_finite t = true /\ Rabs (B2R t - (1 - 2 * (B2R x0 * B2R x0 + B2R x1 * B2R x1))) <= 9 / 10000000.
  Proof.
    intros F1 F2 H t. pose proof tiny_small as TS. pose proof tiny_pos as TP. pose proof eta_small2 as ES.
    assert (P0 : 0 <= B2R x0 * B2R x0) by apply Rle_0_sqr. assert (P1 : 0 <= B2R x1 * B2R x1) by apply Rle_0_sqr.
    assert (M : Rabs (B2R x0 * B2R x0) + Rabs (B2R x1 * B2R x1) = B2R x0 * B2R x0 + B2R x1 * B2R x1) by (rewrite !Rabs_pos_eq; auto).
    destruct (two_err true x0 x0 x1 x1 F1 F1 F2 F2) as [F E]; [rewrite M; lra|]. rewrite M in E. cbv iota in E.
    assert (H0 : 0 <= B2R x0 * B2R x0 + B2R x1 * B2R x1) by lra.
    set (N := B2R x0 * B2R x0 + B2R x1 * B2R x1) in *.
    destruct (twice lm (two true x0 x0 x1 x1) N _ F E) as [Ft Et]; [rewrite Rabs_pos_eq; lra|lra|].
    rewrite (Rabs_pos_eq N) in Et by lra.
    destruct (one_minus lm _ (2 * N) _ Ft Et) as [Fo Eo]; [rewrite Rabs_pos_eq; lra|unfold u; lra|].
    split; [exact Fo|]. eapply Rle_trans; [exact Eo|].
    assert (Rabs (1 - 2 * N) <= 11 / 10) by (apply Rabs_le; lra). unfold u. lra.
  Qed.
  (** the corner 1 - 2 (y^2 + z^2) *)
  Lemma corner : Rabs (1 - 2 * (Y * Y + Z * Z) - rotmat (qunit q) 0 0) <= 5 * d.
  Proof.
    pose proof HN as H. apply Rabs_le_inv in H. assert (N0 : 0 < qnorm q) by lra.
    pose proof (rotmat_list (qunit q) 0 0 ltac:(lia) ltac:(lia) (qunit_unit q N0)) as RL. pose proof (qunit_unit q N0) as U. unfold unitq, qnorm2 in U.
    assert (Hs : - (21 / 10 * d) <= qnorm2 q - 1 <= 21 / 10 * d) by (rewrite <- qnorm_sqr; nra).
    assert (NN : / qnorm q * / qnorm q = / qnorm2 q) by (rewrite <- qnorm_sqr; field; lra).
    rewrite RL. clear RL. unfold qunit, qscale in *. cbn [Qw Qx Qy Qz nth Nat.mul Nat.add] in *. set (n := / qnorm q) in *. set (s := qnorm2 q) in *.
    change (n * W * (n * W) + n * X * (n * X) + n * Y * (n * Y) + n * Z * (n * Z) = 1) in U.
    assert (SE : s = W * W + X * X + Y * Y + Z * Z) by reflexivity.
    assert (K0 : 0 < / s) by (apply Rinv_0_lt_compat; lra). assert (KI : / s * s = 1) by (field; lra).
    set (k := / s) in *.
    match goal with |- Rabs (_ - ?r) <= _ => replace r with (1 - 2 * (k * (Y * Y + Z * Z))) end.
    - replace (1 - 2 * (Y * Y + Z * Z) - (1 - 2 * (k * (Y * Y + Z * Z)))) with (2 * ((k - 1) * (Y * Y + Z * Z))) by ring.
      rewrite Rabs_mult, (Rabs_pos_eq 2), Rabs_mult by lra. assert (YZ : 0 <= Y * Y + Z * Z <= s) by (pose proof (Rle_0_sqr W); pose proof (Rle_0_sqr X); pose proof (Rle_0_sqr Y); pose proof (Rle_0_sqr Z); unfold Rsqr in *; lra).
      rewrite (Rabs_pos_eq (Y * Y + Z * Z)) by lra.
      assert (KS : Rabs (k - 1) * s <= 21 / 10 * d) by (unfold Rabs; destruct (Rcase_abs (k - 1)); nra).
      assert (Rabs (k - 1) * (Y * Y + Z * Z) <= Rabs (k - 1) * s) by (apply Rmult_le_compat_l; [apply Rabs_pos|lra]). lra.
    - rewrite <- NN. fold W X Y Z. rewrite <- U. ring.
  Qed.
End Args.

(*@ C69_angles *)
(** C69: take a quaternion of norm 1 within h, and a libm whose asin and atan2 are off by at most d.  Let roll, pitch and yaw
    be the Euler angles of its rotation, with cos^2 pitch at least 8 (5 h + 1e-6).  Then [convert_to_euler] returns three
    finite angles, and the sine of half of each error is at most (5 h + 1e-6) / cos pitch + d / 2 *)
Lemma l_euler32 :
  forall (lm : Libm) (v : Vec (T (Arith := F32 lm))) (q : quat) (h d roll pitch yaw : R),
  quat_f v q -> Rabs (qnorm q - 1) <= h -> h <= / 100 -> libm_angles lm d ->
  - PI / 2 < pitch < PI / 2 -> req 3 3 (rmul 3 (Rz yaw) (rmul 3 (Ry pitch) (Rx roll))) (rotmat (qunit q)) ->
  let e := 5 * h + / 1000000 in 8 * e <= cos pitch * cos pitch ->
  exists a b c : f32, q_convert_to_euler v = Ok (a, b, c) /\
    is_finite a = true /\ is_finite b = true /\ is_finite c = true /\
    Rabs (sin ((B2R a - roll) / 2)) <= e / cos pitch + d / 2 /\
    Rabs (sin ((B2R b - pitch) / 2)) <= e / cos pitch + d / 2 /\
    Rabs (sin ((B2R c - yaw) / 2)) <= e / cos pitch + d / 2.
Proof.
  intros lm v q h d roll pitch yaw Hv HN Hh [LA LT] Ht EQ e He. destruct (quat_f_inv _ _ _ Hv) as (f & Hf & Ff).
  destruct (Ff 0%nat ltac:(lia)) as [Fw Ew]. destruct (Ff 1%nat ltac:(lia)) as [Fx Ex].
  destruct (Ff 2%nat ltac:(lia)) as [Fy Ey]. destruct (Ff 3%nat ltac:(lia)) as [Fz Ez]. cbn [qf quad] in *.
  destruct q as [qw qx qy qz]. cbn [Qw Qx Qy Qz] in *.
  set (w := f 0%nat : f32) in *. set (x := f 1%nat : f32) in *. set (y := f 2%nat : f32) in *. set (z := f 3%nat : f32) in *.
  rewrite <- Ew, <- Ex, <- Ey, <- Ez in *. set (q := Quat (B2R w) (B2R x) (B2R y) (B2R z)) in *.
  assert (H0 : 0 <= h) by (eapply Rle_trans; [apply Rabs_pos|exact HN]).
  assert (C0 : 0 < cos pitch) by (apply cos_gt_0; lra). assert (C1 : cos pitch <= 1) by apply COS_bound.
  assert (SS := sq_sum w x y z h HN Hh).
  assert (PP : forall a, 0 <= a * a) by (intros; apply Rle_0_sqr).
  pose proof (PP (B2R w)) as Pw. pose proof (PP (B2R x)) as Px. pose proof (PP (B2R y)) as Py. pose proof (PP (B2R z)) as Pz.
  destruct (off lm true w x y z Fw Fx Fy Fz ltac:(lra)) as [F21 E21]. destruct (dia lm x y Fx Fy ltac:(lra)) as [F22 E22].
  destruct (off lm false w y z x Fw Fy Fz Fx ltac:(lra)) as [F20 E20].
  destruct (off lm true w z x y Fw Fz Fx Fy ltac:(lra)) as [F10 E10]. destruct (dia lm y z Fy Fz ltac:(lra)) as [F00 E00].
  cbv zeta iota in E21, E22, E20, E10, E00.
  pose proof (fun i j Hi Hj => matq_unit q h i j HN Hh Hi Hj) as MU.
  pose proof (MU 2%nat 1%nat ltac:(lia) ltac:(lia)) as M21. pose proof (MU 2%nat 2%nat ltac:(lia) ltac:(lia)) as M22.
  pose proof (MU 2%nat 0%nat ltac:(lia) ltac:(lia)) as M20. pose proof (MU 1%nat 0%nat ltac:(lia) ltac:(lia)) as M10.
  pose proof (corner w x y z h HN Hh) as M00. clear MU.
  rewrite <- (EQ 2%nat 1%nat) in M21 by lia. rewrite <- (EQ 2%nat 2%nat) in M22 by lia. rewrite <- (EQ 2%nat 0%nat) in M20 by lia.
  rewrite <- (EQ 1%nat 0%nat) in M10 by lia. fold q in M00. rewrite <- (EQ 0%nat 0%nat) in M00 by lia.
  unfold q, rmul, Rx, Ry, Rz in M21, M22, M20, M10, M00. cbn [matq Nat.mul Nat.add nth Rsum] in M21, M22, M20, M10, M00.
  assert (TR : forall a b r k, Rabs (a - b) <= 9 / 10000000 -> Rabs (b - r) <= 5 * h -> k = r -> Rabs (a - k) <= e).
  { intros a b r k H1 H2 ->. replace (a - r) with ((a - b) + (b - r)) by ring. eapply Rle_trans; [apply Rabs_triang|]. unfold e. lra. }
  set (y1 := Bmult mode_NE (f2 (A := F32 lm)) (two true w x y z)) in *. set (x1 := Bminus mode_NE (f1 (A := F32 lm)) (Bmult mode_NE (f2 (A := F32 lm)) (two true x x y y))) in *.
  set (s1 := Bmult mode_NE (f2 (A := F32 lm)) (two false w y z x)) in *.
  set (y2 := Bmult mode_NE (f2 (A := F32 lm)) (two true w z x y)) in *. set (x2 := Bminus mode_NE (f1 (A := F32 lm)) (Bmult mode_NE (f2 (A := F32 lm)) (two true y y z z))) in *.
  assert (A1 : Rabs (B2R y1 - cos pitch * sin roll) <= e) by (eapply TR; [exact E21|exact M21|ring]).
  assert (A2 : Rabs (B2R x1 - cos pitch * cos roll) <= e) by (eapply TR; [exact E22|exact M22|ring]).
  assert (A3 : Rabs (B2R s1 - sin pitch) <= e).
  { rewrite <- Rabs_Ropp in E20, M20. apply (TR (B2R s1) (2 * (B2R w * B2R y - B2R z * B2R x)) (sin pitch)); [rewrite <- Rabs_Ropp; exact E20| |reflexivity].
    eapply Rle_trans; [|exact M20]. right. f_equal. ring. }
  assert (A4 : Rabs (B2R y2 - cos pitch * sin yaw) <= e).
  { apply (TR (B2R y2) (2 * (B2R w * B2R z + B2R x * B2R y)) (cos pitch * sin yaw)); [exact E10| |reflexivity]. eapply Rle_trans; [|exact M10]. right. f_equal. ring. }
  assert (A5 : Rabs (B2R x2 - cos pitch * cos yaw) <= e) by (eapply TR; [exact E00|exact M00|ring]).
  assert (E0 : 0 <= e) by (unfold e; lra).
  assert (POS : forall X Y t, Rabs (X - cos pitch * cos t) <= e -> Rabs (Y - cos pitch * sin t) <= e -> 0 < X * X + Y * Y).
  { intros X Y t H1 H2. pose proof (sin2_cos2 t) as S2. unfold Rsqr in S2. apply Rnot_le_lt. intros L.
    assert (X = 0) by (pose proof (PP X); pose proof (PP Y); apply Rsqr_0_uniq; unfold Rsqr; lra). assert (Y = 0) by (pose proof (PP X); pose proof (PP Y); apply Rsqr_0_uniq; unfold Rsqr; lra). subst X Y.
    assert (Q : forall a, Rabs (0 - a) <= e -> a * a <= e * e) by (intros a Ha; apply Rabs_le_inv in Ha; nra). pose proof (Q _ H1) as Q1. pose proof (Q _ H2) as Q2.
    assert (cos pitch * cos pitch <= 2 * (e * e)).
    { replace (cos pitch * cos pitch) with (cos pitch * cos t * (cos pitch * cos t) + cos pitch * sin t * (cos pitch * sin t)); [lra|].
      transitivity (cos pitch * cos pitch * (sin t * sin t + cos t * cos t)); [ring|]. rewrite S2. ring. }
    assert (e <= / 8) by nra. assert (0 < e) by (unfold e; lra). nra. }
  destruct (LT y1 x1 F21 F22 (POS _ _ _ A2 A1)) as (FA & ta & TA1 & TA2 & TA3).
  destruct (LT y2 x2 F10 F00 (POS _ _ _ A5 A4)) as (FC & tc & TC1 & TC2 & TC3).
  assert (S1 : Rabs (B2R s1) <= 1).
  { pose proof (sin2_cos2 pitch) as S2. unfold Rsqr in S2. apply Rabs_le_inv in A3. assert (- (1 - e) <= sin pitch <= 1 - e) by nra. apply Rabs_le. lra. }
  destruct (LA s1 F20 S1) as (FB & TB).
  exists (lm_atan2 lm y1 x1), (lm_asin lm s1), (lm_atan2 lm y2 x2). split.
  { unfold q_convert_to_euler, q_get_qw, q_get_qx, q_get_qy, q_get_qz. rewrite !(q_get_is _ _ _ Hf) by lia. cbn [rbind]. reflexivity. }
  split; [exact FA|]. split; [exact FB|]. split; [exact FC|]. split; [|split].
  - eapply Rle_trans; [apply (sin_half_add _ _ _ _ TA3)|]. apply Rplus_le_compat_r. eapply polar_close; eauto.
  - eapply Rle_trans; [apply (sin_half_add _ _ _ _ TB)|]. apply Rplus_le_compat_r. eapply asin_close; eauto.
  - eapply Rle_trans; [apply (sin_half_add _ _ _ _ TC3)|]. apply Rplus_le_compat_r. eapply polar_close; eauto.
Qed.

(** ** a libm whose inverse functions are accurate *)
Lemma near_ok4 y : Rabs y <= 4 -> is_finite (near y) = true /\ Rabs (B2R (near y) - y) <= 5 / 10000000.
Proof.
  intros H. set (m := ZnearestE (y * bpow radix2 24)).
  assert (E : Rabs (F2R (Float radix2 m (-24)) - y) <= / 2 * bpow radix2 (-24)).
  { unfold F2R. cbn [Fnum Fexp]. replace (IZR m * bpow radix2 (-24) - y) with ((IZR m - y * bpow radix2 24) * bpow radix2 (-24)).
    - rewrite Rabs_mult, (Rabs_pos_eq (bpow radix2 (-24))) by apply bpow_ge_0. apply Rmult_le_compat_r; [apply bpow_ge_0|].
      unfold m. rewrite Rabs_minus_sym. apply Znearest_half.
    - rewrite Rmult_minus_distr_r, Rmult_assoc, <- bpow_plus. cbn [Z.add Z.opp Z.pos_sub]. cbn. ring. }
  rewrite u_val in E. set (x := F2R (Float radix2 m (-24))) in *.
  assert (X2 : Rabs x <= 5). { apply Rabs_le_inv in E. apply Rabs_le_inv in H. apply Rabs_le. unfold u in *. lra. }
  pose proof (binary_normalize_correct prec emax _ _ mode_NE m (-24) false) as C. cbn [round_mode] in C. fold x in C.
  rewrite rnd32_lt in C by (apply Rle_trans with 5; [exact X2|apply Rle_trans with (bpow radix2 3); [cbn; lra|apply bpow_le; lia]]).
  destruct C as (C1 & C2 & _). split; [exact C2|]. unfold near. fold m. rewrite C1.
  destruct (rnd32_err x) as (e & h & He & Hh & ->). pose proof eta_1 as E0.
  replace (x * (1 + e) + h - y) with ((x - y) + (x * e + h)) by ring. eapply Rle_trans; [apply Rabs_triang|].
  assert (Rabs (x * e + h) <= 5 * u + eta).
  { eapply Rle_trans; [apply Rabs_triang|]. rewrite Rabs_mult. assert (Rabs x * Rabs e <= 5 * u) by (apply Rmult_le_compat; auto using Rabs_pos). lra. }
  unfold u in *. lra.
Qed.
Lemma atan2_bound : forall y x, - PI < Ratan2 y x <= PI.
Proof.
  intros y0 x0. pose proof PI_RGT_0 as P. unfold Ratan2. destruct (atan_bound (y0 / x0)) as [L1 L2].
    destruct (Rlt_bool_spec 0 x0); [lra|]. destruct (Rlt_bool_spec x0 0).
    - assert (S : 0 <= y0 -> atan (y0 / x0) <= 0).
      { intros Hy. rewrite <- atan_0. destruct (Rle_lt_or_eq_dec 0 y0 Hy) as [Hy'| <-].
        - left. apply atan_increasing. apply Ropp_lt_cancel. rewrite Ropp_0. unfold Rdiv.
          rewrite <- Ropp_mult_distr_r_reverse. apply Rmult_lt_0_compat; auto.
          rewrite <- Rinv_opp. apply Rinv_0_lt_compat. lra.
        - right. f_equal. unfold Rdiv. ring. }
      assert (S' : y0 < 0 -> 0 < atan (y0 / x0)).
      { intros Hy. rewrite <- atan_0. apply atan_increasing. replace (y0 / x0) with ((- y0) * / (- x0)) by (field; lra).
        apply Rmult_lt_0_compat; [lra|]. apply Rinv_0_lt_compat. lra. }
      destruct (Rle_bool_spec 0 y0) as [Hy|Hy]; [specialize (S Hy)|specialize (S' Hy)]; lra.
    - destruct (Rlt_bool_spec 0 y0); [lra|]. destruct (Rlt_bool_spec y0 0); lra.
Qed.
Definition angle_libm : Libm :=
  mkLibm (fun x => x) (fun x => x) (fun x => near (asin (B2R x))) (fun x => x) (fun y x => near (Ratan2 (B2R y) (B2R x))) (fun x _ => x) (fun x => x).
Lemma angle_accurate : libm_angles angle_libm (5 / 10000000).
Proof.
  pose proof PI_4 as P4. split.
  - intros x Fx _. cbn [angle_libm lm_asin]. apply near_ok4. destruct (asin_bound (B2R x)). apply Rabs_le. lra.
  - intros y x Fy Fx H. cbn [angle_libm lm_atan2]. set (r := sqrt _). assert (R0 : 0 < r) by (apply sqrt_lt_R0, H).
    assert (RR : B2R x * B2R x + B2R y * B2R y = r * r) by (symmetry; apply sqrt_sqrt; lra).
    destruct (atan2_polar (B2R y) (B2R x) r R0 RR) as [P1 P2].
    assert (B : Rabs (Ratan2 (B2R y) (B2R x)) <= 4) by (destruct (atan2_bound (B2R y) (B2R x)); apply Rabs_le; lra).
    destruct (near_ok4 _ B) as [F E]. split; [exact F|]. exists (Ratan2 (B2R y) (B2R x)). split; [symmetry; exact P1|]. split; [symmetry; exact P2|exact E].
Qed.
Definition halves : list f32 := [lit32 1 2; lit32 1 2; lit32 1 2; lit32 1 2].
Lemma half_R : is_finite (lit32 1 2) = true /\ B2R (lit32 1 2) = / 2.
Proof.
  destruct (lit32_R 1 2) as [F E]; [rewrite Rabs_pos_eq by lra; apply Rle_trans with (bpow radix2 0); [cbn; lra|apply bpow_le; lia]|].
  split; [exact F|]. rewrite E. replace (1 / 2) with (bpow radix2 (-1)) by (cbn; lra). transitivity (bpow radix2 (-1)); [|cbn; lra].
  apply round_generic; auto with typeclass_instances. apply fmt_bpow. lia.
Qed.
Lemma halves_quat lm : quat_f (lm := lm) (mk_vec (A := F32 lm) halves) (Quat (/ 2) (/ 2) (/ 2) (/ 2)).
Proof.
  destruct half_R as [F E]. exists (fun i => nth i halves (B754_zero false)). split; [apply (fvec_is lm halves); [cbn; lia|repeat constructor; exact F]|].
  intros i Hi. destruct i as [|[|[|[|i]]]]; [exact E|exact E|exact E|exact E|lia].
Qed.

Lemma euler_example :
  let q := Quat (/ 2) (/ 2) (/ 2) (/ 2) in
  libm_angles angle_libm (5 / 10000000) /\ quat_f (lm := angle_libm) (mk_vec (A := F32 angle_libm) halves) q /\ Rabs (qnorm q - 1) <= 0 /\
  - PI / 2 < 0 < PI / 2 /\ req 3 3 (rmul 3 (Rz (PI / 2)) (rmul 3 (Ry 0) (Rx (PI / 2)))) (rotmat (qunit q)) /\
  8 * (5 * 0 + / 1000000) <= cos 0 * cos 0.
Proof.
  intros q. pose proof PI_RGT_0 as P0. assert (U : unitq q) by (unfold unitq, qnorm2, q; cbn; lra).
  assert (N1 : qnorm q = 1) by (unfold qnorm; rewrite U; apply sqrt_1).
  split; [apply angle_accurate|]. split; [apply halves_quat|]. split; [rewrite N1, Rminus_diag_eq, Rabs_R0 by reflexivity; lra|]. split; [lra|].
  split; [|rewrite cos_0; lra]. intros i j Hi Hj.
  assert (E : qunit q = q) by (unfold qunit, qscale; rewrite N1, Rinv_1; unfold q; cbn; rewrite !Rmult_1_l; reflexivity). rewrite E.
  pose proof (rotmat_list q i j Hi Hj U) as RL. etransitivity; [|symmetry; exact RL].
  destruct i as [|[|[|i]]]; [| | |lia]; (destruct j as [|[|[|j]]]; [| | |lia]); unfold rmul, Rx, Ry, Rz; cbn [Rsum Nat.mul Nat.add nth]; rewrite ?cos_PI2, ?sin_PI2, ?cos_0, ?sin_0; lra.
Qed.

(*@ example *)
(** the turn that takes x to y, y to z and z to x: roll and yaw are a quarter turn, the pitch is zero *)
Example C69_example :
  let q := Quat (/ 2) (/ 2) (/ 2) (/ 2) in
  libm_angles angle_libm (5 / 10000000) /\ quat_f (lm := angle_libm) (mk_vec (A := F32 angle_libm) halves) q /\ Rabs (qnorm q - 1) <= 0 /\
  - PI / 2 < 0 < PI / 2 /\ req 3 3 (rmul 3 (Rz (PI / 2)) (rmul 3 (Ry 0) (Rx (PI / 2)))) (rotmat (qunit q)) /\
  8 * (5 * 0 + / 1000000) <= cos 0 * cos 0.
Proof. exact euler_example. Qed.
