(** C77: from an f32 rotation matrix to a quaternion with [hughes]. *)
(*@+*)
From Coq Require Import List Arith ZArith Reals Lia Bool Lra SpecFloat.
From Flocq Require Import Core BinarySingleNaN.
From Verif Require Import M_Base M_Arith M_Utils M_Vector M_Matrix M_Quaternion M_F32
  S_Spec S_Linalg S_Norm S_Quat S_F32 P_Inst P_InstF.
Import ListNotations.
Local Open Scope R_scope.
(*@-*)
From Coq Require Import Psatz.
From Verif Require Import S_Compare P_Hoare P_Cont P_Loops P_Access P_Pointwise P_Trans P_Float P_Product P_Norm P_Diag P_Dot P_FErr P_FAcc P_F32App P_F32Mul P_F32Rot P_Quat P_Rot P_Dcm P_Norm32 P_Compare P_Chia.

Lemma near3 lm (x y : f32) c : is_finite x = true -> is_finite y = true -> B2R y = c -> Rabs (B2R x) <= 4 -> Rabs c <= 4 ->
  (Rabs (B2R x - c) <= 98 / 1000000 -> within (A := F32 lm) EPSILON x y) /\ (within (A := F32 lm) EPSILON x y -> Rabs (B2R x - c) <= 102 / 1000000).
Proof.
  intros Fx Fy Ey Bx Bc. destruct (eps32 lm) as [FE [EL EU]]. pose proof eta_tiny as ET. pose proof eta_pos as E0. assert (U : u = 1 / 16777216) by reflexivity.
  apply Rabs_le_inv in Bx, Bc.
  destruct (minus_ok x y Fx Fy) as [F1 E1]; [rewrite Ey; apply small_127, Rabs_le; lra|]. rewrite Ey in E1.
  unfold within. change (fleb (Arith := F32 lm) (fabs (Arith := F32 lm) (fsub (Arith := F32 lm) x y)) EPSILON) with (Bleb (Babs (Bminus mode_NE x y)) (EPSILON (A := F32 lm) : f32)).
  rewrite Bleb_ok by (try exact FE; rewrite is_finite_Babs; exact F1). rewrite B2R_Babs, E1. split.
  - intros H. apply Rle_bool_true. pose proof (rnd_abs (B2R x - c) (98 / 1000000) H) as K. apply Rabs_le_inv in K, H. rewrite U in K. apply Rabs_le. lra.
  - destruct (Rle_bool_spec (Rabs (rnd32 (B2R x - c))) (B2R (EPSILON (A := F32 lm) : f32))) as [K|K]; [intros _|discriminate].
    destruct (rnd32_err (B2R x - c)) as (e & h & He & Hh & E). rewrite E in K. set (t := B2R x - c) in *. apply Rabs_le_inv in K, He, Hh. rewrite U in He.
    apply Rabs_le. split; nra.
Qed.
(** the trace, clipped *)
Lemma trace32 lm (a b c : f32) (A B C w e : R) :
  is_finite a = true -> is_finite b = true -> is_finite c = true ->
  Rabs (B2R a - A) <= e -> Rabs (B2R b - B) <= e -> Rabs (B2R c - C) <= e ->
  Rabs A <= 1 -> Rabs B <= 1 -> Rabs C <= 1 -> 0 <= e <= / 1000 ->
  A + B + C = 4 * (w * w) - 1 -> 0 <= w <= 1 ->
  let t := clip (A := F32 lm) (fsum (A := F32 lm) 3 (fun i => nth i [a; b; c] (f0 (A := F32 lm)))) (fm1 (A := F32 lm)) (f3 (A := F32 lm)) in
  is_finite (t : f32) = true /\ Rabs (B2R (t : f32) - (4 * (w * w) - 1)) <= 3 * e + 4 / 10000000 /\ -1 <= B2R (t : f32) <= 3.
Proof.
  intros Fa Fb Fc Ha Hb Hc BA BB BC He EX Hw. cbv zeta. cbn [fsum nth].
  apply Rabs_le_inv in Ha, Hb, Hc, BA, BB, BC. pose proof eta_tiny as ET. pose proof eta_pos as EP0.
  change (fadd (Arith := F32 lm)) with (Bplus mode_NE : f32 -> f32 -> f32).
  assert (E0 : B2R (f0 (A := F32 lm) : f32) = 0) by reflexivity.
  destruct (plus_ok (f0 (A := F32 lm)) a) as [F0 G0]; [reflexivity|exact Fa|apply small_127, Rabs_le; rewrite E0; lra|]. rewrite E0, Rplus_0_l in G0.
  rewrite round_generic in G0; [|apply valid_rnd_N|apply generic_format_B2R].
  set (t0 := Bplus mode_NE (f0 (A := F32 lm)) a) in *. clearbody t0.
  destruct (plus_ok t0 b F0 Fb) as [F1 G1]; [apply small_127, Rabs_le; lra|].
  pose proof (rnd_abs (B2R t0 + B2R b) (21 / 10) ltac:(apply Rabs_le; lra)) as R1. rewrite <- G1 in R1. clear G1. apply Rabs_le_inv in R1.
  set (t1 := Bplus mode_NE t0 b) in *. clearbody t1.
  destruct (plus_ok t1 c F1 Fc) as [F2 G2]; [apply small_127, Rabs_le; unfold u in *; lra|].
  pose proof (rnd_abs (B2R t1 + B2R c) (31 / 10) ltac:(apply Rabs_le; unfold u in *; lra)) as R2. rewrite <- G2 in R2. clear G2. apply Rabs_le_inv in R2.
  set (t2 := Bplus mode_NE t1 c) in *. clearbody t2.
  assert (Fm1 : B2R (fm1 (A := F32 lm) : f32) = -1) by (cbn; unfold F2R; cbn; lra).
  assert (F3 : B2R (f3 (A := F32 lm) : f32) = 3) by (cbn; unfold F2R; cbn; lra).
  assert (WW : 0 <= w * w <= 1) by (split; [apply Rle_0_sqr|]; apply Rle_trans with (1 * 1); [apply Rmult_le_compat|]; lra).
  destruct (clip32 lm t2 (fm1 (A := F32 lm)) (f3 (A := F32 lm)) F2 eq_refl eq_refl) as [Fc1 Ec1]. rewrite Fm1, F3 in Ec1.
  destruct (rclip_near (B2R t2) (4 * (w * w) - 1) (-1) 3 ltac:(lra)) as [N1 N2]. rewrite <- Ec1 in N1, N2. split; [exact Fc1|]. split; [|exact N2].
  eapply Rle_trans; [exact N1|]. apply Rabs_le. unfold u in *. lra.
Qed.
(** the real part, away from a half turn *)
Lemma realpart lm (t : f32) (w e : R) : is_finite t = true -> -1 <= B2R t <= 3 -> / 10 <= w <= 1 -> 0 <= e <= 1 / 100000 -> Rabs (B2R t - (4 * (w * w) - 1)) <= 3 * e + 4 / 10000000 ->
  let n := Bmult mode_NE (fhalf (A := F32 lm)) (Bsqrt mode_NE (Bplus mode_NE (f1 (A := F32 lm)) t)) in
  is_finite n = true /\ Rabs (B2R n - w) <= (3 / 4 * e + 4 / 10000000) / w.
Proof.
  intros Ft Bt Hw He Dt. cbv zeta. pose proof eta_tiny as ET. pose proof eta_pos as EP0. assert (U : u = 1 / 16777216) by reflexivity.
  assert (E1 : B2R (f1 (A := F32 lm) : f32) = 1) by apply B2R_f1.
  destruct (plus_ok (f1 (A := F32 lm)) t) as [Fy Ey]; [reflexivity|exact Ft|apply small_127; rewrite E1; apply Rabs_le; lra|]. rewrite E1 in Ey.
  pose proof (rnd_abs (1 + B2R t) 4 ltac:(apply Rabs_le; lra)) as Dy. rewrite <- Ey in Dy. clear Ey. set (y := Bplus mode_NE (f1 (A := F32 lm)) t) in *. clearbody y.
  assert (WW : / 100 <= w * w <= 1) by (split; nra).
  assert (Y : Rabs (B2R y - 4 * (w * w)) <= 3 * e + 64 / 100000000) by (apply Rabs_le_inv in Dy, Dt; rewrite U in *; apply Rabs_le; lra).
  apply Rabs_le_inv in Y. assert (Y0 : 0 < B2R y) by lra.
  destruct (sqrt_ok y Fy Y0) as [Fs Es].
  assert (S0 : 0 <= sqrt (B2R y) <= 9 / 4) by (split; [apply sqrt_pos|]; apply Rsqr_incr_0_var; [|lra]; unfold Rsqr; rewrite sqrt_sqrt by lra; lra).
  pose proof (rnd_abs (sqrt (B2R y)) (9 / 4) ltac:(apply Rabs_le; lra)) as Ds. rewrite <- Es in Ds. clear Es. set (s := Bsqrt mode_NE y) in *. clearbody s.
  assert (I : w * / w = 1) by (apply Rinv_r; lra). assert (K0 : 0 < / w) by (apply Rinv_0_lt_compat; lra). assert (K1 : 1 <= / w) by (rewrite <- Rinv_1; apply Rinv_le; lra). set (k := / w) in *.
  assert (DS : Rabs (sqrt (B2R y) - 2 * w) <= (3 * e + 64 / 100000000) * (k / 2)).
  { pose proof (sqrt_sqrt (B2R y) ltac:(lra)) as SS. set (z := sqrt (B2R y)) in *. assert (X : (z - 2 * w) * (z + 2 * w) = B2R y - 4 * (w * w)) by (rewrite <- SS; ring).
    assert (Z1 : Rabs (z - 2 * w) * (2 * w) <= 3 * e + 64 / 100000000).
    { apply Rle_trans with (Rabs ((z - 2 * w) * (z + 2 * w))); [|rewrite X; apply Rabs_le; lra]. rewrite Rabs_mult. apply Rmult_le_compat_l; [apply Rabs_pos|]. rewrite Rabs_pos_eq; lra. }
    replace (Rabs (z - 2 * w)) with (Rabs (z - 2 * w) * (2 * w) * (k / 2)) by (replace (Rabs (z - 2 * w) * (2 * w) * (k / 2)) with (Rabs (z - 2 * w) * (w * k)) by field; rewrite I; ring).
    apply Rmult_le_compat_r; lra. }
  assert (Hh : B2R (fhalf (A := F32 lm) : f32) = / 2) by (cbn; unfold F2R; cbn; lra).
  assert (Sb : Rabs (B2R s) <= 23 / 10) by (apply Rabs_le_inv in Ds; rewrite U in Ds; apply Rabs_le; lra).
  assert (Pb : Rabs (/ 2 * B2R s) <= 12 / 10) by (apply Rabs_le_inv in Sb; apply Rabs_le; lra).
  destruct (mult_ok (fhalf (A := F32 lm)) s) as [Fn En]; [reflexivity|exact Fs|rewrite Hh; apply small_127; lra|]. rewrite Hh in En. split; [exact Fn|]. rewrite En.
  pose proof (rnd_abs _ _ Pb) as Dn. apply Rabs_le_inv in Dn, Ds, DS. unfold Rdiv. fold k. assert (EK : e <= e * k) by (assert (e * 1 <= e * k) by (apply Rmult_le_compat_l; lra); lra).
  clear - Dn Ds DS U ET K1 EP0. rewrite U in *. apply Rabs_le. lra.
Qed.
(** one component of the vector part *)
Lemma vecpart lm (p m n : f32) (P M w x e : R) : is_finite p = true -> is_finite m = true -> is_finite n = true ->
  Rabs (B2R p - P) <= e -> Rabs (B2R m - M) <= e -> Rabs P <= 1 -> Rabs M <= 1 -> 0 <= e <= 1 / 100000 -> P - M = - (4 * (w * x)) -> Rabs x <= 1 ->
  / 10 <= w <= 1 -> Rabs (B2R n - w) <= (3 / 4 * e + 4 / 10000000) / w ->
  let r := Bdiv mode_NE (Bmult mode_NE (lit (Arith := F32 lm) 1 4) (Bminus mode_NE p m)) n in
  is_finite r = true /\ Rabs (B2R r - - x) <= (14 / 10 * e + 9 / 10000000) / (w * w).
Proof.
  intros Fp Fm Fn Hp Hm BP BM He EX Hx Hw Dn. cbv zeta. pose proof eta_tiny as ET. pose proof eta_pos as EP0. assert (U : u = 1 / 16777216) by reflexivity.
  apply Rabs_le_inv in Hp, Hm, BP, BM.
  destruct (minus_ok p m Fp Fm) as [Fd Ed]; [apply small_127, Rabs_le; lra|]. pose proof (rnd_abs (B2R p - B2R m) (21 / 10) ltac:(apply Rabs_le; lra)) as Dd. rewrite <- Ed in Dd. clear Ed.
  set (d := Bminus mode_NE p m) in *. clearbody d. apply Rabs_le_inv in Dd.
  assert (Hq : B2R (lit (Arith := F32 lm) 1 4 : f32) = / 4) by (cbn; unfold F2R; cbn; lra).
  destruct (mult_ok (lit (Arith := F32 lm) 1 4) d) as [Ff Ef]; [reflexivity|exact Fd|rewrite Hq; apply small_127, Rabs_le; rewrite U in *; lra|]. rewrite Hq in Ef.
  pose proof (rnd_abs (/ 4 * B2R d) (6 / 10) ltac:(apply Rabs_le; rewrite U in *; lra)) as Df. rewrite <- Ef in Df. clear Ef. set (f := Bmult mode_NE (lit (Arith := F32 lm) 1 4) d) in *. clearbody f. apply Rabs_le_inv in Df.
  assert (DF : Rabs (B2R f - - (w * x)) <= / 2 * e + 1 / 10000000) by (rewrite U in *; apply Rabs_le; lra).
  assert (I : w * / w = 1) by (apply Rinv_r; lra). assert (K0 : 0 < / w) by (apply Rinv_0_lt_compat; lra). assert (K1 : 1 <= / w <= 10).
  { split; [rewrite <- Rinv_1; apply Rinv_le; lra|]. replace 10 with (/ / 10) by lra. apply Rinv_le; lra. }
  assert (EW : / (w * w) = / w * / w) by (apply Rinv_mult_distr; lra). unfold Rdiv. rewrite EW. unfold Rdiv in Dn. set (k := / w) in *. clearbody k. clear EW.
  assert (NW : Rabs (B2R n - w) <= / 100 * w).
  { eapply Rle_trans; [exact Dn|]. assert (0 <= w * (k - 1)) by (apply Rmult_le_pos; lra). assert ((3 * / 4 * e + 4 * / 10000000) * k <= 1 / 100000 * 10) by (apply Rmult_le_compat; lra). lra. }
  apply Rabs_le_inv in NW. assert (N0 : 0 < B2R n) by lra. assert (J : B2R n * / B2R n = 1) by (apply Rinv_r; lra). assert (J0 : 0 < / B2R n) by (apply Rinv_0_lt_compat; lra).
  set (j := / B2R n) in *. assert (JK : j <= 102 / 100 * k).
  { apply Rmult_le_reg_l with (B2R n); [lra|]. rewrite J. assert (99 / 100 * (w * k) <= B2R n * k) by (rewrite <- Rmult_assoc; apply Rmult_le_compat_r; lra). lra. }
  assert (Q : Rabs (B2R f * j - - x) <= (5 / 4 * e + 5 / 10000000) * (102 / 100) * (k * k)).
  { replace (B2R f * j - - x) with (((B2R f - - (w * x)) + x * (B2R n - w)) * j) by (replace (((B2R f - - (w * x)) + x * (B2R n - w)) * j) with (B2R f * j + x * (B2R n * j)) by ring; rewrite J; ring).
    rewrite Rabs_mult, (Rabs_pos_eq j) by lra.
    assert (X1 : Rabs (x * (B2R n - w)) <= 1 * ((3 * / 4 * e + 4 * / 10000000) * k)) by (rewrite Rabs_mult; apply Rmult_le_compat; auto using Rabs_pos).
    assert (EK : e * 1 <= e * k) by (apply Rmult_le_compat_l; lra).
    assert (X2 : Rabs (B2R f - - (w * x) + x * (B2R n - w)) <= (5 / 4 * e + 5 / 10000000) * k) by (eapply Rle_trans; [apply Rabs_triang|]; lra).
    replace ((5 / 4 * e + 5 / 10000000) * (102 / 100) * (k * k)) with (((5 / 4 * e + 5 / 10000000) * k) * (102 / 100 * k)) by ring. apply Rmult_le_compat; try apply Rabs_pos; lra. }
  assert (KK : 1 <= k * k <= 100) by (split; [apply Rle_trans with (1 * 1)|apply Rle_trans with (10 * 10)]; try lra; apply Rmult_le_compat; lra).
  assert (EKK : 0 <= e * (k * k) <= 1 / 1000) by (split; [apply Rmult_le_pos; lra|apply Rle_trans with (1 / 100000 * 100); [apply Rmult_le_compat; lra|lra]]).
  assert (Qb : Rabs (B2R f * j) <= 11 / 10).
  { replace (B2R f * j) with ((B2R f * j - - x) + - x) by ring. eapply Rle_trans; [apply Rabs_triang|]. rewrite Rabs_Ropp. lra. }
  destruct (div_ok f n Ff) as [Fr Er]; [lra|unfold Rdiv; fold j; apply small_127; lra|]. split; [exact Fr|]. rewrite Er. unfold Rdiv. fold j.
  pose proof (rnd_abs _ _ Qb) as Dr. replace (rnd32 (B2R f * j) - - x) with ((rnd32 (B2R f * j) - B2R f * j) + (B2R f * j - - x)) by ring.
  eapply Rle_trans; [apply Rabs_triang|]. rewrite U in Dr. lra.
Qed.

(*@ C77_hughes *)
(** C77: q is a unit quaternion with w >= 1/10 and 1 - w^2 >= 5e-5 (more than 0.82 degrees from the identity), and an f32 matrix
    is within e of its rotation matrix in every cell (e up to 1e-5): [hughes] succeeds and the result is within
    (3 e + 2e-6) / w^2 of the conjugate of q, that is of the inverse rotation *)
Lemma l_hughes32 :
  forall (lm : Libm) (dcm : Mat (T (Arith := F32 lm))) (qv : Vec (T (Arith := F32 lm))) (a : nat -> nat -> R) (s : nat -> R) (q : quat) (e : R),
  mat_f dcm 3 3 a -> vec_f qv 4 s -> unitq q -> / 10 <= Qw q -> 5 / 100000 <= 1 - Qw q * Qw q ->
  (forall i j, (i < 3)%nat -> (j < 3)%nat -> Rabs (a i j - rotmat q i j) <= e) -> e <= 1 / 100000 ->
  exists v r, q_hughes dcm qv = (v, Ok tt) /\ quat_f v r /\ qdist r (qconj q) <= (3 * e + 2 / 1000000) / (Qw q * Qw q).
Proof.
  intros lm dcm qv a s q e (F & Hd & Ea) (fs & Hv & _) U Hw Hi He Be.
  assert (E0 : 0 <= e) by (eapply Rle_trans; [apply Rabs_pos|apply (He 0%nat 0%nat); lia]).
  assert (FF : forall i j, (i < 3)%nat -> (j < 3)%nat -> is_finite (F i j : f32) = true) by (intros i j Hi' Hj; apply (valid_finite lm); eapply mat_is_valid; eauto).
  assert (HE : forall i j, (i < 3)%nat -> (j < 3)%nat -> Rabs (B2R (F i j : f32) - rotmat q i j) <= e) by (intros i j Hi' Hj; rewrite Ea by auto; auto).
  destruct (rot_cells q U) as ((R0 & R1 & R2) & S0 & S1 & S2). pose proof (fun i j => rot_abs q i j U) as RA.
  assert (U1 : Qw q * Qw q + Qx q * Qx q + Qy q * Qy q + Qz q * Qz q = 1) by exact U.
  pose proof (Rle_0_sqr (Qx q)) as X0. pose proof (Rle_0_sqr (Qy q)) as Y0. pose proof (Rle_0_sqr (Qz q)) as Z0. pose proof (Rle_0_sqr (Qw q)) as W0. unfold Rsqr in *.
  assert (C1 : forall t, 0 <= t * t <= 1 -> Rabs t <= 1) by (intros t Ht; apply Rabs_le; split; nra).
  assert (W1 : Qw q <= 1) by (pose proof (C1 (Qw q) ltac:(lra)) as K; apply Rabs_le_inv in K; lra).
  destruct (trace32 lm (F 0 0)%nat (F 1 1)%nat (F 2 2)%nat (rotmat q 0 0) (rotmat q 1 1) (rotmat q 2 2) (Qw q) e) as (Ft & Dt & Bt);
    try (apply FF; lia); try (apply HE; lia); try (apply RA; lia); try lra.
  cbv zeta in Ft, Dt, Bt. cbn [fsum nth] in Ft, Dt, Bt.
  match type of Ft with is_finite ?k = true => set (t := k : f32) in * end.
  destruct (realpart lm t (Qw q) e Ft Bt ltac:(lra) ltac:(lra) Dt) as [Fn Dn]. set (n := Bmult mode_NE (fhalf (A := F32 lm)) (Bsqrt mode_NE (Bplus mode_NE (f1 (A := F32 lm)) t))) in *.
  destruct (vecpart lm (F 1 2)%nat (F 2 1)%nat n (rotmat q 1 2) (rotmat q 2 1) (Qw q) (Qx q) e) as [Fx Dx]; try (apply FF; lia); try (apply HE; lia); try (apply RA; lia); try exact Fn; try exact Dn; try lra; [apply C1; lra|].
  destruct (vecpart lm (F 2 0)%nat (F 0 2)%nat n (rotmat q 2 0) (rotmat q 0 2) (Qw q) (Qy q) e) as [Fy Dy]; try (apply FF; lia); try (apply HE; lia); try (apply RA; lia); try exact Fn; try exact Dn; try lra; [apply C1; lra|].
  destruct (vecpart lm (F 0 1)%nat (F 1 0)%nat n (rotmat q 0 1) (rotmat q 1 0) (Qw q) (Qz q) e) as [Fz Dz]; try (apply FF; lia); try (apply HE; lia); try (apply RA; lia); try exact Fn; try exact Dn; try lra; [apply C1; lra|].
  assert (F3 : B2R (f3 (A := F32 lm) : f32) = 3) by (cbn; unfold F2R; cbn; lra).
  assert (Z3 : B2R (f0 (A := F32 lm) : f32) = 0) by reflexivity.
  apply Rabs_le_inv in Dt.
  destruct (near3 lm t (f3 (A := F32 lm)) 3 Ft eq_refl F3 ltac:(apply Rabs_le; lra) ltac:(apply Rabs_le; lra)) as [_ T3].
  assert (K1 : 1 <= / (Qw q) <= 10) by (split; [rewrite <- Rinv_1; apply Rinv_le; lra|replace 10 with (/ / 10) by lra; apply Rinv_le; lra]).
  assert (DN : Rabs (B2R n - Qw q) <= 1 / 1000).
  { eapply Rle_trans; [exact Dn|]. unfold Rdiv at 1. apply Rle_trans with ((1 / 100000) * 10); [apply Rmult_le_compat; lra|lra]. }
  apply Rabs_le_inv in DN.
  destruct (near3 lm n (f0 (A := F32 lm)) 0 Fn eq_refl Z3 ltac:(apply Rabs_le; lra) ltac:(rewrite Rabs_R0; lra)) as [_ TZ].
  destruct (allclose_ok (A := F32 lm) t f3 EPSILON) as (b1 & Eb1 & Hb1); [apply (valid_finite lm), Ft|split; reflexivity|].
  assert (b1 = false) as -> by (destruct b1; [|reflexivity]; exfalso; destruct Hb1 as [Hb1 _]; specialize (T3 (Hb1 eq_refl)); apply Rabs_le_inv in T3; lra).
  destruct (allclose_ok (A := F32 lm) n f0 EPSILON) as (b2 & Eb2 & Hb2); [apply (valid_finite lm), Fn|split; reflexivity|].
  assert (b2 = false) as -> by (destruct b2; [|reflexivity]; exfalso; destruct Hb2 as [Hb2 _]; specialize (TZ (Hb2 eq_refl)); apply Rabs_le_inv in TZ; lra).
  destruct (set4_ok (A := F32 lm) qv _ (n : T (Arith := F32 lm)) (Bdiv mode_NE (Bmult mode_NE (lit (Arith := F32 lm) 1 4) (Bminus mode_NE (F 1 2)%nat (F 2 1)%nat)) n)
      (Bdiv mode_NE (Bmult mode_NE (lit (Arith := F32 lm) 1 4) (Bminus mode_NE (F 2 0)%nat (F 0 2)%nat)) n) (Bdiv mode_NE (Bmult mode_NE (lit (Arith := F32 lm) 1 4) (Bminus mode_NE (F 0 1)%nat (F 1 0)%nat)) n) Hv) as (v' & E & H'); try (apply (valid_finite lm); assumption).
  exists v'. eexists. split; [|split].
  - unfold q_hughes. rewrite guard_bind by (unfold reads; rewrite (q_guard_ok _ _ Hv); reflexivity).
    erewrite sbind_ok by (apply lift_ok; apply (l_trace _ _ _ _ _ Hd)). cbn [fsum nth]. cbv zeta.
    erewrite sbind_ok by (apply lift_ok; exact Eb1). cbv iota.
    erewrite sbind_ok by (apply lift_ok; exact Eb2). cbv iota.
    erewrite sbind_ok by (do 6 (erewrite sbind_ok by (apply lift_ok; apply (mi_get _ _ _ _ Hd); lia)); reflexivity). cbv iota. exact E.
  - apply quat_f_of. exact H'.
  - assert (WI : / (Qw q * Qw q) = / Qw q * / Qw q) by (apply Rinv_mult_distr; lra). unfold Rdiv in *. rewrite WI in *. set (k := / Qw q) in *. clearbody k.
    assert (KK : k <= k * k) by (assert (1 * k <= k * k) by (apply Rmult_le_compat_r; lra); lra). assert (EK : e * k <= e * (k * k)) by (apply Rmult_le_compat_l; lra). assert (0 <= e * k) by (apply Rmult_le_pos; lra).
    eapply Rle_trans; [apply qdist_comp with (e := (14 * / 10 * e + 9 * / 10000000) * (k * k))|lra]; cbn [quad Qw Qx Qy Qz qconj]; auto.
    eapply Rle_trans; [exact Dn|]. lra.
Qed.

(*@ C77_round_trip *)
(** C77: so, for an f32 quaternion of norm 1 within 1e-6 whose direction satisfies the same conditions, the way to the rotation
    matrix and back with [hughes] ends within 2.1e-5 / w^2 of the conjugate *)
Lemma l_hughes32_trip :
  forall (lm : Libm) (v qv : Vec (T (Arith := F32 lm))) (q : quat) (s : nat -> R),
  quat_f v q -> Rabs (qnorm q - 1) <= / 1000000 -> vec_f qv 4 s ->
  / 10 <= Qw (qunit q) -> 5 / 100000 <= 1 - Qw (qunit q) * Qw (qunit q) ->
  exists dcm v' r, q_convert_to_dcm v = Ok dcm /\ q_hughes dcm qv = (v', Ok tt) /\ quat_f v' r /\
    qdist r (qconj (qunit q)) <= 21 / 1000000 / (Qw (qunit q) * Qw (qunit q)).
Proof.
  intros lm v qv q s Hv HN Hs Hw Hi.
  destruct (l_dcm32 lm v q (/ 1000000) Hv HN ltac:(lra)) as (m & a & Em & Ha & _ & Da).
  assert (U : unitq (qunit q)) by (apply qunit_unit; apply Rabs_le_inv in HN; lra).
  destruct (l_hughes32 lm m qv a s (qunit q) (6 / 1000000)) as (v' & r & E & Hr & D); auto; [|lra|].
  { intros i j Hi' Hj. eapply Rle_trans; [apply Da; auto|]. lra. }
  exists m, v', r. split; [exact Em|]. split; [exact E|]. split; [exact Hr|]. eapply Rle_trans; [exact D|].
  assert (0 < / (Qw (qunit q) * Qw (qunit q))) by (apply Rinv_0_lt_compat, Rmult_lt_0_compat; lra). unfold Rdiv. lra.
Qed.

(*@ C77_lost *)
(** C77, violation for a whole class: 1 - w^2 <= 1.8e-5 (up to 0.48 degrees from the identity) and cells off by at most 5e-6:
    [hughes] returns exactly the identity *)
Lemma l_hughes32_lost :
  forall (lm : Libm) (dcm : Mat (T (Arith := F32 lm))) (qv : Vec (T (Arith := F32 lm))) (a : nat -> nat -> R) (s : nat -> R) (q : quat) (e : R),
  mat_f dcm 3 3 a -> vec_f qv 4 s -> unitq q -> 1 - Qw q * Qw q <= 18 / 1000000 ->
  (forall i j, (i < 3)%nat -> (j < 3)%nat -> Rabs (a i j - rotmat q i j) <= e) -> e <= 5 / 1000000 ->
  exists v, q_hughes dcm qv = (v, Ok tt) /\ quat_f v qone.
Proof.
  intros lm dcm qv a s q e (F & Hd & Ea) (fs & Hv & _) U Hi He Be.
  assert (E0 : 0 <= e) by (eapply Rle_trans; [apply Rabs_pos|apply (He 0%nat 0%nat); lia]).
  assert (FF : forall i j, (i < 3)%nat -> (j < 3)%nat -> is_finite (F i j : f32) = true) by (intros i j Hi' Hj; apply (valid_finite lm); eapply mat_is_valid; eauto).
  assert (HE : forall i j, (i < 3)%nat -> (j < 3)%nat -> Rabs (B2R (F i j : f32) - rotmat q i j) <= e) by (intros i j Hi' Hj; rewrite Ea by auto; auto).
  destruct (rot_cells q U) as ((R0 & R1 & R2) & _). pose proof (fun i j => rot_abs q i j U) as RA.
  assert (U1 : Qw q * Qw q + Qx q * Qx q + Qy q * Qy q + Qz q * Qz q = 1) by exact U.
  pose proof (Rle_0_sqr (Qx q)) as X0. pose proof (Rle_0_sqr (Qy q)) as Y0. pose proof (Rle_0_sqr (Qz q)) as Z0. pose proof (Rle_0_sqr (Qw q)) as W0. unfold Rsqr in *.
  assert (AW : Rabs (Qw q) * Rabs (Qw q) = Qw q * Qw q) by (unfold Rabs; destruct (Rcase_abs (Qw q)); ring).
  assert (W1 : 0 <= Rabs (Qw q) <= 1) by (split; [apply Rabs_pos|]; apply Rabs_le; split; nra).
  destruct (trace32 lm (F 0 0)%nat (F 1 1)%nat (F 2 2)%nat (rotmat q 0 0) (rotmat q 1 1) (rotmat q 2 2) (Rabs (Qw q)) e) as (Ft & Dt & Bt);
    try (apply FF; lia); try (apply HE; lia); try (apply RA; lia); try lra.
  cbv zeta in Ft, Dt, Bt. cbn [fsum nth] in Ft, Dt, Bt. rewrite AW in Dt.
  match type of Ft with is_finite ?k = true => set (t := k : f32) in * end. apply Rabs_le_inv in Dt.
  assert (F3 : B2R (f3 (A := F32 lm) : f32) = 3) by (cbn; unfold F2R; cbn; lra).
  destruct (near3 lm t (f3 (A := F32 lm)) 3 Ft eq_refl F3 ltac:(apply Rabs_le; lra) ltac:(apply Rabs_le; lra)) as [T3 _].
  destruct (allclose_ok (A := F32 lm) t f3 EPSILON) as (b1 & Eb1 & Hb1); [apply (valid_finite lm), Ft|split; reflexivity|].
  assert (b1 = true) as -> by (apply Hb1, T3, Rabs_le; lra).
  destruct (q_fillq_ok (A := F32 lm) qv _ f1 f0 f0 f0 Hv) as (v' & E & H'); try (split; reflexivity).
  exists v'. split.
  - unfold q_hughes. rewrite guard_bind by (unfold reads; rewrite (q_guard_ok _ _ Hv); reflexivity).
    erewrite sbind_ok by (apply lift_ok; apply (l_trace _ _ _ _ _ Hd)). cbn [fsum nth]. cbv zeta.
    erewrite sbind_ok by (apply lift_ok; exact Eb1). cbv iota. exact E.
  - eexists. split; [exact H'|]. intros i Hi'. destruct i as [|[|[|[|i]]]]; [apply B2R_f1|reflexivity|reflexivity|reflexivity|lia].
Qed.

(** ** Witness and example *)
From Verif Require Import P_Euler32.
Lemma halves_unit : unitq (Quat (/ 2) (/ 2) (/ 2) (/ 2)).
Proof. unfold unitq, qnorm2. cbn. lra. Qed.
Lemma halves_qunit : qunit (Quat (/ 2) (/ 2) (/ 2) (/ 2)) = Quat (/ 2) (/ 2) (/ 2) (/ 2) /\ qnorm (Quat (/ 2) (/ 2) (/ 2) (/ 2)) = 1.
Proof.
  assert (N : qnorm (Quat (/ 2) (/ 2) (/ 2) (/ 2)) = 1) by (unfold qnorm; rewrite halves_unit; apply sqrt_1).
  split; [|exact N]. unfold qunit. rewrite N, Rinv_1. unfold qscale. cbn. f_equal; ring.
Qed.

(*@ C77_conjugate_refuted *)
(** C77, violation, every libm: the rotation by 120 degrees about (1,1,1) comes back from its own matrix as another rotation *)
Lemma l_hughes32_w :
  forall (lm : Libm), exists (v v' : Vec (T (Arith := F32 lm))) (dcm : Mat (T (Arith := F32 lm))) (q r : quat),
  quat_f v q /\ unitq q /\ q_convert_to_dcm v = Ok dcm /\ q_hughes dcm v = (v', Ok tt) /\ quat_f v' r /\
  9 / 10 <= qdist r q /\ 9 / 10 <= qdist r (qneg q).
Proof.
  intros lm. pose proof (halves_quat lm) as Q. destruct halves_qunit as [HU HN]. set (q := Quat (/ 2) (/ 2) (/ 2) (/ 2)) in *.
  destruct (l_hughes32_trip lm _ _ q _ Q ltac:(rewrite HN, Rminus_diag_eq, Rabs_R0 by reflexivity; lra) Q) as (m & v' & r & Em & E & Hr & D); [rewrite HU; cbn; lra|rewrite HU; cbn; lra|].
  rewrite HU in D. exists (mk_vec (A := F32 lm) halves), v', m, q, r. split; [exact Q|]. split; [exact halves_unit|]. split; [exact Em|]. split; [exact E|]. split; [exact Hr|].
  assert (D1 : qdist r (qconj q) <= 1 / 1000) by (eapply Rle_trans; [exact D|]; cbn [q Qw]; lra).
  assert (A1 : 1 <= qdist (qconj q) q) by (unfold qdist, qnorm; rewrite <- sqrt_1 at 1; apply sqrt_le_1_alt; unfold qnorm2, qsub, q; cbn; lra).
  assert (A2 : 1 <= qdist (qconj q) (qneg q)) by (unfold qdist, qnorm; rewrite <- sqrt_1 at 1; apply sqrt_le_1_alt; unfold qnorm2, qsub, q; cbn; lra).
  pose proof (qdist_tri (qconj q) r q) as T1. pose proof (qdist_tri (qconj q) r (qneg q)) as T2. rewrite (qdist_sym (qconj q) r) in T1, T2. lra.
Qed.

(*@ example *)
Example C77_example :
  let q := Quat (/ 2) (/ 2) (/ 2) (/ 2) in
  unitq q /\ / 10 <= Qw q /\ 5 / 100000 <= 1 - Qw q * Qw q /\ 1 - Qw qone * Qw qone <= 18 / 1000000.
Proof. unfold unitq, qnorm2. cbn. lra. Qed.
