(** C67: the attitude of the Aqua filter in mode AM against the true attitude, in f32. *)
(*@+*)
From Coq Require Import List Arith ZArith NArith Reals Lia Bool Lra SpecFloat.
From Flocq Require Import Core BinarySingleNaN.
From Verif Require Import M_Base M_Arith M_Utils M_Vector M_Matrix M_Quaternion M_Sensors M_Ar M_Aqua M_F32
  S_Spec S_Linalg S_Norm S_Quat S_Sensors S_Ar S_Aqua S_F32 S_Reading S_Rest P_Inst P_InstF.
Import ListNotations.
Local Open Scope R_scope.
(*@-*)
From Coq Require Import Psatz.
From Verif Require Import P_Float P_Norm P_FErr P_Norm32 P_Quat P_Rot P_Aqua P_AquaR P_AquaM P_FAcc P_F32Mul P_F32Rot P_F32App P_F32Am P_AmGeo P_Am32 P_RestGeo P_MargRun P_RestF P_Rest32.

Lemma tilt_of E d : unitq E -> vdist 3 (qrot E (triple 0 0 (-1))) (triple 0 0 (-1)) <= d -> 2 * tx E <= d.
Proof.
  intros U H. pose proof (vdist_pos (qrot E (triple 0 0 (-1))) (triple 0 0 (-1))) as P. apply Rle_trans with (vdist 3 (qrot E (triple 0 0 (-1))) (triple 0 0 (-1))); [|exact H].
  apply le_sqrt_of; [exact P|]. unfold vdist. rewrite rnorm_sqr. unfold rdot. cbn [Rsum]. pose proof (grav E 1) as G. cbv zeta in G. replace (- (1)) with (-1) in G by ring. destruct G as (G0 & G1 & G2). rewrite G0, G1, G2. cbn [triple].
  assert (TS : Qx E * Qx E + Qy E * Qy E = tx E * tx E) by (rewrite tx_norm, qnorm_sqr; unfold qnorm2; cbn [Qw Qx Qy Qz]; ring).
  pose proof (unit_comp E U) as UC. right.
  replace (2 * tx E * (2 * tx E)) with (4 * (tx E * tx E)) by ring. rewrite <- TS.
  set (w := Qw E) in *. set (x := Qx E) in *. set (y := Qy E) in *. set (z := Qz E) in *.
  assert (A : (x * z + w * y) * (x * z + w * y) + (y * z - w * x) * (y * z - w * x) = (x * x + y * y) * (w * w + z * z)) by ring.
  replace (w * w - x * x - y * y + z * z) with (1 - 2 * (x * x + y * y)) by lra.
  set (S := x * x + y * y) in *. replace (w * w + z * z) with (1 - S) in A by (unfold S; lra).
  transitivity (4 * ((x * z + w * y) * (x * z + w * y) + (y * z - w * x) * (y * z - w * x)) + 4 * S * S); [rewrite A; ring|ring].
Qed.
Lemma circ_head w s h rho : 0 < h -> w * w + s * s = 1 -> Rabs (h * (2 * (w * s))) <= rho -> - rho <= h * (w * w - s * s) -> rho <= 1 / 3 * h -> Rabs s <= 51 / 100 * (rho / h).
Proof.
  intros Hh U H1 H2 HR. set (k := rho / h). assert (EK : rho = k * h) by (unfold k; field; lra). rewrite EK in *.
  assert (K3 : k <= 1 / 3) by (apply (Rmult_le_reg_r h); lra).
  assert (A1 : Rabs (2 * (w * s)) <= k). { rewrite Rabs_mult, (Rabs_pos_eq h) in H1 by lra. apply (Rmult_le_reg_r h); lra. }
  assert (A2 : - k <= w * w - s * s) by (apply (Rmult_le_reg_r h); lra).
  pose proof (Rabs_pos (2 * (w * s))) as P. assert (Q : Rabs (2 * (w * s)) * Rabs (2 * (w * s)) <= 1 / 9) by nra. rewrite <- Rabs_mult, Rabs_pos_eq in Q by apply sqr_pos.
  set (c := w * w - s * s) in *. assert (C2 : c * c + 2 * (w * s) * (2 * (w * s)) = 1) by (replace 1 with ((w * w + s * s) * (w * w + s * s)) by (rewrite U; ring); unfold c; ring).
  assert (C : 942 / 1000 <= c) by nra. assert (W : 985 / 1000 <= Rabs w). { apply le_sqrt_of; [apply Rabs_pos|]. rewrite <- Rabs_mult, Rabs_pos_eq by apply sqr_pos. unfold c in C. lra. }
  rewrite !Rabs_mult, (Rabs_pos_eq 2) in A1 by lra. pose proof (Rabs_pos s) as S0. nra.
Qed.
Lemma heading_of E h v b mu e1 : unitq E -> tx E <= 1 / 5 -> 0 < h -> h * h + v * v = 1 -> vdist 3 b (qrot E (triple h 0 v)) <= mu ->
  Rabs (b 1%nat) <= e1 -> 0 < b 0%nat -> mu + 204 / 100 * tx E + e1 <= 1 / 3 * h -> hz E <= 51 / 100 * ((mu + 204 / 100 * tx E + e1) / h).
Proof.
  intros U HT Hh HV HB B1 B0 HR. destruct (flat_close E U HT) as (UZ & DZ & NF). set (z := qunit (flat E)) in *.
  assert (X0 : Qx z = 0 /\ Qy z = 0) by (unfold z, qunit, qscale, flat; cbn [Qx Qy]; split; ring). destruct X0 as [X0 Y0].
  pose proof (unit_comp _ UZ) as UC. rewrite X0, Y0 in UC.
  assert (EZ : z = Quat (Qw z) 0 0 (Qz z)) by (apply quat_eta; cbn [Qw Qx Qy Qz]; auto). destruct (level_field (Qw z) (Qz z) h v) as [L0 L1]. rewrite <- EZ in L0, L1.
  assert (NV : rnorm 3 (triple h 0 v) <= 1) by (apply le_sqrt_of; [lra|]; rewrite rnorm_sqr; unfold rdot; cbn [Rsum triple]; lra).
  pose proof (tx_pos E) as T0. pose proof (rnorm_pos 3 (triple h 0 v)) as NV0.
  assert (DD : vdist 3 (qrot E (triple h 0 v)) (qrot z (triple h 0 v)) <= 204 / 100 * tx E).
  { eapply Rle_trans; [apply (qrot_close E z (triple h 0 v) U UZ)|]. pose proof (qdist_pos E z). nra. }
  assert (TT : vdist 3 b (qrot z (triple h 0 v)) <= mu + 204 / 100 * tx E) by (eapply Rle_trans; [apply (vdist_tri _ (qrot E (triple h 0 v)))|]; lra).
  pose proof (vdist_comp b (qrot z (triple h 0 v)) 0 ltac:(lia)) as C0. pose proof (vdist_comp b (qrot z (triple h 0 v)) 1 ltac:(lia)) as C1. rewrite L0 in C0. rewrite L1 in C1.
  unfold hz. fold z. set (w := Qw z) in *. set (s := Qz z) in *. set (rho := mu + 204 / 100 * tx E + e1) in *.
  apply Rabs_le_inv in C0. apply Rabs_le_inv in C1. apply Rabs_le_inv in B1. apply (circ_head w s h rho); try lra; [apply Rabs_le|]; unfold rho; unfold rho in *; lra.
Qed.
Lemma rnorm_scale k x : rnorm 3 (fun i => k * x i) = Rabs k * rnorm 3 x.
Proof.
  pose proof (rnorm_pos 3 x) as P. pose proof (rnorm_pos 3 (fun i => k * x i)) as P2. pose proof (Rabs_pos k) as K.
  assert (S : rnorm 3 (fun i => k * x i) * rnorm 3 (fun i => k * x i) = Rabs k * rnorm 3 x * (Rabs k * rnorm 3 x)).
  { replace (Rabs k * rnorm 3 x * (Rabs k * rnorm 3 x)) with (Rabs k * Rabs k * (rnorm 3 x * rnorm 3 x)) by ring. rewrite <- Rabs_mult, Rabs_pos_eq by apply sqr_pos. rewrite !rnorm_sqr. unfold rdot. cbn [Rsum]. ring. }
  apply Rle_antisym; apply le_sqrt_of; try lra. apply Rmult_le_pos; lra.
Qed.
Lemma rdot_cs x y : rdot 3 x y * rdot 3 x y <= rdot 3 x x * rdot 3 y y.
Proof.
  unfold rdot. cbn [Rsum]. pose proof (sqr_pos (x 0%nat * y 1%nat - x 1%nat * y 0%nat)). pose proof (sqr_pos (x 0%nat * y 2%nat - x 2%nat * y 0%nat)). pose proof (sqr_pos (x 1%nat * y 2%nat - x 2%nat * y 1%nat)). lra.
Qed.
(** the field stays off the vertical *)
Lemma off_vertical a m g f h d e : rnorm 3 a = 1 -> rnorm 3 m = 1 -> rnorm 3 g = 1 -> rnorm 3 f = 1 -> 0 <= h -> h * h <= 1 - rdot 3 g f * rdot 3 g f ->
  vdist 3 a g <= d -> vdist 3 m f <= e -> d + e <= h -> (h - d - e) * (h - d - e) <= 1 - rdot 3 a m * rdot 3 a m.
Proof.
  intros Na Nm Ng Nf Hh HV Da De HD. set (c := rdot 3 a m).
  pose proof (rnorm_sqr 3 a) as Sa. pose proof (rnorm_sqr 3 m) as Sm. rewrite Na in Sa. rewrite Nm in Sm.
  assert (C1 : Rabs c <= 1).
  { apply le_sqrt_of; [lra|]. rewrite <- Rabs_mult, Rabs_pos_eq by apply sqr_pos. pose proof (rdot_cs a m) as CS. fold c in CS. rewrite <- Sa, <- Sm in CS. lra. }
  assert (E : vdist 3 m (fun i => c * a i) * vdist 3 m (fun i => c * a i) = 1 - c * c).
  { unfold vdist. rewrite rnorm_sqr.
    assert (G : forall k, rdot 3 (fun i => m i - k * a i) (fun i => m i - k * a i) = rdot 3 m m - 2 * k * rdot 3 a m + k * k * rdot 3 a a) by (intros k; unfold rdot; cbn [Rsum]; ring).
    rewrite G, <- Sa, <- Sm. fold c. ring. }
  assert (O : h <= vdist 3 f (fun i => c * g i)) by (apply off_line; auto).
  assert (S1 : vdist 3 (fun i => c * a i) (fun i => c * g i) <= d).
  { apply Rle_trans with (Rabs c * vdist 3 a g); [|pose proof (vdist_pos a g); pose proof (Rabs_pos c); nra].
    right. unfold vdist. rewrite <- rnorm_scale. apply rnorm_ext. intros i Hi. ring. }
  pose proof (vdist_tri f m (fun i => c * g i)) as T1. pose proof (vdist_tri m (fun i => c * a i) (fun i => c * g i)) as T2. rewrite (vdist_sym f m) in T1.
  rewrite <- E. apply Rmult_le_compat; lra.
Qed.

(*@ C67_accuracy *)
(** C67: in f32, for every true attitude t, an update in mode AM from a measured acceleration within eta of straight
    down and a measured field within mu of the true one yields an attitude whose tilt error is at most eta/2 + 15e-6
    and whose heading error is at most half of (mu + 1.02 eta + 14e-5) / h, where h is the horizontal part of the field *)
Lemma l_am_true :
  forall (lm : Libm) (s : Aqua (A := F32 lm)) (ca cm : Config (A := F32 lm)) (gx gy gz : option (T (Arith := F32 lm)))
    (ax ay az mx my mz : T (Arith := F32 lm)) (a m : nat -> R) (t : quat) (h v eta mu : R),
  aq_hist s Live -> aq_mode s = AM -> aq_get_accelerometer_config s = Ok ca -> aq_get_magnetometer_config s = Ok cm ->
  reading Acc ca ax ay az a -> reading Mag cm mx my mz m ->
  2 * eps <= rnorm 3 a <= bpow radix2 60 -> 2 * eps <= rnorm 3 m <= bpow radix2 60 ->
  unitq t -> 2 / 1000 <= h -> h * h + v * v = 1 ->
  vdist 3 (fun i => a i / rnorm 3 a) (qrot t (triple 0 0 (-1))) <= eta ->
  vdist 3 (fun i => m i / rnorm 3 m) (qrot t (triple h 0 v)) <= mu ->
  let rho := mu + 102 / 100 * eta + 14 / 100000 in rho <= 1 / 3 * h ->
  exists s' w q, aq_update gx gy gz ax ay az mx my mz s = (s', Ok tt) /\ aq_get_attitude s' = Ok w /\ quat_f w q /\
    Rabs (qnorm q - 1) < / 1000000 /\ tilt_error q t <= eta / 2 + 15 / 1000000 /\ heading_error q t <= 51 / 100 * (rho / h).
Proof.
  intros lm s ca cm gx gy gz ax ay az mx my mz a m t h v eta mu HH EM Hca Hcm RA RM Na Nm Ut Hh HV HA HM rho HR.
  assert (eta0 : 0 <= eta) by (eapply Rle_trans; [apply vdist_pos|exact HA]). assert (mu0 : 0 <= mu) by (eapply Rle_trans; [apply vdist_pos|exact HM]).
  set (NA := rnorm 3 a) in *. set (NM := rnorm 3 m) in *. assert (PA : 0 < NA) by (unfold eps in *; lra). assert (PM : 0 < NM) by (unfold eps in *; lra). assert (h1 : h <= 1) by nra.
  assert (UA : rnorm 3 (fun i => a i / NA) = 1).
  { rewrite (rnorm_ext 3 _ (fun i => / NA * a i)) by (intros; unfold Rdiv; ring). rewrite rnorm_scale, Rabs_pos_eq by (left; apply Rinv_0_lt_compat; lra). fold NA. field. lra. }
  assert (UM : rnorm 3 (fun i => m i / NM) = 1).
  { rewrite (rnorm_ext 3 _ (fun i => / NM * m i)) by (intros; unfold Rdiv; ring). rewrite rnorm_scale, Rabs_pos_eq by (left; apply Rinv_0_lt_compat; lra). fold NM. field. lra. }
  assert (GD : rdot 3 (qrot t (triple 0 0 (-1))) (qrot t (triple h 0 v)) = - v) by (assert (CC : t = qconj (qconj t)) by (destruct t; unfold qconj; cbn; f_equal; ring); rewrite CC, qrot_dot by (apply conj_unit, Ut); unfold rdot; cbn [Rsum triple]; ring).
  assert (OFF : (h - eta - mu) * (h - eta - mu) <= 1 - rdot 3 (fun i => a i / NA) (fun i => m i / NM) * rdot 3 (fun i => a i / NA) (fun i => m i / NM)).
  { apply (off_vertical _ _ (qrot t (triple 0 0 (-1))) (qrot t (triple h 0 v))); auto; try (rewrite qrot_len by exact Ut; apply norm_tri; lra); try lra.
    - rewrite GD. lra.
    - unfold rho in HR. lra. }
  assert (ED : rdot 3 (fun i => a i / NA) (fun i => m i / NM) = rdot 3 a m / (NA * NM)) by (unfold rdot; cbn [Rsum]; field; lra). rewrite ED in OFF.
  pose proof (rnorm_sqr 3 a) as SA. pose proof (rnorm_sqr 3 m) as SM. fold NA in SA. fold NM in SM.
  assert (HO : / 1000 * / 1000 * (rdot 3 a a * rdot 3 m m) <= rdot 3 a a * rdot 3 m m - rdot 3 a m * rdot 3 a m).
  { rewrite <- SA, <- SM. set (c := rdot 3 a m) in *.
    assert (B : / 1000 * / 1000 <= 1 - c / (NA * NM) * (c / (NA * NM))) by (eapply Rle_trans; [|exact OFF]; apply Rmult_le_compat; unfold rho in HR; lra).
    apply Rle_trans with ((1 - c / (NA * NM) * (c / (NA * NM))) * (NA * NA * (NM * NM))).
    - apply Rmult_le_compat_r; [apply Rmult_le_pos; apply sqr_pos|exact B].
    - right. field. lra. }
  destruct (l_am32 lm s ca cm gx gy gz ax ay az mx my mz a m HH EM Hca Hcm RA RM Na Nm HO) as (s' & w & q & E1 & E2 & E3 & E4 & D1 & D2 & D3). fold NA in D1. fold NM in D2.
  exists s', w, q. split; [exact E1|]. split; [exact E2|]. split; [exact E3|]. split; [exact E4|].
  assert (UQ : unitq (qunit q)) by (apply qunit_unit; apply Rabs_def2 in E4; lra). set (Q := qunit q) in *. set (E := missing q t).
  assert (UE : unitq E) by (apply miss_unit; auto).
  assert (T : 2 * tx E <= eta + 3 / 100000).
  { apply tilt_of; [exact UE|]. eapply Rle_trans; [apply (vdist_tri _ (qrot (qconj Q) (fun i => a i / NA)))|]. rewrite (vdist_sym (qrot E _)).
    pose proof (qrot_miss Q t _ _ _ UQ HA) as M1. change (qmul (qconj Q) t) with E in M1. lra. }
  pose proof (tx_pos E) as T0. assert (T5 : tx E <= 1 / 5) by (unfold rho in HR; lra).
  split; [rewrite tilt_tx; fold E; lra|]. rewrite heading_hz by (auto; rewrite tilt_tx; fold E; lra). fold E.
  pose proof (qrot_miss Q t _ _ _ UQ HM) as M2. change (qmul (qconj Q) t) with E in M2.
  assert (SC : forall i, (i < 3)%nat -> qrot (qconj Q) (fun i => m i / NM) i = / NM * qrot (qconj Q) m i) by (intros i Hi; rewrite <- qrot_scale by auto; apply qrot_ext; intros; unfold Rdiv; ring).
  apply Rle_trans with (51 / 100 * ((mu + 204 / 100 * tx E + 1 / 10000) / h)).
  - apply (heading_of E h v (qrot (qconj Q) (fun i => m i / NM))); auto; try lra.
    + rewrite SC by lia. rewrite Rabs_mult, (Rabs_pos_eq (/ NM)) by (left; apply Rinv_0_lt_compat; lra). apply Rle_trans with (/ NM * (1 / 10000 * NM)); [apply Rmult_le_compat_l; [left; apply Rinv_0_lt_compat; lra|exact D2]|]. right. field. lra.
    + rewrite SC by lia. apply Rmult_lt_0_compat; [apply Rinv_0_lt_compat; lra|exact D3].
    + unfold rho in HR. lra.
  - apply Rmult_le_compat_l; [lra|]. apply Rmult_le_compat_r; [left; apply Rinv_0_lt_compat; lra|]. unfold rho. lra.
Qed.

Lemma r_accT lm : reading (lm := lm) Acc default_config (z32 (-20)) (z32 (12)) (z32 (-9)) (triple (-20) (12) (-9)). Proof. apply (reading_z lm Acc (-20) (12) (-9)); [lia|lia|lia|]. rz. Qed.
Lemma r_magT lm : reading (lm := lm) Mag default_config (z32 (125)) (z32 (0)) (z32 (0)) (triple (125) (0) (0)). Proof. apply (reading_z lm Mag (125) (0) (0)); [lia|lia|lia|]. rz. Qed.
Lemma am_true_ex_h : forall lm, exists s : Aqua (A := F32 lm), aq_hist s Live /\ aq_mode s = AM /\
  aq_get_accelerometer_config s = Ok default_config /\ aq_get_magnetometer_config s = Ok default_config /\
  reading (lm := lm) Acc default_config (z32 (-20)) (z32 (12)) (z32 (-9)) (triple (-20) (12) (-9)) /\
  reading (lm := lm) Mag default_config (z32 (125)) (z32 (0)) (z32 (0)) (triple (125) (0) (0)) /\
  2 * eps <= rnorm 3 (triple (-20) (12) (-9)) <= bpow radix2 60 /\ 2 * eps <= rnorm 3 (triple (125) (0) (0)) <= bpow radix2 60 /\
  let t := Quat (4 / 5) (2 / 5) (2 / 5) (1 / 5) in unitq t /\
  vdist 3 (fun i => (triple (-20) (12) (-9)) i / rnorm 3 (triple (-20) (12) (-9))) (qrot t (triple 0 0 (-1))) <= 1 / 100 /\
  vdist 3 (fun i => (triple (125) (0) (0)) i / rnorm 3 (triple (125) (0) (0))) (qrot t (triple (3 / 5) 0 (4 / 5))) <= 2 / 100 /\
  2 / 100 + 102 / 100 * (1 / 100) + 14 / 100000 <= 1 / 3 * (3 / 5).
Proof.
  intros lm. destruct (started_am32 lm) as (s & HH & EM & Ca & Cm). exists s.
  repeat (split; [first [assumption|apply r_accT|apply r_magT]|]).
  assert (B : 128 <= bpow radix2 60) by (change 128 with (bpow radix2 7); apply bpow_le; lia).
  rewrite !(norm_tri (-20) (12) (-9) 25), !(norm_tri (125) (0) (0) 125) by lra. unfold eps.
  split; [lra|]. split; [lra|]. cbv zeta. split; [unfold unitq, qnorm2; cbn; field|].
  split; [|split; [|lra]]; (eapply Rle_trans; [apply vdist_0; intros i Hi; destruct i as [|[|[|i]]]; [| | |lia]; cbn; field|lra]).
Qed.
(*@ example *)
(** a true attitude tilted by 69 degrees, read with an error of at most one and two hundredths *)
Example C67_example : forall lm, exists s : Aqua (A := F32 lm), aq_hist s Live /\ aq_mode s = AM /\
  aq_get_accelerometer_config s = Ok default_config /\ aq_get_magnetometer_config s = Ok default_config /\
  reading (lm := lm) Acc default_config (z32 (-20)) (z32 (12)) (z32 (-9)) (triple (-20) (12) (-9)) /\
  reading (lm := lm) Mag default_config (z32 (125)) (z32 (0)) (z32 (0)) (triple (125) (0) (0)) /\
  2 * eps <= rnorm 3 (triple (-20) (12) (-9)) <= bpow radix2 60 /\ 2 * eps <= rnorm 3 (triple (125) (0) (0)) <= bpow radix2 60 /\
  let t := Quat (4 / 5) (2 / 5) (2 / 5) (1 / 5) in unitq t /\
  vdist 3 (fun i => (triple (-20) (12) (-9)) i / rnorm 3 (triple (-20) (12) (-9))) (qrot t (triple 0 0 (-1))) <= 1 / 100 /\
  vdist 3 (fun i => (triple (125) (0) (0)) i / rnorm 3 (triple (125) (0) (0))) (qrot t (triple (3 / 5) 0 (4 / 5))) <= 2 / 100 /\
  2 / 100 + 102 / 100 * (1 / 100) + 14 / 100000 <= 1 / 3 * (3 / 5).
Proof. exact am_true_ex_h. Qed.
