(** C70: how far the first-order methods of the angular-rate filter (Taylor series of order 1, Euler) are off in f32. *)
(*@+*)
From Coq Require Import List Arith ZArith NArith Reals Lia Bool Lra SpecFloat.
From Flocq Require Import Core BinarySingleNaN.
From Verif Require Import M_Base M_Arith M_Utils M_Vector M_Matrix M_Quaternion M_Sensors M_Ar M_F32
  S_Spec S_Linalg S_Norm S_Quat S_Sensors S_Ar S_F32 S_Track S_First P_Inst P_InstF P_ArZ P_F32Ar.
Import ListNotations.
Local Open Scope R_scope.
(*@-*)
From Coq Require Import Psatz.
From Verif Require Import P_Hoare P_Cont P_Loops P_Access P_Pointwise P_Trans P_Float P_Product
  P_Compare P_Dot P_Norm P_FErr P_Norm32 P_Quat P_Sensors P_Ar P_ArR P_Ar32 P_FAcc P_F32Mul P_F32Rot P_AquaR P_AquaD.

(** ** the exact first-order step *)
Definition hq (w : nat -> R) (t : R) : quat := Quat 1 (t / 2 * w 0%nat) (t / 2 * w 1%nat) (t / 2 * w 2%nat).
Lemma hq_norm2 w t : qnorm2 (hq w t) = 1 + (rnorm 3 w * t / 2) * (rnorm 3 w * t / 2).
Proof.
  assert (E : w 0%nat * w 0%nat + w 1%nat * w 1%nat + w 2%nat * w 2%nat = rnorm 3 w * rnorm 3 w) by (rewrite rnorm_sqr, rdot3; reflexivity).
  replace (rnorm 3 w * t / 2 * (rnorm 3 w * t / 2)) with (t * t / 4 * (rnorm 3 w * rnorm 3 w)) by field. rewrite <- E. unfold qnorm2, hq. cbn. field.
Qed.
Lemma hq_norm w t : qnorm (hq w t) = sqrt (1 + (rnorm 3 w * t / 2)²).
Proof. unfold qnorm. rewrite hq_norm2. reflexivity. Qed.
Lemma hq_ge w t : 1 <= qnorm (hq w t) /\ Rabs (rnorm 3 w * t / 2) <= qnorm (hq w t).
Proof.
  pose proof (qnorm_sqr (hq w t)) as E. rewrite hq_norm2 in E. pose proof (qnorm_pos (hq w t)). set (y := rnorm 3 w * t / 2) in *.
  split; [nra|]. apply sqr_le_abs; auto. rewrite E, <- Rabs_mult, Rabs_pos_eq by nra. lra.
Qed.
Lemma hq_le w t : qnorm (hq w t) <= 1 + Rabs (rnorm 3 w * t / 2).
Proof.
  set (y := Rabs (rnorm 3 w * t / 2)). assert (0 <= y) by apply Rabs_pos. apply sqr_le_abs; [lra|]. rewrite qnorm_sqr, hq_norm2.
  replace (rnorm 3 w * t / 2 * (rnorm 3 w * t / 2)) with (y * y); [nra|]. unfold y. rewrite <- Rabs_mult. apply Rabs_pos_eq. nra.
Qed.
Lemma atan_cube y : Rabs (atan y - y) <= Rabs y * Rabs y * Rabs y / 3.
Proof.
  assert (P : forall y, 0 <= y -> Rabs (atan y - y) <= y * y * y / 3).
  { intros z Z. destruct (atan_bounds z Z). apply Rabs_le. split; nra. }
  destruct (Rle_dec 0 y) as [H|H].
  - rewrite (Rabs_pos_eq y) by auto. apply P, H.
  - rewrite (Rabs_left1 y) by lra. specialize (P (- y) ltac:(lra)). rewrite atan_opp in P. replace (atan y - y) with (- (- atan y - - y)) by ring.
    rewrite Rabs_Ropp. exact P.
Qed.
Lemma hq_turn w t : rnorm 3 w <> 0 -> qunit (hq w t) = turn w (2 * atan (rnorm 3 w * t / 2) / rnorm 3 w).
Proof.
  intros N. unfold qunit. rewrite hq_norm. unfold turn. rewrite <- rnorm3. set (n := rnorm 3 w) in *. set (y := n * t / 2).
  replace (n * (2 * atan y / n) / 2) with (atan y) by (field; auto). rewrite cos_atan, sin_atan. set (d := sqrt (1 + y²)).
  assert (PD : 0 < d) by (apply sqrt_lt_R0; unfold Rsqr; nra). unfold hq, qscale. cbn [Qw Qx Qy Qz]. unfold y.
  f_equal; field; lra.
Qed.
Lemma turn_lip w a b : rnorm 3 w <> 0 -> qdist (turn w a) (turn w b) <= rnorm 3 w * Rabs (a - b) / 2.
Proof.
  intros N. replace a with (b + (a - b)) at 1 by ring. rewrite <- turn_add by auto. rewrite <- (qmul_one (turn w b)) at 2.
  rewrite qdist_mul_l, turn_norm, Rmult_1_l, qdist_sym. apply turn_small.
Qed.
Lemma hq_close w t : rnorm 3 w <> 0 -> let X := rnorm 3 w * Rabs t in qdist (qunit (hq w t)) (turn w t) <= X * X * X / 24.
Proof.
  intros N X. rewrite hq_turn by auto. eapply Rle_trans; [apply turn_lip; auto|]. pose proof (rnorm_pos 3 w) as P. set (n := rnorm 3 w) in *.
  pose proof (atan_cube (n * t / 2)) as C.
  assert (EX : Rabs (n * t / 2) = X / 2). { unfold Rdiv. rewrite !Rabs_mult, (Rabs_pos_eq n), (Rabs_pos_eq (/ 2)) by lra. reflexivity. }
  rewrite EX in C. replace (n * Rabs (2 * atan (n * t / 2) / n - t) / 2) with (Rabs (atan (n * t / 2) - n * t / 2)).
  - eapply Rle_trans; [exact C|]. right. field.
  - replace (2 * atan (n * t / 2) / n - t) with (2 / n * (atan (n * t / 2) - n * t / 2)) by (field; auto).
    rewrite Rabs_mult, (Rabs_pos_eq (2 / n)) by (apply Rmult_le_pos; [lra|left; apply Rinv_0_lt_compat; lra]). field. auto.
Qed.
Lemma qunit_mul p q : 0 < qnorm p -> 0 < qnorm q -> qunit (qmul p q) = qmul (qunit p) (qunit q).
Proof. intros P Q. unfold qunit. rewrite qnorm_mul. apply quat_eta; cbn; field; lra. Qed.
(** normalising contracts relative errors up to a factor of 2 *)
Lemma qunit_near z Z e : 0 < qnorm Z -> 0 < qnorm z -> qdist z Z <= e * qnorm Z -> qdist (qunit z) (qunit Z) <= 2 * e.
Proof.
  intros PZ Pz D. set (k := / qnorm Z). assert (K : 0 < k) by (apply Rinv_0_lt_compat; auto).
  assert (KZ : k * qnorm Z = 1) by (apply Rinv_l; lra).
  assert (D1 : qdist (qscale k z) (qunit Z) <= e).
  { replace (qdist (qscale k z) (qunit Z)) with (k * qdist z Z).
    - replace e with (k * (e * qnorm Z)) by (rewrite <- (Rmult_1_r e) at 2; rewrite <- KZ; ring). apply Rmult_le_compat_l; lra.
    - unfold qdist. transitivity (Rabs k * qnorm (qsub z Z)); [rewrite Rabs_pos_eq; lra|]. rewrite <- qnorm_scale. f_equal. unfold qunit. fold k. apply quat_eta; cbn; ring. }
  assert (D2 : qdist (qscale k z) (qunit z) <= e).
  { replace (qunit z) with (qunit (qscale k z)).
    - rewrite qunit_dist by (rewrite qnorm_scale, Rabs_pos_eq by lra; apply Rmult_lt_0_compat; auto). rewrite qnorm_scale, (Rabs_pos_eq k) by lra.
      replace (k * qnorm z - 1) with (k * (qnorm z - qnorm Z)) by (rewrite <- KZ; ring). rewrite Rabs_mult, (Rabs_pos_eq k) by lra.
      pose proof (qdist_norm_abs z Z). replace e with (k * (e * qnorm Z)) by (rewrite <- (Rmult_1_r e) at 2; rewrite <- KZ; ring). apply Rmult_le_compat_l; lra.
    - unfold qunit. rewrite qnorm_scale, (Rabs_pos_eq k) by lra. apply quat_eta; cbn; field; lra. }
  eapply Rle_trans; [apply (qdist_tri _ (qscale k z))|]. rewrite (qdist_sym (qunit z)). lra.
Qed.
(** an f32 quaternion whose components are right up to e |Z|, normalised *)
Lemma norm_near lm (v : Vec (T (Arith := F32 lm))) (z : nat -> f32) (Z : quat) e : vec_is (A := F32 lm) v 4 z ->
  / 2 <= qnorm Z <= 1000000 -> 0 <= e <= / 100 -> (forall i, (i < 4)%nat -> Rabs (B2R (z i) - qf Z i) <= e * qnorm Z) ->
  exists v' r, v_normalize (A := F32 lm) v = (v', Ok tt) /\ quat_f v' r /\ Rabs (qnorm r - 1) < / 1000000 /\
    qdist r (qunit Z) <= 2 / 1000000 + 4 * e.
Proof.
  intros Hv NZ He C. set (zq := Quat (B2R (z 0%nat)) (B2R (z 1%nat)) (B2R (z 2%nat)) (B2R (z 3%nat))).
  assert (D : qdist zq Z <= 2 * (e * qnorm Z)) by (apply qdist_comp; [apply (C 0%nat)|apply (C 1%nat)|apply (C 2%nat)|apply (C 3%nat)]; lia).
  assert (EN : rnorm 4 (fun i => B2R (z i)) = qnorm zq) by (rewrite <- rnorm_qnorm; apply rnorm_ext; apply below4; reflexivity).
  pose proof (qdist_norm_abs zq Z) as QA. apply Rabs_le_inv in QA.
  assert (E1 : e * qnorm Z <= / 100 * qnorm Z) by (apply Rmult_le_compat_r; lra).
  assert (B60 : 2000000 <= bpow radix2 60) by (apply Rle_trans with (bpow radix2 21); [cbn; lra|apply bpow_le; lia]).
  pose proof (l_normalize32 lm v 4 _ Hv) as L. cbv zeta in L. rewrite EN in L. destruct L as (v' & g & En' & Hg & Ng & Bg); [unfold eps; lra|].
  set (r := Quat (B2R (g 0%nat : f32)) (B2R (g 1%nat : f32)) (B2R (g 2%nat : f32)) (B2R (g 3%nat : f32))).
  exists v', r. split; [exact En'|]. split; [apply quat_f_of; exact Hg|].
  assert (Nr : rnorm 4 (fun i => B2R (g i : f32)) = qnorm r) by (rewrite <- rnorm_qnorm; apply rnorm_ext; apply below4; reflexivity).
  rewrite Nr in Ng. split; [exact Ng|].
  assert (D2 : qdist r (qunit zq) <= 2 * / 1000000).
  { assert (CC : forall i, (i < 4)%nat -> Rabs (B2R (g i : f32) - qf (qunit zq) i) <= / 1000000).
    { intros i Hi. specialize (Bg i Hi). replace (qf (qunit zq) i) with (B2R (z i) / qnorm zq); [exact Bg|].
      clear Bg. unfold Rdiv. rewrite Rmult_comm. destruct i as [|[|[|[|i]]]]; [| | | |lia]; reflexivity. }
    apply qdist_comp; [apply (CC 0%nat)|apply (CC 1%nat)|apply (CC 2%nat)|apply (CC 3%nat)]; lia. }
  pose proof (qunit_near zq Z (2 * e) ltac:(lra) ltac:(lra) ltac:(lra)) as D3.
  eapply Rle_trans; [apply (qdist_tri _ (qunit zq))|]. lra.
Qed.

Lemma half32 lm : is_finite (fhalf (A := F32 lm) : f32) = true /\ B2R (fhalf (A := F32 lm) : f32) = 1 / 2.
Proof.
  assert (E : (fhalf (A := F32 lm) : f32) = lit32 1 2) by reflexivity. rewrite E.
  destruct (lit32_R 1 2) as [F E2]; [rewrite Rabs_pos_eq by lra; apply Rle_trans with (bpow radix2 0); [cbn; lra|apply bpow_le; lia]|].
  split; [exact F|]. rewrite E2. replace (1 / 2) with (bpow radix2 (-1)) by (cbn; lra). apply round_generic; auto with typeclass_instances. apply fmt_bpow. lia.
Qed.

Section First.
  Context (lm : Libm).
  Notation A := (F32 lm).
  Context (fw : nat -> f32) (Fw : forall i, (i < 3)%nat -> is_finite (fw i) = true).
  Let w i := B2R (fw i).
  Let N := rnorm 3 w.
  Context (N60 : N <= bpow radix2 60) (HN : 98 / 1000000 <= N) (ts : f32) (Ft : is_finite ts = true).
  Let t := B2R ts.
  Let X := N * Rabs t.
  Context (HX : X <= 1000).
  Let h : f32 := Bmult mode_NE (fhalf (A := A)) ts.
  Let tn := / 100000000000000000000.

  Lemma t_bd : Rabs t <= 11000000.
  Proof. pose proof (Rabs_pos t). destruct (Rle_dec (Rabs t) 11000000); auto. exfalso. unfold X in HX. assert (98 / 1000000 * 11000000 <= N * Rabs t); [|lra]. apply Rmult_le_compat; lra. Qed.
  Lemma w_bd i : (i < 3)%nat -> Rabs (w i) <= N.
  Proof.
    intros Hi. unfold N. apply sqr_le_abs; [apply rnorm_pos|]. rewrite rnorm_sqr, rdot3, <- Rabs_mult, Rabs_pos_eq by apply Rle_0_sqr.
    pose proof (Rle_0_sqr (w 0%nat)). pose proof (Rle_0_sqr (w 1%nat)). pose proof (Rle_0_sqr (w 2%nat)). unfold Rsqr in *.
    destruct i as [|[|[|i]]]; [| | |lia]; lra.
  Qed.
  Lemma h_ok : is_finite h = true /\ Rabs (B2R h - t / 2) <= u * Rabs (t / 2) + eta.
  Proof.
    destruct (half32 lm) as [F1 E1]. pose proof t_bd. pose proof huge_1.
    assert (ET : Rabs (t / 2) = Rabs t / 2) by (unfold Rdiv; rewrite Rabs_mult, (Rabs_pos_eq (/ 2)) by lra; reflexivity).
    assert (EP : B2R (fhalf (A := A) : f32) * B2R ts = t / 2) by (rewrite E1; unfold t; lra).
    assert (HG : 11000000 <= huge). { apply Rle_trans with (bpow radix2 30); [cbn; lra|]. apply bpow_le. lia. }
    destruct (prod_err (fhalf (A := A)) ts F1 Ft) as [F E]; [rewrite EP, ET; lra|]. rewrite EP in E. split; [exact F|exact E].
  Qed.
  Lemma ei_ok i : (i < 3)%nat -> let a := t / 2 * w i in let e := Bmult mode_NE (fw i) h in
    is_finite e = true /\ Rabs (B2R e - a) <= 3 * u * Rabs a + tn /\
    is_finite (Bmult mode_NE (Bopp (fw i)) h) = true /\ B2R (Bmult mode_NE (Bopp (fw i)) h) = - B2R e /\ Rabs a <= 500.
  Proof.
    intros Hi a e. destruct h_ok as [Fh Eh]. pose proof (w_bd i Hi) as W. pose proof t_bd as TB. pose proof (Rabs_pos (w i)) as W0. pose proof (Rabs_pos t) as T0.
    assert (ET : Rabs (t / 2) = Rabs t / 2) by (unfold Rdiv; rewrite Rabs_mult, (Rabs_pos_eq (/ 2)) by lra; reflexivity).
    assert (EA : Rabs a = Rabs (w i) * Rabs t / 2) by (unfold a; rewrite Rabs_mult, ET; field).
    assert (A1 : Rabs a <= 500). { rewrite EA. assert (Rabs (w i) * Rabs t <= N * Rabs t) by (apply Rmult_le_compat_r; auto). unfold X in HX. lra. }
    assert (WE : Rabs (w i) * eta <= tn / 4).
    { apply Rle_trans with (bpow radix2 60 * bpow radix2 (-150)).
      - apply Rmult_le_compat; [auto|left; apply eta_pos|lra|apply Rle_refl].
      - rewrite <- bpow_plus. apply Rle_trans with (bpow radix2 (-70)); [apply bpow_le; lia|]. unfold tn. cbn. lra. }
    assert (EH : B2R (fw i) * B2R h - a = w i * (B2R h - t / 2)) by (unfold a, w; ring).
    assert (D : Rabs (B2R (fw i) * B2R h - a) <= u * Rabs a + tn / 4).
    { rewrite EH, Rabs_mult. apply Rle_trans with (Rabs (w i) * (u * Rabs (t / 2) + eta)); [apply Rmult_le_compat_l; auto|]. rewrite ET, EA. lra. }
    pose proof eta_1 as [E0 E1]. pose proof huge_1 as HG.
    assert (B : Rabs (B2R (fw i) * B2R h) <= Rabs a + (u * Rabs a + tn / 4)).
    { replace (B2R (fw i) * B2R h) with (a + (B2R (fw i) * B2R h - a)) by ring. eapply Rle_trans; [apply Rabs_triang|]. lra. }
    destruct (prod_err (fw i) h (Fw i Hi) Fh) as [Fe Ee]; [unfold u, tn in *; lra|]. fold e in Fe, Ee.
    split; [exact Fe|]. split.
    - replace (B2R e - a) with ((B2R e - B2R (fw i) * B2R h) + (B2R (fw i) * B2R h - a)) by ring. eapply Rle_trans; [apply Rabs_triang|].
      assert (eta <= tn / 4).
      { apply Rle_trans with (bpow radix2 (-70)); [apply bpow_le; lia|]. unfold tn. cbn. lra. }
      assert (u * Rabs (B2R (fw i) * B2R h) <= u * (Rabs a + (u * Rabs a + tn / 4))) by (apply Rmult_le_compat_l; [unfold u; lra|exact B]).
      pose proof (Rabs_pos a). unfold u, tn in *. lra.
    - destruct (Bmult_opp_l (fw i) h (Fw i Hi) Fh) as [F1 F2]; [rewrite huge_127; unfold u, tn in *; lra|]. auto.
  Qed.

  Context (f : nat -> f32) (q : quat) (Ff : forall i, (i < 4)%nat -> is_finite (f i) = true /\ B2R (f i) = qf q i)
    (Nq : Rabs (qnorm q - 1) < / 1000000).
  Let H := hq w t.
  Lemma H_bd : 1 <= qnorm H <= 501 /\ X / 2 <= qnorm H.
  Proof.
    unfold H. pose proof (hq_ge w t) as [H1 H2]. pose proof (hq_le w t) as H3. fold N in H2, H3.
    assert (EX : Rabs (N * t / 2) = X / 2). { unfold Rdiv. rewrite !Rabs_mult, (Rabs_pos_eq N), (Rabs_pos_eq (/ 2)) by lra. reflexivity. }
    rewrite EX in *. lra.
  Qed.
  Lemma q_bd i : (i < 4)%nat -> Rabs (qf q i) <= 2.
  Proof.
    intros Hi. apply Rabs_def2 in Nq as Nq'. apply Rle_trans with (qnorm q); [|lra]. apply sqr_le_abs; [apply qnorm_pos|].
    rewrite qnorm_sqr, <- Rabs_mult, Rabs_pos_eq by apply Rle_0_sqr. unfold qnorm2.
    pose proof (Rle_0_sqr (Qw q)). pose proof (Rle_0_sqr (Qx q)). pose proof (Rle_0_sqr (Qy q)). pose proof (Rle_0_sqr (Qz q)). unfold Rsqr in *.
    destruct i as [|[|[|[|i]]]]; [| | | |lia]; cbn; lra.
  Qed.
  Lemma omega_valid i j : (i < 4)%nat -> (j < 4)%nat -> valid (A := A) (omega_t (A := A) fw i j).
  Proof.
    intros Hi Hj. apply (valid_finite lm). destruct i as [|[|[|[|i]]]]; [| | | |lia]; (destruct j as [|[|[|[|j]]]]; [| | | |lia]);
      try reflexivity; try (cbn; apply Fw; lia); cbn; rewrite is_finite_Bopp; apply Fw; lia.
  Qed.

  (** ** Euler *)
  Definition eh : quat := Quat 0 (B2R (Bmult mode_NE (fw 0%nat) h)) (B2R (Bmult mode_NE (fw 1%nat) h)) (B2R (Bmult mode_NE (fw 2%nat) h)).
  Lemma eu_ok i : (i < 4)%nat -> is_finite (eu_w (A := A) ts fw i : f32) = true /\ B2R (eu_w (A := A) ts fw i : f32) = qf eh i.
  Proof.
    intros Hi. destruct h_ok as [Fh _].
    destruct i as [|[|[|[|i]]]]; [| | | |lia].
    - apply (mult_zero (f0 (A := A) : f32) h eq_refl Fh). left. reflexivity.
    - split; [apply (ei_ok 0%nat); lia|reflexivity].
    - split; [apply (ei_ok 1%nat); lia|reflexivity].
    - split; [apply (ei_ok 2%nat); lia|reflexivity].
  Qed.
  Let E := Quat 0 (t / 2 * w 0%nat) (t / 2 * w 1%nat) (t / 2 * w 2%nat).
  Lemma E_norm : qnorm E = X / 2.
  Proof.
    assert (EE : w 0%nat * w 0%nat + w 1%nat * w 1%nat + w 2%nat * w 2%nat = N * N) by (unfold N; rewrite rnorm_sqr, rdot3; reflexivity).
    unfold qnorm. replace (qnorm2 E) with ((X / 2) * (X / 2)).
    - apply sqrt_square. unfold X. pose proof (Rabs_pos t). assert (0 <= N * Rabs t) by (apply Rmult_le_pos; lra). lra.
    - unfold X. replace (N * Rabs t / 2 * (N * Rabs t / 2)) with (t * t / 4 * (N * N)).
      + rewrite <- EE. unfold E, qnorm2. cbn. field.
      + replace (N * Rabs t / 2 * (N * Rabs t / 2)) with (Rabs t * Rabs t / 4 * (N * N)) by field. rewrite <- Rabs_mult, Rabs_pos_eq by apply Rle_0_sqr. reflexivity.
  Qed.
  Lemma eh_dist : qdist eh E <= 3 * u * (X / 2) + 2 * tn.
  Proof.
    destruct (ei_ok 0%nat ltac:(lia)) as (_ & D0 & _). destruct (ei_ok 1%nat ltac:(lia)) as (_ & D1 & _). destruct (ei_ok 2%nat ltac:(lia)) as (_ & D2 & _).
    set (a0 := t / 2 * w 0%nat) in *. set (a1 := t / 2 * w 1%nat) in *. set (a2 := t / 2 * w 2%nat) in *.
    set (m := Quat 0 (3 * u * Rabs a0) (3 * u * Rabs a1) (3 * u * Rabs a2)).
    assert (Nm : qnorm m = 3 * u * (X / 2)).
    { rewrite <- E_norm. transitivity (qnorm (qscale (3 * u) E)); [|rewrite qnorm_scale, Rabs_pos_eq by (unfold u; lra); reflexivity].
      assert (S : forall x, Rabs x * Rabs x = x * x) by (intros; rewrite <- Rabs_mult, Rabs_pos_eq; [auto|apply Rle_0_sqr]).
      unfold qnorm. f_equal. unfold m, E, qnorm2, qscale. cbn. fold a0 a1 a2.
      replace (3 * u * Rabs a0 * (3 * u * Rabs a0)) with (9 * u * u * (Rabs a0 * Rabs a0)) by ring.
      replace (3 * u * Rabs a1 * (3 * u * Rabs a1)) with (9 * u * u * (Rabs a1 * Rabs a1)) by ring.
      replace (3 * u * Rabs a2 * (3 * u * Rabs a2)) with (9 * u * u * (Rabs a2 * Rabs a2)) by ring. rewrite !S. ring. }
    set (b := Quat 0 tn tn tn).
    assert (Nb : qnorm b <= 2 * tn).
    { apply sqr_le_abs; [unfold tn; lra|]. rewrite qnorm_sqr. unfold b, qnorm2. cbn. unfold tn. lra. }
    apply Rle_trans with (qnorm (qadd m b)).
    - apply sqr_le_abs; [apply qnorm_pos|]. unfold qdist. rewrite !qnorm_sqr. unfold qnorm2, qsub, qadd, m, b, eh, E. cbn [Qw Qx Qy Qz].
      assert (SQ : forall x y, Rabs x <= y -> x * x <= y * y).
      { intros x y L. pose proof (Rabs_pos x). assert (Rabs x * Rabs x <= y * y) by (apply Rmult_le_compat; auto). rewrite <- Rabs_mult, Rabs_pos_eq in H1 by apply Rle_0_sqr. exact H1. }
      apply SQ in D0. apply SQ in D1. apply SQ in D2. fold a0 a1 a2. unfold qneg, qscale. cbn [Qw Qx Qy Qz]. lra.
    - eapply Rle_trans; [apply qnorm_add|]. rewrite Nm. lra.
  Qed.
  Lemma euler_comp i : (i < 4)%nat ->
    is_finite (q_prod (A := A) (eu_w (A := A) ts fw) f i : f32) = true /\ is_finite (step (A := A) Euler 0 ts f fw (f0 (A := A)) i : f32) = true /\
    Rabs (B2R (step (A := A) Euler 0 ts f fw (f0 (A := A)) i : f32) - qf (qmul H q) i) <= 63 / 100000000 * qnorm (qmul H q).
  Proof.
    intros Hi. destruct H_bd as [[H1 H2] H3]. apply Rabs_def2 in Nq as Nq'. pose proof eh_dist as ED. pose proof (qdist_norm eh E) as EN. rewrite E_norm in EN.
    pose proof (qnorm_pos eh) as P0. assert (X0 : 0 <= X) by (unfold X; apply Rmult_le_pos; [lra|apply Rabs_pos]).
    assert (EB : qnorm eh <= 1001 / 1000 * qnorm H) by (unfold u, tn in *; lra).
    set (P := qnorm eh * qnorm q) in *. set (M := qnorm (qmul H q)). assert (EM : M = qnorm H * qnorm q) by apply qnorm_mul.
    assert (PB : P <= 1001 / 1000 * M). { unfold P. rewrite EM, <- Rmult_assoc. apply Rmult_le_compat_r; [apply qnorm_pos|exact EB]. }
    assert (MB : M <= 600). { rewrite EM. apply Rle_trans with (501 * (1000001 / 1000000)); [apply Rmult_le_compat; auto using qnorm_pos; lra|lra]. }
    assert (M1 : 99 / 100 <= M). { rewrite EM. apply Rle_trans with (1 * (999999 / 1000000)); [lra|apply Rmult_le_compat; lra]. }
    assert (P1 : 0 <= P) by (apply Rmult_le_pos; auto using qnorm_pos).
    pose proof huge_1 as HG. pose proof tiny_small as TS.
    destruct (prod_acc lm (eu_w (A := A) ts fw) f eh q eu_ok Ff ltac:(fold P; lra) i Hi) as [Fp Ep]. fold P in Ep.
    change (prodf (A := A) (eu_w (A := A) ts fw) f i) with (q_prod (A := A) (eu_w (A := A) ts fw) f i) in Fp, Ep.
    set (p := q_prod (A := A) (eu_w (A := A) ts fw) f i : f32) in *. split; [exact Fp|].
    destruct (Ff i Hi) as [Fi Ei].
    assert (EQ : qf (qmul H q) i = qf q i + qf (qmul E q) i). { unfold H, hq, E. destruct i as [|[|[|[|i]]]]; [| | | |lia]; cbn; ring. }
    assert (CD : Rabs (qf (qmul eh q) i - qf (qmul E q) i) <= qdist eh E * qnorm q).
    { rewrite <- qdist_mul_r. unfold qdist. apply sqr_le_abs; [apply qnorm_pos|]. rewrite qnorm_sqr, <- Rabs_mult, Rabs_pos_eq by apply Rle_0_sqr.
      unfold qnorm2. set (d := qsub (qmul eh q) (qmul E q)).
      replace (qf (qmul eh q) i - qf (qmul E q) i) with (qf d i) by (destruct i as [|[|[|[|i]]]]; [| | | |lia]; unfold d, qsub, qneg, qscale, qadd; cbn [qf quad Qw Qx Qy Qz]; ring).
      pose proof (Rle_0_sqr (Qw d)). pose proof (Rle_0_sqr (Qx d)). pose proof (Rle_0_sqr (Qy d)). pose proof (Rle_0_sqr (Qz d)). unfold Rsqr in *.
      destruct i as [|[|[|[|i]]]]; [| | | |lia]; cbn [qf quad]; lra. }
    assert (CD' : qdist eh E * qnorm q <= (3 * u + 2 * tn) * M).
    { rewrite EM, <- Rmult_assoc. apply Rmult_le_compat_r; [apply qnorm_pos|]. unfold u, tn in *. lra. }
    assert (D : Rabs (B2R (f i) + B2R p - qf (qmul H q) i) <= 50 / 100000000 * M).
    { rewrite EQ, Ei. replace (qf q i + B2R p - (qf q i + qf (qmul E q) i)) with ((B2R p - qf (qmul eh q) i) + (qf (qmul eh q) i - qf (qmul E q) i)) by ring.
      eapply Rle_trans; [apply Rabs_triang|]. unfold u, tn in *. lra. }
    assert (MQ : Rabs (qf (qmul H q) i) <= M).
    { apply sqr_le_abs; [apply qnorm_pos|]. unfold M. rewrite qnorm_sqr, <- Rabs_mult, Rabs_pos_eq by apply Rle_0_sqr. unfold qnorm2.
      set (d := qmul H q). pose proof (Rle_0_sqr (Qw d)). pose proof (Rle_0_sqr (Qx d)). pose proof (Rle_0_sqr (Qy d)). pose proof (Rle_0_sqr (Qz d)). unfold Rsqr in *.
      destruct i as [|[|[|[|i]]]]; [| | | |lia]; cbn [qf quad]; lra. }
    assert (BS : Rabs (B2R (f i) + B2R p) <= 2 * M).
    { replace (B2R (f i) + B2R p) with ((B2R (f i) + B2R p - qf (qmul H q) i) + qf (qmul H q) i) by ring. eapply Rle_trans; [apply Rabs_triang|]. lra. }
    destruct (plus_ok (f i) p Fi Fp) as [Fs Es]; [rewrite huge_127; lra|].
    change (step (A := A) Euler 0 ts f fw (f0 (A := A)) i : f32) with (Bplus mode_NE (f i) p). split; [exact Fs|]. rewrite Es.
    pose proof (rnd_acc (B2R (f i) + B2R p) (qf (qmul H q) i) M (50 / 100000000 * M) D MQ ltac:(lra)) as RA. pose proof eta_1. unfold u in *. lra.
  Qed.

  (** ** Taylor of order 1 *)
  Context (d : R) (Hd : 0 <= d <= / 1000) (PO : pow_one lm d).
  Lemma inv_one : (f1 / fofN (Nfact 1 mod 2 ^ 64))%F = (f1 (A := A)).
  Proof. apply (B2SF_inj prec emax). vm_compute. reflexivity. Qed.
  Lemma term_one i j : ty_term (A := A) ts fw 1 i j = Bmult mode_NE (lm_pow lm (ty_om (A := A) ts fw i j) (f1 (A := A))) (f1 (A := A)).
  Proof. unfold ty_term. rewrite inv_one. reflexivity. Qed.
  Let D := d + 3 * u * (1 + d).
  Lemma taylor_cell i j : (i < 4)%nat -> (j < 4)%nat ->
    is_finite (ty_om (A := A) ts fw i j : f32) = true /\ is_finite (lm_pow lm (ty_om (A := A) ts fw i j) (f1 (A := A))) = true /\
    is_finite (ty_term (A := A) ts fw 1 i j : f32) = true /\ is_finite (ty_mat (A := A) ts fw 1 i j : f32) = true /\
    Rabs (B2R (ty_mat (A := A) ts fw 1 i j : f32) - rmat H i j) <= D * Rabs (rmat H i j) + 2 * tn.
  Proof.
    intros Hi Hj. destruct h_ok as [Fh _]. rewrite term_one.
    assert (T0 : 0 < tn) by (unfold tn; lra).
    assert (D0 : 0 <= D) by (unfold D, u; nra).
    (* a cell a * h approximating x, on the diagonal (x = 0, b = 1) or off it (b = 0) *)
    assert (CASE : forall (a b : f32) (x y : R), is_finite (Bmult mode_NE a h) = true -> Rabs (B2R (Bmult mode_NE a h) - x) <= 3 * u * Rabs x + tn ->
      is_finite b = true -> B2R b = y -> (x = 0 /\ B2R (Bmult mode_NE a h) = 0) \/ y = 0 ->
      let p := lm_pow lm (Bmult mode_NE a h) (f1 (A := A)) in let m := Bplus mode_NE b (Bmult mode_NE p (f1 (A := A))) in
      is_finite p = true /\ is_finite (Bmult mode_NE p (f1 (A := A))) = true /\ is_finite m = true /\ Rabs (B2R m - (y + x)) <= D * Rabs (y + x) + 2 * tn).
    { intros a b x y Fa Ea Fb Eb O p m. destruct (PO _ Fa) as [Fp Ep]. fold p in Fp, Ep.
      assert (P1 : Bmult mode_NE p (f1 (A := A)) = p) by (apply Bmult_one_r; exact Fp). unfold m. rewrite P1.
      split; [exact Fp|]. split; [exact Fp|].
      assert (Z : B2R b = 0 \/ B2R p = 0).
      { destruct O as [[_ Z]|Z]; [right|left; congruence]. rewrite Z, Rabs_R0, Rmult_0_r, Rminus_0_r in Ep. destruct (Req_dec (B2R p) 0); auto.
        pose proof (Rabs_pos_lt (B2R p) ltac:(auto)). lra. }
      destruct (plus_zero b p Fb Fp Z) as [Fm Em]. split; [exact Fm|]. rewrite Em, Eb.
      set (v := B2R (Bmult mode_NE a h)) in *. replace (y + B2R p - (y + x)) with ((B2R p - v) + (v - x)) by ring.
      eapply Rle_trans; [apply Rabs_triang|].
      assert (Rabs v <= (1 + 3 * u) * Rabs x + tn).
      { replace v with ((v - x) + x) by ring. eapply Rle_trans; [apply Rabs_triang|]. lra. }
      assert (d * Rabs v <= d * ((1 + 3 * u) * Rabs x + tn)) by (apply Rmult_le_compat_l; lra).
      assert (d * tn <= / 1000 * tn) by (apply Rmult_le_compat_r; lra).
      assert (XX : Rabs x <= Rabs (y + x)).
      { destruct O as [[-> _]| ->]; [rewrite Rabs_R0; apply Rabs_pos|rewrite Rplus_0_l; lra]. }
      assert (D * Rabs x <= D * Rabs (y + x)) by (apply Rmult_le_compat_l; auto).
      unfold D in *. lra. }
    assert (W : forall k, (k < 3)%nat -> let a := t / 2 * w k in
      (is_finite (Bmult mode_NE (fw k) h) = true /\ Rabs (B2R (Bmult mode_NE (fw k) h) - a) <= 3 * u * Rabs a + tn) /\
      (is_finite (Bmult mode_NE (Bopp (fw k)) h) = true /\ Rabs (B2R (Bmult mode_NE (Bopp (fw k)) h) - - a) <= 3 * u * Rabs (- a) + tn)).
    { intros k Hk a. destruct (ei_ok k Hk) as (F1 & E1 & F2 & E2 & _). fold a in E1. split; [split; auto|]. split; [exact F2|]. rewrite E2, Rabs_Ropp.
      replace (- B2R (Bmult mode_NE (fw k) h) - - a) with (- (B2R (Bmult mode_NE (fw k) h) - a)) by ring. rewrite Rabs_Ropp. exact E1. }
    destruct (W 0%nat ltac:(lia)) as [[A0 A1] [A2 A3]]. destruct (W 1%nat ltac:(lia)) as [[B0 B1] [B2 B3]]. destruct (W 2%nat ltac:(lia)) as [[C0 C1] [C2 C3]].
    destruct (mult_zero (f0 (A := A) : f32) h eq_refl Fh (or_introl eq_refl)) as [FZ EZ].
    assert (OZ : Rabs (B2R (Bmult mode_NE (f0 (A := A) : f32) h) - 0) <= 3 * u * Rabs 0 + tn) by (rewrite EZ, Rminus_0_r, Rabs_R0; lra).
    change (ty_mat (A := A) ts fw 1 i j : f32) with (Bplus mode_NE (idm (A := A) i j) (ty_term (A := A) ts fw 1 i j)). rewrite term_one.
    change (ty_om (A := A) ts fw i j) with (Bmult mode_NE (omega_t (A := A) fw i j) h).
    assert (F1 : is_finite (f1 (A := A) : f32) = true) by reflexivity. assert (E1 : B2R (f1 (A := A) : f32) = 1) by (apply (z32_R 1); lia).
    destruct (Nat.eq_dec i j) as [<-|NE].
    - assert (OD : omega_t (A := A) fw i i = f0) by (do 4 (destruct i as [|i]; [reflexivity|]); lia).
      assert (DG : rmat H i i = 1 + 0) by (unfold H, hq; do 4 (destruct i as [|i]; [cbn; ring|]); lia).
      rewrite OD, DG. unfold idm. rewrite Nat.eqb_refl. split; [exact FZ|]. apply (CASE (f0 (A := A)) (f1 (A := A)) 0 1 FZ OZ F1 E1). left. auto.
    - replace (idm (A := A) i j) with (f0 (A := A)) by (unfold idm; rewrite (proj2 (Nat.eqb_neq i j) NE); reflexivity).
      replace (rmat H i j) with (0 + rmat H i j) by ring.
      assert (G : is_finite (Bmult mode_NE (omega_t (A := A) fw i j) h) = true /\
        Rabs (B2R (Bmult mode_NE (omega_t (A := A) fw i j) h) - rmat H i j) <= 3 * u * Rabs (rmat H i j) + tn).
      { destruct i as [|[|[|[|i]]]]; [| | | |lia]; (destruct j as [|[|[|[|j]]]]; [| | | |lia]); try (exfalso; apply NE; reflexivity); split; assumption. }
      destruct G as [G1 G2]. split; [exact G1|]. apply (CASE _ (f0 (A := A)) (rmat H i j) 0 G1 G2 eq_refl eq_refl). right. reflexivity.
  Qed.
  Lemma D_small : 0 <= D <= 11 / 10000. Proof. unfold D, u. split; nra. Qed.
  Lemma taylor_abs i m : (i < 4)%nat -> (m <= 4)%nat ->
    Rsum m (fun j => Rabs (B2R (ty_mat (A := A) ts fw 1 i j : f32) * qf q j)) <= (1 + D) * qnorm (qmul q H) + 16 * tn.
  Proof.
    intros Hi Hm. pose proof D_small as DS.
    apply Rle_trans with (Rsum m (fun j => (1 + D) * Rabs (rmat H i j * qf q j) + 4 * tn)).
    - apply Rsum_le. intros j Hj. destruct (taylor_cell i j Hi ltac:(lia)) as (_ & _ & _ & _ & C). pose proof (q_bd j ltac:(lia)) as Q.
      rewrite !Rabs_mult. set (c := B2R (ty_mat (A := A) ts fw 1 i j : f32)) in *.
      assert (Rabs c <= (1 + D) * Rabs (rmat H i j) + 2 * tn).
      { replace c with ((c - rmat H i j) + rmat H i j) by ring. eapply Rle_trans; [apply Rabs_triang|]. lra. }
      assert (Rabs c * Rabs (qf q j) <= ((1 + D) * Rabs (rmat H i j) + 2 * tn) * Rabs (qf q j)) by (apply Rmult_le_compat_r; [apply Rabs_pos|auto]).
      assert (2 * tn * Rabs (qf q j) <= 2 * tn * 2) by (apply Rmult_le_compat_l; [unfold tn|]; lra). lra.
    - rewrite Rsum_plus, Rsum_scal. pose proof (rmat_abs H q i m Hi Hm) as L. rewrite qnorm_mul.
      assert ((1 + D) * Rsum m (fun j => Rabs (rmat H i j * qf q j)) <= (1 + D) * (qnorm q * qnorm H)) by (apply Rmult_le_compat_l; lra).
      assert (Rsum m (fun _ => 4 * tn) <= 16 * tn); [|lra]. pose proof (Rsum_less (fun _ => 4 * tn) m ltac:(unfold tn; intros; lra) Hm). cbn [Rsum] in *. lra.
  Qed.
  Lemma M_bd : 99 / 100 <= qnorm (qmul q H) <= 600.
  Proof.
    destruct H_bd as [[H1 H2] H3]. apply Rabs_def2 in Nq as Nq'. rewrite qnorm_mul. split.
    - apply Rle_trans with (999999 / 1000000 * 1); [lra|apply Rmult_le_compat; lra].
    - apply Rle_trans with (1000001 / 1000000 * 501); [apply Rmult_le_compat; auto using qnorm_pos; lra|lra].
  Qed.
  Lemma taylor_row i m : (i < 4)%nat -> (m <= 4)%nat ->
    acc (INR m + 1) (fsum (A := A) m (fun j => Bmult mode_NE (ty_mat (A := A) ts fw 1 i j) (f j)))
      (Rsum m (fun j => B2R (ty_mat (A := A) ts fw 1 i j : f32) * qf q j)) (Rsum m (fun j => Rabs (B2R (ty_mat (A := A) ts fw 1 i j : f32) * qf q j))).
  Proof.
    intros Hi Hm. pose proof (fsum_acc lm m (fun j => ty_mat (A := A) ts fw 1 i j) f Hm) as R.
    rewrite (Rsum_ext m (fun j => B2R (ty_mat (A := A) ts fw 1 i j : f32) * qf q j) (fun j => B2R (ty_mat (A := A) ts fw 1 i j : f32) * B2R (f j)))
      by (intros a Ha; rewrite (proj2 (Ff a ltac:(lia))); auto).
    pose proof (taylor_abs i m Hi Hm) as L.
    rewrite (Rsum_ext m (fun j => Rabs (B2R (ty_mat (A := A) ts fw 1 i j : f32) * qf q j)) (fun j => Rabs (B2R (ty_mat (A := A) ts fw 1 i j : f32) * B2R (f j)))) in *
      by (intros a Ha; rewrite (proj2 (Ff a ltac:(lia))); auto).
    apply R.
    - intros a Ha. split; [apply taylor_cell; lia|apply Ff; lia].
    - eapply Rle_trans; [exact L|]. pose proof D_small. pose proof M_bd. pose proof huge_1. unfold tn. nra.
  Qed.
  Lemma taylor_comp i : (i < 4)%nat ->
    Rabs (B2R (step (A := A) TaylorSeries 1 ts f fw (f0 (A := A)) i : f32) - qf (qmul q H) i) <= (51 / 100000000 + 101 / 100 * d) * qnorm (qmul q H).
  Proof.
    intros Hi. change (step (A := A) TaylorSeries 1 ts f fw (f0 (A := A)) i) with (fsum (A := A) 4 (fun j => Bmult mode_NE (ty_mat (A := A) ts fw 1 i j) (f j))).
    pose proof (acc_final (INR 4 + 1) _ _ _ ltac:(cbn; lra) (taylor_row i 4 Hi ltac:(lia))) as R.
    pose proof (taylor_abs i 4 Hi ltac:(lia)) as L. pose proof D_small as DS. pose proof M_bd as MB. pose proof tiny_small as TS.
    replace (INR 4 + 1) with 5 in R by (cbn; ring).
    set (z := B2R (fsum (A := A) 4 (fun j => Bmult mode_NE (ty_mat (A := A) ts fw 1 i j) (f j)) : f32)) in *.
    set (S := Rsum 4 (fun j => B2R (ty_mat (A := A) ts fw 1 i j : f32) * qf q j)) in *.
    assert (C : Rabs (S - qf (qmul q H) i) <= D * qnorm (qmul q H) + 16 * tn).
    { rewrite <- rmat_mul by auto. unfold S.
      replace (Rsum 4 (fun j => B2R (ty_mat (A := A) ts fw 1 i j : f32) * qf q j) - Rsum 4 (fun j => rmat H i j * qf q j)) with
        (Rsum 4 (fun j => (B2R (ty_mat (A := A) ts fw 1 i j : f32) - rmat H i j) * qf q j)) by (cbn [Rsum]; ring).
      eapply Rle_trans; [apply Rsum_abs|]. apply Rle_trans with (Rsum 4 (fun j => D * Rabs (rmat H i j * qf q j) + 4 * tn)).
      - apply Rsum_le. intros j Hj. destruct (taylor_cell i j Hi Hj) as (_ & _ & _ & _ & C). pose proof (q_bd j Hj) as Q. rewrite !Rabs_mult.
        apply Rle_trans with ((D * Rabs (rmat H i j) + 2 * tn) * Rabs (qf q j)); [apply Rmult_le_compat_r; [apply Rabs_pos|exact C]|].
        assert (2 * tn * Rabs (qf q j) <= 2 * tn * 2) by (apply Rmult_le_compat_l; [unfold tn|]; lra). lra.
      - rewrite Rsum_plus, Rsum_scal. pose proof (rmat_abs H q i 4 Hi ltac:(lia)) as K. rewrite qnorm_mul.
        assert (D * Rsum 4 (fun j => Rabs (rmat H i j * qf q j)) <= D * (qnorm q * qnorm H)) by (apply Rmult_le_compat_l; lra). cbn [Rsum] in *. lra. }
    replace (z - qf (qmul q H) i) with ((z - S) + (S - qf (qmul q H) i)) by ring. eapply Rle_trans; [apply Rabs_triang|].
    set (M := qnorm (qmul q H)) in *. set (Sa := Rsum 4 (fun j => Rabs (B2R (ty_mat (A := A) ts fw 1 i j : f32) * qf q j))) in *.
    assert (5 / 16000000 * Sa <= 5 / 16000000 * ((1 + D) * M + 16 * tn)) by (apply Rmult_le_compat_l; lra).
    assert (D * M <= 11 / 10000 * M) by (apply Rmult_le_compat_r; lra).
    assert (0 <= d * M) by (apply Rmult_le_pos; lra). unfold D, u, tn in *. lra.
  Qed.
End First.

(** an update whose new quaternion, before normalisation, is finite and normalises close to the target *)
Lemma any_core lm ck (s : AR (A := F32 lm)) (g' : Sensor (A := F32 lm)) q w gx gy gz (target : quat) (e : R) :
  ar_inv s Live -> (ar_method s = Euler \/ ar_method s = TaylorSeries /\ ar_order s = 1%nat) ->
  quat_f (ar_attitude s) q -> Rabs (qnorm q - 1) < / 1000000 ->
  sensor_update Gyr gx gy gz (ar_gyr s) = (g', Ok tt) -> reports g' w -> rnorm 3 w <= bpow radix2 60 ->
  (forall f fw : nat -> f32, (forall i, (i < 4)%nat -> is_finite (f i) = true /\ B2R (f i) = qf q i) ->
     (forall i, (i < 3)%nat -> is_finite (fw i) = true /\ B2R (fw i) = w i) -> 98 / 1000000 <= rnorm 3 w -> forall n : f32,
     step_finite (A := F32 lm) ck (ar_method s) (ar_order s) (ar_ts s) f fw n /\
     (forall i, (i < 4)%nat -> valid (A := F32 lm) (step (A := F32 lm) (ar_method s) (ar_order s) (ar_ts s) f fw n i)) /\
     forall v, vec_is (A := F32 lm) v 4 (step (A := F32 lm) (ar_method s) (ar_order s) (ar_ts s) f fw n) ->
       exists v' r, v_normalize (A := F32 lm) v = (v', Ok tt) /\ quat_f v' r /\ Rabs (qnorm r - 1) < / 1000000 /\ qdist r target <= e) ->
  exists s' r, ar_update ck gx gy gz s = (s', Ok tt) /\ ar_gyr s' = g' /\ same_settings s s' /\ quat_f (ar_attitude s') r /\ Rabs (qnorm r - 1) < / 1000000 /\
    ((r = q /\ rnorm 3 w <= 102 / 1000000) \/ rnorm 3 w <> 0 /\ qdist r target <= e).
Proof.
  intros IV M Hq Nq Su Rp N60 G.
  destruct (live_facts s IV) as (c & raw & cor & _ & Hs & Hc & _). destruct IV as (HR & I & AI & _).
  destruct (quat_f_inv _ _ _ Hq) as (f & Hf & Ff).
  set (rw := raw3 (A := F32 lm) gx gy gz).
  pose proof (update_wp (A := F32 lm) Gyr (ar_gyr s) c raw cor rw Hs I) as U. unfold wp in U.
  change (rw 0%nat) with gx in U; change (rw 1%nat) with gy in U; change (rw 2%nat) with gz in U. rewrite Su in U. destruct U as (S1 & S2 & S3 & Hg' & I').
  pose proof (ar_update_wp (A := F32 lm) ck s c raw cor f rw Hs I AI Hf) as W.
  change (rw 0%nat) with gx in W; change (rw 1%nat) with gy in W; change (rw 2%nat) with gz in W. cbv zeta in W. unfold wp in W.
  set (fw := corrected (A := F32 lm) Gyr c rw 3) in *.
  assert (EW : forall i, (i < 3)%nat -> is_finite (fw i : f32) = true /\ B2R (fw i : f32) = w i).
  { intros i Hi. destruct (Rp i Hi) as (x & Ex & Fx & Bx). rewrite (get_is (A := F32 lm) Gyr g' c rw fw i Hg' I' Hi) in Ex.
    assert (E : Ok (E := AhrsError) (fw i : f32) = Ok x) by exact Ex. injection E as ->. auto. }
  assert (NE : rnorm 3 (fun i => B2R (fw i : f32)) = rnorm 3 w) by (apply rnorm_ext; intros i Hi; apply EW, Hi).
  assert (Fw : forall i, (i < 3)%nat -> is_finite (fw i : f32) = true) by (intros; apply EW; auto).
  rewrite <- NE in N60.
  destruct (rate_cases lm fw Fw N60) as [[RB NL]|(RB & NL & Fn & En)]; rewrite <- (gt_b lm) in RB; rewrite RB in W.
  - destruct (ar_update ck gx gy gz s) as [s' [[]|er|]] eqn:EU.
    + destruct W as (SS & EG & _ & EA). rewrite Su in EG. exists s', q. rewrite EA. split; [reflexivity|]. split; [exact EG|]. split; [exact SS|]. split; [exact Hq|]. split; [exact Nq|].
      left. rewrite <- NE. auto.
    + exfalso. destruct W as (_ & _ & _ & [(_ & W & _)|(_ & W & _)]); [apply W; auto|discriminate].
    + exfalso. destruct W as (_ & _ & _ & W). discriminate.
  - set (n := rate_norm (A := F32 lm) fw) in *. rewrite NE in NL. destruct (G f fw Ff EW NL n) as (SF & SV & SN).
    destruct (ar_update ck gx gy gz s) as [s' [[]|er|]] eqn:EU.
    + destruct W as (SS & EG & _ & _ & _ & v & Hv & EV). rewrite Su in EG. destruct (SN v Hv) as (v' & r & EV' & Hr & Nr & Dr).
      rewrite EV in EV'. injection EV' as EA. subst v'. exists s', r. do 5 (split; [assumption || reflexivity|]). right. split; [lra|exact Dr].
    + exfalso. destruct W as (_ & _ & _ & [(_ & W & _)|(_ & _ & [(_ & W & _)|[(_ & W & _)|(_ & _ & _ & W)]])]).
      * apply W. auto.
      * apply W. exact SF.
      * apply W. destruct M as [->|[-> _]]; [right; right|right; left]; reflexivity.
      * destruct W as [W|(v & Hv & W)].
        -- apply W. exact SV.
        -- destruct (SN v Hv) as (v' & r & EV' & _). rewrite EV' in W. apply W. reflexivity.
    + exfalso. destruct W as (_ & M' & O & _). destruct M as [M|[_ O']]; [congruence|rewrite O' in O; lia].
Qed.

Lemma hq_ext w w' t : (forall i, (i < 3)%nat -> w i = w' i) -> hq w t = hq w' t.
Proof. intros E. unfold hq. rewrite !E by lia. reflexivity. Qed.
Lemma rnorm3_ext w w' : (forall i, (i < 3)%nat -> w i = w' i) -> rnorm 3 w = rnorm 3 w'.
Proof. intros E. apply rnorm_ext. exact E. Qed.
Lemma q_near q : Rabs (qnorm q - 1) < / 1000000 -> 0 < qnorm q /\ qdist q (qunit q) <= / 1000000.
Proof. intros H. apply Rabs_def2 in H as H'. split; [lra|]. rewrite qunit_dist by lra. lra. Qed.
Lemma hq_unit_norm w t : qnorm (qunit (hq w t)) = 1.
Proof. apply unit_norm, qunit_unit. pose proof (hq_ge w t). lra. Qed.

(** the exact first-order step from q, before and after *)
Lemma right_target q w t : Rabs (qnorm q - 1) < / 1000000 -> rnorm 3 w <> 0 ->
  qdist (qunit (qmul q (hq w t))) (qmul q (turn w t)) <= / 1000000 + 1000001 / 1000000 * ((rnorm 3 w * Rabs t) ^ 3 / 24).
Proof.
  intros Nq N. destruct (q_near q Nq) as [P D]. pose proof (hq_ge w t) as [H1 _]. rewrite qunit_mul by lra.
  eapply Rle_trans; [apply (qdist_tri _ (qmul q (qunit (hq w t))))|]. rewrite qdist_mul_r, hq_unit_norm, Rmult_1_r, qdist_sym, qdist_mul_l.
  pose proof (hq_close w t N) as C. cbv zeta in C. apply Rabs_def2 in Nq as Nq'.
  assert (qnorm q * qdist (qunit (hq w t)) (turn w t) <= 1000001 / 1000000 * ((rnorm 3 w * Rabs t) ^ 3 / 24)); [|lra].
  apply Rmult_le_compat; auto using qdist_pos; [lra|lra|]. cbn [pow]. rewrite Rmult_1_r, <- Rmult_assoc. exact C.
Qed.
Lemma left_target q w t : Rabs (qnorm q - 1) < / 1000000 -> rnorm 3 w <> 0 ->
  qdist (qunit (qmul (hq w t) q)) (qmul (turn w t) q) <= / 1000000 + 1000001 / 1000000 * ((rnorm 3 w * Rabs t) ^ 3 / 24).
Proof.
  intros Nq N. destruct (q_near q Nq) as [P D]. pose proof (hq_ge w t) as [H1 _]. rewrite qunit_mul by lra.
  eapply Rle_trans; [apply (qdist_tri _ (qmul (qunit (hq w t)) q))|]. rewrite qdist_mul_l, hq_unit_norm, Rmult_1_l, (qdist_sym (qunit q)), qdist_mul_r.
  pose proof (hq_close w t N) as C. cbv zeta in C. apply Rabs_def2 in Nq as Nq'.
  assert (qdist (qunit (hq w t)) (turn w t) * qnorm q <= ((rnorm 3 w * Rabs t) ^ 3 / 24) * (1000001 / 1000000)); [|lra].
  apply Rmult_le_compat; auto using qdist_pos; [lra| |lra]. cbn [pow]. rewrite Rmult_1_r, <- Rmult_assoc. exact C.
Qed.

Definition cube (X : R) : R := X * X * X / 23.
Lemma cube_le X : 0 <= X -> 1000001 / 1000000 * (X ^ 3 / 24) <= cube X.
Proof. intros H. assert (0 <= X ^ 3) by (apply pow_le; auto). unfold cube. replace (X * X * X) with (X ^ 3) by ring. lra. Qed.

Lemma taylor_core lm ck (s : AR (A := F32 lm)) (g' : Sensor (A := F32 lm)) q w gx gy gz d :
  ar_inv s Live -> ar_method s = TaylorSeries -> ar_order s = 1%nat -> is_finite (ar_ts s : f32) = true -> let t := B2R (ar_ts s : f32) in
  quat_f (ar_attitude s) q -> Rabs (qnorm q - 1) < / 1000000 -> pow_one lm d -> 0 <= d <= / 1000 ->
  sensor_update Gyr gx gy gz (ar_gyr s) = (g', Ok tt) -> reports g' w -> rnorm 3 w <= bpow radix2 60 -> rnorm 3 w * Rabs t <= 1000 ->
  exists s' r, ar_update ck gx gy gz s = (s', Ok tt) /\ ar_gyr s' = g' /\ same_settings s s' /\ quat_f (ar_attitude s') r /\ Rabs (qnorm r - 1) < / 1000000 /\
    ((r = q /\ rnorm 3 w <= 102 / 1000000) \/ rnorm 3 w <> 0 /\ qdist r (qunit (qmul q (hq w t))) <= 5 / 1000000 + 5 * d).
Proof.
  intros IV M O Ft t Hq Nq PO Hd Su Rp N60 NB. apply any_core; auto. intros f fw Ff EW NL n. rewrite M, O.
  assert (Fw : forall i, (i < 3)%nat -> is_finite (fw i) = true) by (intros; apply EW; auto).
  assert (NE : rnorm 3 (fun i => B2R (fw i)) = rnorm 3 w) by (apply rnorm3_ext; intros i Hi; apply EW, Hi).
  assert (HE : hq (fun i => B2R (fw i)) t = hq w t) by (apply hq_ext; intros i Hi; apply EW, Hi).
  rewrite <- NE in N60, NL, NB.
  pose proof (taylor_cell lm fw Fw N60 NL (ar_ts s) Ft NB d Hd PO) as TC.
  pose proof (taylor_row lm fw Fw N60 NL (ar_ts s) Ft NB f q Ff Nq d Hd PO) as TR.
  pose proof (taylor_comp lm fw Fw N60 NL (ar_ts s) Ft NB f q Ff Nq d Hd PO) as TP.
  pose proof (M_bd fw NL (ar_ts s) NB q Nq) as MB. fold t in TP, MB. rewrite HE in TP, MB.
  split; [|split].
  - split; [apply (omega_valid lm fw Fw)|]. intros i j Hi Hj. destruct (TC i j Hi Hj) as (T1 & T2 & T3 & T4 & _).
    split; [apply (valid_finite lm); exact T1|]. split; [intros k Hk _; replace k with 1%nat by lia; apply (valid_finite lm); exact T2|].
    split; [intros k Hk _; replace k with 1%nat by lia; split; apply (valid_finite lm); [exact T3|exact T4]|].
    intros _ k Hk. apply (valid_finite lm). apply (TR i k Hi). lia.
  - intros i Hi. apply (valid_finite lm). apply (TR i 4%nat Hi). lia.
  - intros v Hv. destruct (norm_near lm v _ (qmul q (hq w t)) (51 / 100000000 + 101 / 100 * d) Hv ltac:(lra) ltac:(lra) TP) as (v' & r & E & Hr & Nr & Dr).
    exists v', r. split; [exact E|]. split; [exact Hr|]. split; [exact Nr|]. lra.
Qed.
Lemma euler_core lm ck (s : AR (A := F32 lm)) (g' : Sensor (A := F32 lm)) q w gx gy gz :
  ar_inv s Live -> ar_method s = Euler -> is_finite (ar_ts s : f32) = true -> let t := B2R (ar_ts s : f32) in
  quat_f (ar_attitude s) q -> Rabs (qnorm q - 1) < / 1000000 ->
  sensor_update Gyr gx gy gz (ar_gyr s) = (g', Ok tt) -> reports g' w -> rnorm 3 w <= bpow radix2 60 -> rnorm 3 w * Rabs t <= 1000 ->
  exists s' r, ar_update ck gx gy gz s = (s', Ok tt) /\ ar_gyr s' = g' /\ same_settings s s' /\ quat_f (ar_attitude s') r /\ Rabs (qnorm r - 1) < / 1000000 /\
    ((r = q /\ rnorm 3 w <= 102 / 1000000) \/ rnorm 3 w <> 0 /\ qdist r (qunit (qmul (hq w t) q)) <= 5 / 1000000).
Proof.
  intros IV M Ft t Hq Nq Su Rp N60 NB. apply any_core; auto. intros f fw Ff EW NL n. rewrite M.
  assert (Fw : forall i, (i < 3)%nat -> is_finite (fw i) = true) by (intros; apply EW; auto).
  assert (NE : rnorm 3 (fun i => B2R (fw i)) = rnorm 3 w) by (apply rnorm3_ext; intros i Hi; apply EW, Hi).
  assert (HE : hq (fun i => B2R (fw i)) t = hq w t) by (apply hq_ext; intros i Hi; apply EW, Hi).
  rewrite <- NE in N60, NL, NB.
  pose proof (eu_ok lm fw Fw N60 NL (ar_ts s) Ft NB) as EO.
  pose proof (euler_comp lm fw Fw N60 NL (ar_ts s) Ft NB f q Ff Nq) as EC.
  pose proof (M_bd fw NL (ar_ts s) NB q Nq) as MB. fold t in EC, MB. rewrite HE in EC, MB.
  assert (MB' : qnorm (qmul (hq w t) q) = qnorm (qmul q (hq w t))) by (rewrite !qnorm_mul; ring).
  split; [|split].
  - split; [apply (omega_valid lm fw Fw)|]. split; intros i Hi; apply (valid_finite lm); [apply EO; exact Hi|apply EC; exact Hi].
  - intros i Hi. apply (valid_finite lm). apply EC. exact Hi.
  - intros v Hv. destruct (norm_near lm v _ (qmul (hq w t) q) (63 / 100000000) Hv ltac:(rewrite MB'; lra) ltac:(lra) (fun i Hi => proj2 (proj2 (EC i Hi)))) as (v' & r & E & Hr & Nr & Dr).
    exists v', r. split; [exact E|]. split; [exact Hr|]. split; [exact Nr|]. lra.
Qed.

Lemma unchanged_left q w t : Rabs (qnorm q - 1) < / 1000000 -> rnorm 3 w <= 102 / 1000000 -> qdist q (qmul (turn w t) q) <= eps * Rabs t.
Proof.
  intros Nq L. apply Rabs_def2 in Nq. assert (E : qmul qone q = q) by (apply quat_eta; cbn; ring). rewrite <- E at 1. rewrite qdist_mul_r.
  pose proof (turn_small w t) as T. pose proof (rnorm_pos 3 w). pose proof (Rabs_pos t).
  assert (rnorm 3 w * Rabs t <= 102 / 1000000 * Rabs t) by (apply Rmult_le_compat_r; auto).
  assert (qdist qone (turn w t) * qnorm q <= 51 / 1000000 * Rabs t * (1000001 / 1000000)) by (apply Rmult_le_compat; auto using qnorm_pos, qdist_pos; lra).
  unfold eps. lra.
Qed.
Definition step1 (d X : R) : R := X * X * X / 23 + 6 / 1000000 + 5 * d.
Lemma step1_pos d X : 0 <= d -> 0 <= X -> 0 <= step1 d X.
Proof. intros D H. unfold step1. assert (0 <= X * X * X) by (repeat apply Rmult_le_pos; auto). lra. Qed.

Lemma taylor_step lm ck (s : AR (A := F32 lm)) (g' : Sensor (A := F32 lm)) q w gx gy gz d :
  ar_inv s Live -> ar_method s = TaylorSeries -> ar_order s = 1%nat -> is_finite (ar_ts s : f32) = true -> let t := B2R (ar_ts s : f32) in
  quat_f (ar_attitude s) q -> Rabs (qnorm q - 1) < / 1000000 -> pow_one lm d -> 0 <= d <= / 1000 ->
  sensor_update Gyr gx gy gz (ar_gyr s) = (g', Ok tt) -> reports g' w -> rnorm 3 w <= bpow radix2 60 -> rnorm 3 w * Rabs t <= 1000 ->
  let e := step1 d (rnorm 3 w * Rabs t) in
  exists s' r, ar_update ck gx gy gz s = (s', Ok tt) /\ ar_gyr s' = g' /\ same_settings s s' /\ quat_f (ar_attitude s') r /\ Rabs (qnorm r - 1) < / 1000000 /\
    (102 / 100 * eps < rnorm 3 w -> qdist r (qmul q (turn w t)) <= e) /\ qdist r (qmul q (turn w t)) <= e + eps * Rabs t.
Proof.
  intros IV M O Ft t Hq Nq PO Hd Su Rp N60 NB e.
  destruct (taylor_core lm ck s g' q w gx gy gz d IV M O Ft Hq Nq PO Hd Su Rp N60 NB) as (s' & r & E & EG & SS & Hr & Nr & C).
  exists s', r. do 5 (split; [assumption|]). fold t in C.
  assert (X0 : 0 <= rnorm 3 w * Rabs t) by (apply Rmult_le_pos; [apply rnorm_pos|apply Rabs_pos]).
  pose proof (step1_pos d _ ltac:(lra) X0) as E0. fold e in E0. pose proof (Rabs_pos t) as T0.
  assert (P0 : 0 <= eps * Rabs t) by (apply Rmult_le_pos; [unfold eps; lra|auto]).
  destruct C as [[-> L]|[NZ L]].
  - split; [intros Q; exfalso; unfold eps in Q; lra|]. pose proof (unchanged_bound q w t Nq L). lra.
  - pose proof (right_target q w t Nq NZ) as RT. pose proof (cube_le _ X0) as CL. unfold cube in CL.
    pose proof (qdist_tri r (qunit (qmul q (hq w t))) (qmul q (turn w t))) as TR. unfold e, step1 in *. split; [intros _|]; lra.
Qed.
Lemma euler_step lm ck (s : AR (A := F32 lm)) (g' : Sensor (A := F32 lm)) q w gx gy gz :
  ar_inv s Live -> ar_method s = Euler -> is_finite (ar_ts s : f32) = true -> let t := B2R (ar_ts s : f32) in
  quat_f (ar_attitude s) q -> Rabs (qnorm q - 1) < / 1000000 ->
  sensor_update Gyr gx gy gz (ar_gyr s) = (g', Ok tt) -> reports g' w -> rnorm 3 w <= bpow radix2 60 -> rnorm 3 w * Rabs t <= 1000 ->
  let e := step1 0 (rnorm 3 w * Rabs t) in
  exists s' r, ar_update ck gx gy gz s = (s', Ok tt) /\ ar_gyr s' = g' /\ same_settings s s' /\ quat_f (ar_attitude s') r /\ Rabs (qnorm r - 1) < / 1000000 /\
    (102 / 100 * eps < rnorm 3 w -> qdist r (qmul (turn w t) q) <= e) /\ qdist r (qmul (turn w t) q) <= e + eps * Rabs t.
Proof.
  intros IV M Ft t Hq Nq Su Rp N60 NB e.
  destruct (euler_core lm ck s g' q w gx gy gz IV M Ft Hq Nq Su Rp N60 NB) as (s' & r & E & EG & SS & Hr & Nr & C).
  exists s', r. do 5 (split; [assumption|]). fold t in C.
  assert (X0 : 0 <= rnorm 3 w * Rabs t) by (apply Rmult_le_pos; [apply rnorm_pos|apply Rabs_pos]).
  pose proof (step1_pos 0 _ ltac:(lra) X0) as E0. fold e in E0. pose proof (Rabs_pos t) as T0.
  assert (P0 : 0 <= eps * Rabs t) by (apply Rmult_le_pos; [unfold eps; lra|auto]).
  destruct C as [[-> L]|[NZ L]].
  - split; [intros Q; exfalso; unfold eps in Q; lra|]. pose proof (unchanged_left q w t Nq L). lra.
  - pose proof (left_target q w t Nq NZ) as RT. pose proof (cube_le _ X0) as CL. unfold cube in CL.
    pose proof (qdist_tri r (qunit (qmul (hq w t) q)) (qmul (turn w t) q)) as TR. unfold e, step1 in *. split; [intros _|]; lra.
Qed.

(*@ C70_taylor_step *)
(** C70: an update by the Taylor series of order 1 in f32, with pow(x, 1) right up to a factor of 1 + d, of a filter whose
    attitude q has norm 1 within 1e-6 and whose gyrometer accepts the measurement and reports the corrected rate w,
    succeeds; the new attitude has norm 1 within 1e-6 again and is within (|w| t)^3 / 23 + 6e-6 + 5 d of q (turn w t);
    for rates below 1.02 EPSILON, which the filter may ignore, plus EPSILON t *)
Lemma l_taylor_step32 :
  forall (lm : Libm) (ck : bool) (s : AR (A := F32 lm)) (g' : Sensor (A := F32 lm)) (q : quat) (w : nat -> R) (gx gy gz : T (Arith := F32 lm)) (d : R),
  ar_hist ck s Live -> ar_method s = TaylorSeries -> ar_order s = 1%nat -> is_finite (ar_ts s : f32) = true -> let t := B2R (ar_ts s : f32) in
  quat_f (ar_attitude s) q -> Rabs (qnorm q - 1) < / 1000000 -> pow_one lm d -> 0 <= d <= / 1000 ->
  sensor_update Gyr gx gy gz (ar_gyr s) = (g', Ok tt) -> reports g' w -> rnorm 3 w <= bpow radix2 60 -> rnorm 3 w * Rabs t <= 1000 ->
  let X := rnorm 3 w * Rabs t in let e := X * X * X / 23 + 6 / 1000000 + 5 * d in
  exists s' r, ar_update ck gx gy gz s = (s', Ok tt) /\ quat_f (ar_attitude s') r /\ Rabs (qnorm r - 1) < / 1000000 /\
    (102 / 100 * eps < rnorm 3 w -> qdist r (qmul q (turn w t)) <= e) /\
    qdist r (qmul q (turn w t)) <= e + eps * Rabs t.
Proof.
  intros lm ck s g' q w gx gy gz d H M O Ft t Hq Nq PO Hd Su Rp N60 NB X e.
  destruct (taylor_step lm ck s g' q w gx gy gz d (hist_inv _ _ _ H) M O Ft Hq Nq PO Hd Su Rp N60 NB) as (s' & r & E & _ & _ & Hr & Nr & C).
  exists s', r. auto.
Qed.

(*@ C70_euler_step *)
(** C70, and a violation: the Euler method needs no libm and is as accurate, but it turns about the axes of the
    reference frame: the new attitude is within (|w| t)^3 / 23 + 6e-6 of (turn w t) q, not of q (turn w t) *)
Lemma l_euler_step32 :
  forall (lm : Libm) (ck : bool) (s : AR (A := F32 lm)) (g' : Sensor (A := F32 lm)) (q : quat) (w : nat -> R) (gx gy gz : T (Arith := F32 lm)),
  ar_hist ck s Live -> ar_method s = Euler -> is_finite (ar_ts s : f32) = true -> let t := B2R (ar_ts s : f32) in
  quat_f (ar_attitude s) q -> Rabs (qnorm q - 1) < / 1000000 ->
  sensor_update Gyr gx gy gz (ar_gyr s) = (g', Ok tt) -> reports g' w -> rnorm 3 w <= bpow radix2 60 -> rnorm 3 w * Rabs t <= 1000 ->
  let X := rnorm 3 w * Rabs t in let e := X * X * X / 23 + 6 / 1000000 in
  exists s' r, ar_update ck gx gy gz s = (s', Ok tt) /\ quat_f (ar_attitude s') r /\ Rabs (qnorm r - 1) < / 1000000 /\
    (102 / 100 * eps < rnorm 3 w -> qdist r (qmul (turn w t) q) <= e) /\
    qdist r (qmul (turn w t) q) <= e + eps * Rabs t.
Proof.
  intros lm ck s g' q w gx gy gz H M Ft t Hq Nq Su Rp N60 NB X e.
  destruct (euler_step lm ck s g' q w gx gy gz (hist_inv _ _ _ H) M Ft Hq Nq Su Rp N60 NB) as (s' & r & E & _ & _ & Hr & Nr & C1 & C2).
  exists s', r. do 3 (split; [assumption|]). unfold step1 in C1, C2. fold t in C1, C2. fold X in C1, C2. unfold e. split; [intros Q; specialize (C1 Q)|]; lra.
Qed.

(*@ C70_taylor_track *)
(** C70: the errors of successive order-1 updates only add up, for every number of updates *)
Lemma l_taylor_track32 :
  forall (lm : Libm) (ck : bool) (s s' : AR (A := F32 lm)) (q p : quat) (ws : list (nat -> R)) (d : R),
  ar_hist ck s Live -> ar_method s = TaylorSeries -> ar_order s = 1%nat -> is_finite (ar_ts s : f32) = true -> let t := B2R (ar_ts s : f32) in
  quat_f (ar_attitude s) q -> Rabs (qnorm q - 1) < / 1000000 -> pow_one lm d -> 0 <= d <= / 1000 ->
  ar_run ck s ws s' -> Forall (fun w => rnorm 3 w <= bpow radix2 60 /\ rnorm 3 w * Rabs t <= 1000) ws ->
  exists r, quat_f (ar_attitude s') r /\ Rabs (qnorm r - 1) < / 1000000 /\
    qdist r (turns t p ws) <= qdist q p +
      sum_map (fun w => let X := rnorm 3 w * Rabs t in X * X * X / 23 + 6 / 1000000 + 5 * d + eps * Rabs t) ws.
Proof.
  intros lm ck s s' q p ws d H M O Ft t Hq Nq PO Hd R F. pose proof (hist_inv _ _ _ H) as IV. clear H.
  subst t. revert q p Hq Nq IV M O Ft F. induction R as [s|s gx gy gz w s1 ws s' E Rp R IH]; intros q p Hq Nq IV M O Ft F.
  - exists q. split; [exact Hq|]. split; [exact Nq|]. cbn [sum_map turns fold_left]. lra.
  - inversion F as [|w0 ws0 [N60 NB] F']. subst.
    destruct (taylor_step lm ck s _ q w gx gy gz d IV M O Ft Hq Nq PO Hd (update_sensor lm ck s s1 gx gy gz IV E) Rp N60 NB)
      as (s2 & r & E2 & _ & (SS1 & SS2 & SS3 & SS4) & Hr & Nr & _ & C).
    rewrite E in E2. injection E2 as <-.
    assert (IV1 : ar_inv s1 Live). { pose proof (update_live ck gx gy gz s IV) as [U _]. rewrite E in U. apply U. discriminate. }
    set (t := B2R (ar_ts s : f32)) in *.
    assert (Et : B2R (ar_ts s1 : f32) = t) by (unfold t; rewrite SS1; reflexivity).
    destruct (IH r (qmul p (turn w t)) Hr Nr IV1 ltac:(congruence) ltac:(congruence) ltac:(rewrite SS1; exact Ft)) as (r' & Hr' & Nr' & D').
    { rewrite Et. exact F'. }
    rewrite Et in D'. exists r'. split; [exact Hr'|]. split; [exact Nr'|]. cbn [sum_map]. change (turns t p (w :: ws)) with (turns t (qmul p (turn w t)) ws).
    eapply Rle_trans; [exact D'|].
    pose proof (qdist_tri r (qmul q (turn w t)) (qmul p (turn w t))) as TR. rewrite qdist_mul_r, turn_norm, Rmult_1_r in TR. unfold step1 in C. cbv zeta. lra.
Qed.

(*@ C70_euler_track *)
(** C70: and so do those of successive Euler updates, around the attitude turned about the axes of the reference frame *)
Lemma l_euler_track32 :
  forall (lm : Libm) (ck : bool) (s s' : AR (A := F32 lm)) (q p : quat) (ws : list (nat -> R)),
  ar_hist ck s Live -> ar_method s = Euler -> is_finite (ar_ts s : f32) = true -> let t := B2R (ar_ts s : f32) in
  quat_f (ar_attitude s) q -> Rabs (qnorm q - 1) < / 1000000 ->
  ar_run ck s ws s' -> Forall (fun w => rnorm 3 w <= bpow radix2 60 /\ rnorm 3 w * Rabs t <= 1000) ws ->
  exists r, quat_f (ar_attitude s') r /\ Rabs (qnorm r - 1) < / 1000000 /\
    qdist r (turns_left t p ws) <= qdist q p +
      sum_map (fun w => let X := rnorm 3 w * Rabs t in X * X * X / 23 + 6 / 1000000 + eps * Rabs t) ws.
Proof.
  intros lm ck s s' q p ws H M Ft t Hq Nq R F. pose proof (hist_inv _ _ _ H) as IV. clear H.
  subst t. revert q p Hq Nq IV M Ft F. induction R as [s|s gx gy gz w s1 ws s' E Rp R IH]; intros q p Hq Nq IV M Ft F.
  - exists q. split; [exact Hq|]. split; [exact Nq|]. cbn [sum_map turns_left fold_left]. lra.
  - inversion F as [|w0 ws0 [N60 NB] F']. subst.
    destruct (euler_step lm ck s _ q w gx gy gz IV M Ft Hq Nq (update_sensor lm ck s s1 gx gy gz IV E) Rp N60 NB)
      as (s2 & r & E2 & _ & (SS1 & SS2 & SS3 & SS4) & Hr & Nr & _ & C).
    rewrite E in E2. injection E2 as <-.
    assert (IV1 : ar_inv s1 Live). { pose proof (update_live ck gx gy gz s IV) as [U _]. rewrite E in U. apply U. discriminate. }
    set (t := B2R (ar_ts s : f32)) in *.
    assert (Et : B2R (ar_ts s1 : f32) = t) by (unfold t; rewrite SS1; reflexivity).
    destruct (IH r (qmul (turn w t) p) Hr Nr IV1 ltac:(congruence) ltac:(rewrite SS1; exact Ft)) as (r' & Hr' & Nr' & D').
    { rewrite Et. exact F'. }
    rewrite Et in D'. exists r'. split; [exact Hr'|]. split; [exact Nr'|]. cbn [sum_map]. change (turns_left t p (w :: ws)) with (turns_left t (qmul (turn w t) p) ws).
    eapply Rle_trans; [exact D'|].
    pose proof (qdist_tri r (qmul (turn w t) q) (qmul (turn w t) p)) as TR. rewrite qdist_mul_l, turn_norm, Rmult_1_l in TR. unfold step1 in C. cbv zeta. lra.
Qed.

Lemma near_pow : pow_one near_libm 0.
Proof. intros x F. split; [exact F|]. cbn [near_libm lm_pow]. rewrite Rminus_diag_eq, Rabs_R0 by reflexivity. lra. Qed.
Lemma started_sensor1 lm m : let A := F32 lm in
  let p := sensor_update (A := A) Gyr (z32 0) (z32 0) (z32 1) (ar_gyr (started_state lm (z32 1) (z32 0) (z32 0) (z32 0) (z32 1) m 1)) in
  snd p = Ok tt /\ forall i, (i < 3)%nat -> sensor_get Gyr i (fst p) = Ok (z32 (nth i [0; 0; 1]%Z 0%Z)).
Proof.
  intros A p. split; [vm_compute; reflexivity|]. intros i Hi. apply obs_z. do 3 (destruct i as [|i]; [vm_compute; reflexivity|]). lia.
Qed.
Lemma started_quat1 lm m : quat_f (lm := lm) (ar_attitude (started_state lm (z32 1) (z32 0) (z32 0) (z32 0) (z32 1) m 1)) qone.
Proof.
  assert (H : ar_hist true (started_state lm (z32 1) (z32 0) (z32 0) (z32 0) (z32 1) m 1) Live) by (apply started; repeat split).
  destruct (hist_inv _ _ _ H) as (_ & _ & _ & f & Hf).
  exists f. split; [exact Hf|]. intros i Hi. pose proof (vi_get _ _ _ Hf i Hi) as G.
  assert (E : obs (v_get (ar_attitude (started_state lm (z32 1) (z32 0) (z32 0) (z32 0) (z32 1) m 1)) i) = Ok (sf (nth i [1; 0; 0; 0]%Z 0%Z))).
  { clear G. do 4 (destruct i as [|i]; [vm_compute; reflexivity|]). lia. }
  apply obs_z in E. rewrite G in E. assert (X : Ok (E := LinalgError) (f i : f32) = Ok (z32 (nth i [1; 0; 0; 0]%Z 0%Z))) by exact E. injection X as ->.
  do 4 (destruct i as [|i]; [apply z32_R; cbn; lia|]). lia.
Qed.
Lemma example_first :
  forall (ck : bool) (m : NIM), m = TaylorSeries \/ m = Euler -> exists s s' : AR (A := F32 near_libm),
  ar_hist ck s Live /\ ar_method s = m /\ ar_order s = 1%nat /\ is_finite (ar_ts s : f32) = true /\ B2R (ar_ts s : f32) = 1 /\
  quat_f (ar_attitude s) qone /\ pow_one near_libm 0 /\ ar_run ck s [triple 0 0 1] s' /\ rnorm 3 (triple 0 0 1) = 1.
Proof.
  intros ck m Hm. set (s := started_state near_libm (z32 1) (z32 0) (z32 0) (z32 0) (z32 1) m 1).
  assert (H : ar_hist ck s Live) by (apply started; repeat split).
  assert (N1 : rnorm 3 (triple 0 0 1) = 1). { unfold rnorm, rdot. cbn. transitivity (sqrt 1); [f_equal; ring|apply sqrt_1]. }
  destruct (started_sensor1 near_libm m) as [E G]. cbv zeta in E, G. fold s in E, G.
  destruct (sensor_update Gyr _ _ _ (ar_gyr s)) as [g' o] eqn:Su. cbn [fst snd] in E, G. subst o.
  assert (R : reports g' (triple 0 0 1)).
  { intros i Hi. exists (z32 (nth i [0; 0; 1]%Z 0%Z)). split; [apply G, Hi|].
    do 3 (destruct i as [|i]; [apply z32_R; cbn; lia|]). lia. }
  assert (T1 : is_finite (ar_ts s : f32) = true /\ B2R (ar_ts s : f32) = 1).
  { assert (ET : ar_ts s = z32 1) by reflexivity. rewrite ET. apply z32_R. lia. }
  assert (NO : qnorm qone = 1) by (apply unit_norm; unfold unitq, qnorm2, qone; cbn; ring).
  assert (B60 : 1 <= bpow radix2 60) by (change 1 with (bpow radix2 0); apply bpow_le; lia).
  assert (Q1 : Rabs (qnorm qone - 1) < / 1000000) by (rewrite NO; replace (1 - 1) with 0 by ring; rewrite Rabs_R0; lra).
  assert (X1 : rnorm 3 (triple 0 0 1) * Rabs (B2R (ar_ts s : f32)) <= 1000) by (rewrite (proj2 T1), N1, Rabs_R1; lra).
  assert (M1 : ar_method s = m) by reflexivity. assert (O1 : ar_order s = 1%nat) by reflexivity.
  assert (EX : exists s' : AR (A := F32 near_libm), ar_update (A := F32 near_libm) ck (z32 0) (z32 0) (z32 1) s = (s', Ok tt) /\ ar_gyr s' = g').
  { destruct Hm as [Em|Em].
    - destruct (taylor_step near_libm ck s g' qone (triple 0 0 1) (z32 0) (z32 0) (z32 1) 0 (hist_inv _ _ _ H) ltac:(congruence) O1 (proj1 T1) (started_quat1 _ _)
        Q1 near_pow ltac:(lra) Su R ltac:(rewrite N1; exact B60) X1) as (s' & r & EU & EG & _). eauto.
    - destruct (euler_step near_libm ck s g' qone (triple 0 0 1) (z32 0) (z32 0) (z32 1) (hist_inv _ _ _ H) ltac:(congruence) (proj1 T1) (started_quat1 _ _)
        Q1 Su R ltac:(rewrite N1; exact B60) X1) as (s' & r & EU & EG & _). eauto. }
  destruct EX as (s' & EU & EG).
  exists s, s'. split; [exact H|]. split; [exact M1|]. split; [exact O1|]. split; [apply T1|]. split; [apply T1|]. split; [apply started_quat1|]. split; [apply near_pow|].
  split; [|exact N1]. econstructor; [exact EU|rewrite EG; exact R|constructor].
Qed.

(*@ example *)
(** one radian per second about z for one second, by either method *)
Example C70_example :
  forall (ck : bool) (m : NIM), m = TaylorSeries \/ m = Euler -> exists s s' : AR (A := F32 near_libm),
  ar_hist ck s Live /\ ar_method s = m /\ ar_order s = 1%nat /\ is_finite (ar_ts s : f32) = true /\ B2R (ar_ts s : f32) = 1 /\
  quat_f (ar_attitude s) qone /\ pow_one near_libm 0 /\ ar_run ck s [triple 0 0 1] s' /\ rnorm 3 (triple 0 0 1) = 1.
Proof. exact example_first. Qed.
