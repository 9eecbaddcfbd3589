(** C76: linear and spherical interpolation in f32. *)
(*@+*)
From Coq Require Import List Arith ZArith Reals Lia Bool Lra SpecFloat.
From Flocq Require Import Core BinarySingleNaN.
From Verif Require Import M_Base M_Arith M_Utils M_Vector M_Matrix M_F32
  S_Spec S_Linalg S_Norm S_Quat S_F32 S_Track S_Interp32 P_Inst P_InstF.
Import ListNotations.
Local Open Scope R_scope.
(*@-*)
From Coq Require Import Psatz.
From Verif Require Import P_Hoare P_Cont P_Loops P_Access P_Pointwise P_Trans P_Float P_Product
  P_Dot P_Norm P_FErr P_Norm32 P_FAcc P_F32Mul P_F32Ar P_Lup32 P_Qr32 P_Interp P_Inv32 P_Euler32.

Lemma vec_f_inv lm (v : Vec (T (Arith := F32 lm))) n x : vec_f v n x -> exists f : nat -> f32, vec_is (A := F32 lm) v n f /\
  (forall i, (i < n)%nat -> is_finite (f i) = true /\ B2R (f i) = x i).
Proof.
  intros (f & Hf & E). exists f. split; [exact Hf|]. intros i Hi. split; [|apply E, Hi]. apply (valid_finite lm). eapply vec_is_valid; eauto.
Qed.
Lemma in_range32 lm (k : f32) : is_finite k = true -> 0 <= B2R k <= 1 -> in_range (A := F32 lm) (k : T (Arith := F32 lm)) f0 f1 = true.
Proof.
  intros F H. unfold in_range. apply andb_true_iff. split.
  - change (Bleb (f0 (A := F32 lm) : f32) k = true). rewrite Bleb_ok by (reflexivity || exact F). apply Rle_bool_true. change (B2R (f0 (A := F32 lm) : f32)) with 0. lra.
  - change (Bleb k (f1 (A := F32 lm) : f32) = true). rewrite Bleb_ok by (reflexivity || exact F). rewrite B2R_f1. apply Rle_bool_true. lra.
Qed.
Lemma below127 M : M <= bpow radix2 100 -> 16 * M <= bpow radix2 127.
Proof.
  intros H. apply Rle_trans with (16 * bpow radix2 100); [lra|]. change 16 with (bpow radix2 4). rewrite <- bpow_plus. apply bpow_le. lia.
Qed.
Lemma eta_tiny8 : 0 < eta /\ 8 * eta <= tiny.
Proof. split; [apply bpow_gt_0|]. unfold tiny, eta. change 8 with (bpow radix2 3). rewrite <- bpow_plus. apply bpow_le. cbn. lia. Qed.

(** one component: rnd (rnd (a p) + rnd (b q)) *)
Lemma blend32 (a b p q : f32) (M P Q : R) : is_finite a = true -> is_finite b = true -> is_finite p = true -> is_finite q = true ->
  Rabs (B2R a) <= M -> Rabs (B2R b) <= M -> Rabs (B2R p) <= P -> Rabs (B2R q) <= Q -> M * (P + Q) <= 4 * bpow radix2 100 ->
  let r := Bplus mode_NE (Bmult mode_NE a p) (Bmult mode_NE b q) in
  is_finite (Bmult mode_NE a p) = true /\ is_finite (Bmult mode_NE b q) = true /\ is_finite r = true /\
  Rabs (B2R r - (B2R a * B2R p + B2R b * B2R q)) <= u * (2001 / 1000) * (M * (P + Q)) + 4 * eta.
Proof.
  intros Fa Fb Fp Fq Ha Hb Hp Hq HM. cbv zeta. assert (U : u = 1 / 16777216) by reflexivity. assert (E0 : 0 < eta) by apply bpow_gt_0. assert (E1 : eta <= / 1000000000000000000000000000000) by (pose proof eta_tau as ET1; unfold tau in ET1; lra).
  assert (M0 : 0 <= M) by (pose proof (Rabs_pos (B2R a)); lra). assert (P0 : 0 <= P) by (pose proof (Rabs_pos (B2R p)); lra). assert (Q0 : 0 <= Q) by (pose proof (Rabs_pos (B2R q)); lra).
  assert (K1 : Rabs (B2R a * B2R p) <= M * P) by (rewrite Rabs_mult; apply Rmult_le_compat; auto using Rabs_pos).
  assert (K2 : Rabs (B2R b * B2R q) <= M * Q) by (rewrite Rabs_mult; apply Rmult_le_compat; auto using Rabs_pos).
  assert (0 <= M * P) by (apply Rmult_le_pos; auto). assert (0 <= M * Q) by (apply Rmult_le_pos; auto). rewrite Rmult_plus_distr_l in *.
  pose proof (below127 (bpow radix2 100) ltac:(lra)) as B. assert (B1 : 1 <= bpow radix2 100) by (change 1 with (bpow radix2 0); apply bpow_le; lia).
  destruct (mult_ok a p Fa Fp) as [F1 R1]; [lra|]. destruct (mult_ok b q Fb Fq) as [F2 R2]; [lra|].
  pose proof (rnd_near _ _ K1) as D1. pose proof (rnd_near _ _ K2) as D2. rewrite <- R1 in D1. rewrite <- R2 in D2. clear R1 R2.
  set (x := Bmult mode_NE a p) in *. set (y := Bmult mode_NE b q) in *.
  assert (S : Rabs (B2R x + B2R y) <= 1001 / 1000 * (M * P + M * Q) + 2 * eta).
  { apply Rabs_le_inv in K1, K2, D1, D2. rewrite U in *. apply Rabs_le. lra. }
  destruct (plus_ok x y F1 F2) as [F3 R3]; [lra|]. split; [exact F1|]. split; [exact F2|]. split; [exact F3|]. rewrite R3.
  pose proof (rnd_near _ _ S) as D3. clear - D1 D2 D3 U E0. apply Rabs_le_inv in D1, D2, D3. rewrite U in *. apply Rabs_le. lra.
Qed.

(*@ C76_lerp *)
(** C76: every component of the f32 linear interpolation is within 2e-7 of the larger end, plus 2^-140 *)
Lemma l_lerp32 :
  forall (lm : Libm) (self v1 v2 : Vec (T (Arith := F32 lm))) (n : nat) (s a b : nat -> R) (k : T (Arith := F32 lm)) (M : R),
  vec_f self n s -> vec_f v1 n a -> vec_f v2 n b -> is_finite (k : f32) = true -> 0 <= B2R (k : f32) <= 1 ->
  (forall i, (i < n)%nat -> Rabs (a i) <= M /\ Rabs (b i) <= M) -> M <= bpow radix2 100 ->
  exists v' r, v_lerp v1 v2 k self = (v', Ok tt) /\ vec_f v' n r /\
    forall i, (i < n)%nat -> Rabs (r i - ((1 - B2R (k : f32)) * a i + B2R (k : f32) * b i)) <= 2 / 10000000 * M + tiny.
Proof.
  intros lm self v1 v2 n s a b k M Hs H1 H2 Fk Hk HM BM.
  destruct (vec_f_inv lm self n s Hs) as (fs & Hfs & _). destruct (vec_f_inv lm v1 n a H1) as (f & Hf & Ef). destruct (vec_f_inv lm v2 n b H2) as (g & Hg & Eg).
  destruct (lerp_prefix (A := F32 lm) self v1 v2 n _ _ _ k Hfs Hf Hg (in_range32 lm k Fk Hk)) as (x & y & Hx & Hy & ->).
  assert (U : u = 1 / 16777216) by reflexivity. assert (E0 : 0 < eta) by apply bpow_gt_0. assert (E1 : eta <= / 1000000000000000000000000000000) by (pose proof eta_tau as ET1; unfold tau in ET1; lra). pose proof eta_tiny8 as [_ ET].
  assert (B127 : 10 <= bpow radix2 127) by (apply Rle_trans with (bpow radix2 4); [cbn; lra|apply bpow_le; lia]).
  destruct (minus_ok (f1 (A := F32 lm)) k eq_refl Fk) as [Fp Rp]; [rewrite B2R_f1; apply Rabs_le; lra|]. rewrite B2R_f1 in Rp.
  assert (Dp : Rabs (rnd32 (1 - B2R k) - (1 - B2R k)) <= u * 1 + eta) by (apply rnd_near, Rabs_le; lra). rewrite <- Rp in Dp. clear Rp.
  change (fsub (Arith := F32 lm) f1 k) with (Bminus mode_NE (f1 (A := F32 lm)) k : f32). set (p := Bminus mode_NE (f1 (A := F32 lm)) k) in *.
  apply Rabs_le_inv in Dp.
  assert (C : forall i, (i < n)%nat -> let r := Bplus mode_NE (Bmult mode_NE (f i : f32) p) (Bmult mode_NE (g i : f32) k) in
     is_finite (Bmult mode_NE (f i : f32) p) = true /\ is_finite (Bmult mode_NE (g i : f32) k) = true /\ is_finite r = true /\
     Rabs (B2R r - ((1 - B2R k) * a i + B2R k * b i)) <= 2 / 10000000 * M + tiny).
  { intros i Hi. cbv zeta. destruct (HM i Hi) as [A1 A2]. destruct (Ef i Hi) as [F1 R1]. destruct (Eg i Hi) as [F2 R2]. rewrite <- R1, <- R2 in *. clear R1 R2.
    assert (M0 : 0 <= M) by (eapply Rle_trans; [apply Rabs_pos|exact A1]).
    destruct (blend32 (f i) (g i) p k M (1 - B2R k + u + eta) (B2R k)) as (G1 & G2 & G3 & G4); auto; try (apply Rabs_le; rewrite U in *; lra).
    { apply Rle_trans with (M * 2); [apply Rmult_le_compat_l; [lra|rewrite U; lra]|]. pose proof (bpow_ge_0 radix2 100). lra. }
    split; [exact G1|]. split; [exact G2|]. split; [exact G3|].
    assert (X : Rabs (B2R (f i) * (B2R p - (1 - B2R k))) <= M * (u + eta)) by (rewrite Rabs_mult; apply Rmult_le_compat; auto using Rabs_pos; apply Rabs_le; lra).
    replace (B2R (Bplus mode_NE (Bmult mode_NE (f i) p) (Bmult mode_NE (g i) k)) - ((1 - B2R k) * B2R (f i) + B2R k * B2R (g i)))
      with ((B2R (Bplus mode_NE (Bmult mode_NE (f i) p) (Bmult mode_NE (g i) k)) - (B2R (f i) * B2R p + B2R (g i) * B2R k)) + B2R (f i) * (B2R p - (1 - B2R k))) by ring.
    eapply Rle_trans; [apply Rabs_triang|]. assert (V : 1 - B2R k + u + eta + B2R k <= 1 + 2 * u) by (rewrite U; lra).
    assert (M * (1 - B2R k + u + eta + B2R k) <= M * (1 + 2 * u)) by (apply Rmult_le_compat_l; auto). assert (M * (u + eta) <= M * (1001 / 1000 * u)) by (apply Rmult_le_compat_l; [lra|rewrite U; lra]).
    rewrite U in *. lra. }
  destruct (combine_ok (A := F32 lm) self x y n _ _ _ (p : T (Arith := F32 lm)) k Hfs Hx Hy) as (s' & E & H);
    try (intros i Hi; apply (valid_finite lm); apply (C i Hi)).
  exists s'. eexists. split; [exact E|]. split; [eexists; split; [exact H|intros i Hi; reflexivity]|]. intros i Hi. apply (C i Hi).
Qed.

(*@ C76_lerp_ends *)
(** C76: at 0 and at 1 it is exactly the first and the second end, for all finite f32 vectors *)
Lemma l_lerp32_ends :
  forall (lm : Libm) (self v1 v2 : Vec (T (Arith := F32 lm))) (n : nat) (s a b : nat -> R) (k : T (Arith := F32 lm)),
  vec_f self n s -> vec_f v1 n a -> vec_f v2 n b -> is_finite (k : f32) = true ->
  (B2R (k : f32) = 0 -> exists v', v_lerp v1 v2 k self = (v', Ok tt) /\ vec_f v' n a) /\
  (B2R (k : f32) = 1 -> exists v', v_lerp v1 v2 k self = (v', Ok tt) /\ vec_f v' n b).
Proof.
  intros lm self v1 v2 n s a b k Hs H1 H2 Fk.
  destruct (vec_f_inv lm self n s Hs) as (fs & Hfs & _). destruct (vec_f_inv lm v1 n a H1) as (f & Hf & Ef). destruct (vec_f_inv lm v2 n b H2) as (g & Hg & Eg).
  assert (B127 : 10 <= bpow radix2 127) by (apply Rle_trans with (bpow radix2 4); [cbn; lra|apply bpow_le; lia]).
  assert (MX : forall x : f32, Rabs (B2R x) < bpow radix2 emax) by (intros x; apply abs_B2R_lt_emax).
  assert (ID : forall x : f32, rnd32 (B2R x) = B2R x) by (intros x; apply round_generic; [apply valid_rnd_N|apply generic_format_B2R]).
  assert (Z0 : rnd32 0 = 0) by (apply round_0; apply valid_rnd_N).
  assert (One : forall x y : f32, is_finite x = true -> is_finite y = true -> B2R y = 1 -> is_finite (Bmult mode_NE x y) = true /\ B2R (Bmult mode_NE x y) = B2R x).
  { intros x y Fx Fy Ey. pose proof (Bmult_correct prec emax _ _ mode_NE x y) as C. cbn [round_mode] in C. rewrite Ey, Rmult_1_r in C. change (round radix2 _ _ (B2R x)) with (rnd32 (B2R x)) in C.
    rewrite ID, Rlt_bool_true in C by apply MX. rewrite Fx, Fy in C. tauto. }
  assert (Zer : forall x y : f32, is_finite x = true -> is_finite y = true -> B2R y = 0 -> is_finite (Bmult mode_NE x y) = true /\ B2R (Bmult mode_NE x y) = 0).
  { intros x y Fx Fy Ey. destruct (mult_ok x y Fx Fy) as [F E]; rewrite Ey, Rmult_0_r in *; [rewrite Rabs_R0; lra|]. rewrite Z0 in E. auto. }
  assert (Sum : forall x y : f32, is_finite x = true -> is_finite y = true -> B2R y = 0 -> is_finite (Bplus mode_NE x y) = true /\ B2R (Bplus mode_NE x y) = B2R x).
  { intros x y Fx Fy Ey. pose proof (Bplus_correct prec emax _ _ mode_NE x y Fx Fy) as C. cbn [round_mode] in C. rewrite Ey, Rplus_0_r in C. change (round radix2 _ _ (B2R x)) with (rnd32 (B2R x)) in C.
    rewrite ID, Rlt_bool_true in C by apply MX. tauto. }
  assert (Sum' : forall x y : f32, is_finite x = true -> is_finite y = true -> B2R x = 0 -> is_finite (Bplus mode_NE x y) = true /\ B2R (Bplus mode_NE x y) = B2R y).
  { intros x y Fx Fy Ey. pose proof (Bplus_correct prec emax _ _ mode_NE x y Fx Fy) as C. cbn [round_mode] in C. rewrite Ey, Rplus_0_l in C. change (round radix2 _ _ (B2R y)) with (rnd32 (B2R y)) in C.
    rewrite ID, Rlt_bool_true in C by apply MX. tauto. }
  assert (Go : 0 <= B2R k <= 1 -> (forall i, (i < n)%nat -> let p := Bminus mode_NE (f1 (A := F32 lm)) k in
      is_finite (Bmult mode_NE (f i : f32) p) = true /\ is_finite (Bmult mode_NE (g i : f32) k) = true /\ is_finite (Bplus mode_NE (Bmult mode_NE (f i : f32) p) (Bmult mode_NE (g i : f32) k)) = true) ->
      exists v', v_lerp v1 v2 k self = (v', Ok tt) /\ vec_f v' n (fun i => B2R (Bplus mode_NE (Bmult mode_NE (f i : f32) (Bminus mode_NE (f1 (A := F32 lm)) k)) (Bmult mode_NE (g i : f32) k)))).
  { intros Hk C. destruct (lerp_prefix (A := F32 lm) self v1 v2 n _ _ _ k Hfs Hf Hg (in_range32 lm k Fk Hk)) as (x & y & Hx & Hy & ->).
    destruct (combine_ok (A := F32 lm) self x y n _ _ _ (Bminus mode_NE (f1 (A := F32 lm)) k : T (Arith := F32 lm)) k Hfs Hx Hy) as (s' & E & H);
      try (intros i Hi; apply (valid_finite lm); apply (C i Hi)).
    exists s'. split; [exact E|]. eexists. split; [exact H|]. intros; reflexivity. }
  assert (Em : Rabs (B2R (f1 (A := F32 lm) : f32) - B2R k) <= bpow radix2 127 -> is_finite (Bminus mode_NE (f1 (A := F32 lm)) k) = true /\ B2R (Bminus mode_NE (f1 (A := F32 lm)) k) = rnd32 (1 - B2R k)).
  { intros H. pose proof (minus_ok (f1 (A := F32 lm)) k eq_refl Fk H) as K. rewrite B2R_f1 in K. exact K. }
  rewrite B2R_f1 in Em. split; intros Ek; rewrite Ek in *; (destruct Em as [Fp Rp]; [apply Rabs_le; lra|]).
  - rewrite Rminus_0_r in Rp. assert (Rp' : B2R (Bminus mode_NE (f1 (A := F32 lm)) k) = 1) by (rewrite Rp, <- (B2R_f1 lm); apply ID). destruct Go as (v' & E & f' & Hf' & Ef'); [lra| |].
    + intros i Hi. cbv zeta. destruct (Ef i Hi) as [F1 _]. destruct (Eg i Hi) as [F2 _]. destruct (One _ _ F1 Fp Rp') as [X1 X2]. destruct (Zer _ _ F2 Fk Ek) as [Y1 Y2].
      split; [exact X1|]. split; [exact Y1|]. apply Sum; auto.
    + exists v'. split; [exact E|]. exists f'. split; [exact Hf'|]. intros i Hi. rewrite (Ef' i Hi). destruct (Ef i Hi) as [F1 R1]. destruct (Eg i Hi) as [F2 _]. destruct (One _ _ F1 Fp Rp') as [X1 X2]. destruct (Zer _ _ F2 Fk Ek) as [Y1 Y2].
      rewrite <- R1, <- X2. apply Sum; auto.
  - assert (Rp' : B2R (Bminus mode_NE (f1 (A := F32 lm)) k) = 0) by (rewrite Rp; replace (1 - 1) with 0 by ring; exact Z0). destruct Go as (v' & E & f' & Hf' & Ef'); [lra| |].
    + intros i Hi. cbv zeta. destruct (Ef i Hi) as [F1 _]. destruct (Eg i Hi) as [F2 _]. destruct (Zer _ _ F1 Fp Rp') as [X1 X2]. destruct (One _ _ F2 Fk Ek) as [Y1 Y2].
      split; [exact X1|]. split; [exact Y1|]. apply Sum'; auto.
    + exists v'. split; [exact E|]. exists f'. split; [exact Hf'|]. intros i Hi. rewrite (Ef' i Hi). destruct (Ef i Hi) as [F1 _]. destruct (Eg i Hi) as [F2 R2]. destruct (Zer _ _ F1 Fp Rp') as [X1 X2]. destruct (One _ _ F2 Fk Ek) as [Y1 Y2].
      rewrite <- R2, <- Y2. apply Sum'; auto.
Qed.

(** ** spherical interpolation *)
Lemma acos_diff c : -1 < c < 1 -> derivable_pt_lim acos c (- / sqrt (1 - Rsqr c)).
Proof.
  intros H. apply derive_pt_eq_1 with (derivable_pt_acos c H). rewrite derive_pt_acos. unfold Rdiv. ring.
Qed.
Lemma acos_lip x y e : 0 <= e <= / 1000000 -> / 10 <= sqrt (1 - x * x) -> Rabs (y - x) <= e -> -1 < y < 1 /\ Rabs (acos y - acos x) <= 101 / 100 * e / sqrt (1 - x * x).
Proof.
  intros He Hs Hy. set (s := sqrt (1 - x * x)) in *. assert (S2 : s * s = 1 - x * x).
  { apply sqrt_sqrt. destruct (Rle_or_lt 0 (1 - x * x)) as [H|H]; [exact H|]. exfalso. unfold s in Hs. rewrite sqrt_neg_0 in Hs by lra. lra. }
  assert (X : -1 < x < 1) by (split; nra). assert (S01 : s <= 1) by nra. apply Rabs_le_inv in Hy.
  assert (C : forall c, Rmin x y <= c <= Rmax x y -> -1 < c < 1 /\ 99 / 100 * s <= sqrt (1 - c * c) * (1 - / 1000)).
  { intros c Hc. assert (Hcx : - e <= c - x <= e) by (revert Hc; unfold Rmin, Rmax; destruct (Rle_dec x y); lra).
    assert (K : (992 / 1000 * s) * (992 / 1000 * s) <= 1 - c * c).
    { replace (1 - c * c) with (s * s - 2 * x * (c - x) - (c - x) * (c - x)) by (rewrite S2; ring). assert (/ 100 <= s * s) by nra.
      assert (Rabs (x * (c - x)) <= 1 * e) by (rewrite Rabs_mult; apply Rmult_le_compat; auto using Rabs_pos; apply Rabs_le; lra). apply Rabs_le_inv in H0. assert ((c - x) * (c - x) <= / 1000000) by nra. nra. }
    assert (0 < s) by lra. split; [split; nra|]. assert (992 / 1000 * s <= sqrt (1 - c * c)) by (rewrite <- (sqrt_square (992 / 1000 * s)) by lra; apply sqrt_le_1_alt, K). lra. }
  assert (Y : -1 < y < 1) by (apply C; unfold Rmin, Rmax; destruct (Rle_dec x y); lra). split; [exact Y|].
  assert (G : exists c, acos y - acos x = - / sqrt (1 - Rsqr c) * (y - x) /\ Rmin x y <= c <= Rmax x y).
  { destruct (Rtotal_order x y) as [L|[L|L]].
    - destruct (MVT_cor2 acos (fun c => - / sqrt (1 - Rsqr c)) x y L) as (c & E & K).
      + intros c Hc. apply acos_diff. apply C. rewrite Rmin_left, Rmax_right by lra. exact Hc.
      + exists c. split; [exact E|]. rewrite Rmin_left, Rmax_right by lra. lra.
    - subst y. exists x. split; [ring|]. rewrite Rmin_left, Rmax_right by lra. lra.
    - destruct (MVT_cor2 acos (fun c => - / sqrt (1 - Rsqr c)) y x L) as (c & E & K).
      + intros c Hc. apply acos_diff. apply C. rewrite Rmin_right, Rmax_left by lra. exact Hc.
      + exists c. split; [lra|]. rewrite Rmin_right, Rmax_left by lra. lra. }
  destruct G as (c & E & Hc). destruct (C c Hc) as [_ D]. rewrite E, Rabs_mult, Rabs_Ropp. change (Rsqr c) with (c * c).
  set (t := sqrt (1 - c * c)) in *. assert (0 < t) by lra. rewrite Rabs_pos_eq by (left; apply Rinv_0_lt_compat; lra).
  apply Rle_trans with (/ t * e); [apply Rmult_le_compat_l; [left; apply Rinv_0_lt_compat; lra|apply Rabs_le; lra]|].
  assert (/ t <= 101 / 100 * / s) by (apply Rmult_le_reg_l with t; [lra|]; rewrite Rinv_r by lra; apply Rmult_le_reg_r with s; [lra|]; replace (t * (101 / 100 * / s) * s) with (101 / 100 * t) by (field; lra); lra).
  unfold Rdiv in *. assert (/ t * e <= (101 * / 100 * / s) * e) by (apply Rmult_le_compat_r; lra). lra.
Qed.
(** one weight: sin (w t) / sin t *)
Lemma weight_err (n0 n' s0 s' e : R) : 0 <= e <= / 20000 -> / 10 <= s0 -> s0 <= 1 -> Rabs n0 <= 1 -> Rabs (n' - n0) <= 2 * e / s0 -> Rabs (s' - s0) <= 2 * e / s0 ->
  99 / 100 * s0 <= s' /\ Rabs (n' / s' - n0 / s0) <= 41 / 10 * e / (s0 * s0 * s0) /\ Rabs (n' / s') <= 11 / 10 / s0 + 41 / 10 * e / (s0 * s0 * s0).
Proof.
  intros He L S1 N0 Hn Hs. assert (I : s0 * / s0 = 1) by (apply Rinv_r; lra). unfold Rdiv in *. set (k := / s0) in *.
  assert (K0 : 0 < k) by (apply Rinv_0_lt_compat; lra). assert (K1 : 1 <= k) by nra.
  assert (D : 99 / 100 * s0 <= s').
  { apply Rabs_le_inv in Hs. assert (2 * e * k <= / 100 * s0); [|lra]. apply Rmult_le_reg_r with s0; [lra|]. replace (2 * e * k * s0) with (2 * e * (s0 * k)) by ring. rewrite I. nra. }
  split; [unfold Rdiv in D; exact D|]. assert (J : s' * / s' = 1) by (apply Rinv_r; lra). set (j := / s') in *. assert (J0 : 0 < j) by (apply Rinv_0_lt_compat; lra).
  assert (J1 : j <= 102 / 100 * k). { apply Rmult_le_reg_r with s'; [lra|]. rewrite (Rmult_comm j), J. assert (k * (99 / 100 * s0) <= k * s') by (apply Rmult_le_compat_l; lra). replace (k * (99 / 100 * s0)) with (99 / 100 * (s0 * k)) in H by ring. rewrite I in H. lra. }
  assert (E : / (s0 * s0 * s0) = k * k * k) by (unfold k; field; lra). rewrite E.
  assert (KK : k * k <= k * k * k) by nra. assert (KK0 : 0 <= k * k) by nra.
  assert (A1 : Rabs ((n' - n0) * j) <= 2 * e * k * (102 / 100 * k)). { rewrite Rabs_mult, (Rabs_pos_eq j) by lra. apply Rmult_le_compat; try apply Rabs_pos; lra. }
  assert (A2 : Rabs (n0 * ((s' - s0) * (k * j))) <= 1 * (2 * e * k * (k * (102 / 100 * k)))).
  { rewrite !Rabs_mult, (Rabs_pos_eq j), (Rabs_pos_eq k) by lra. apply Rmult_le_compat; try apply Rabs_pos; [|exact N0|]; [apply Rmult_le_pos; [apply Rabs_pos|nra]|].
    apply Rmult_le_compat; try apply Rabs_pos; [nra|exact Hs|]. apply Rmult_le_compat_l; lra. }
  assert (W : Rabs (n' * j - n0 * k) <= 41 * / 10 * e * (k * k * k)).
  { assert (X : n' * j - n0 * k = (n' - n0) * j - n0 * ((s' - s0) * (k * j))).
    { replace (n0 * ((s' - s0) * (k * j))) with (n0 * (k * (s' * j) - j * (s0 * k))) by ring. rewrite I, J. ring. }
    rewrite X. eapply Rle_trans; [apply Rabs_triang|]. rewrite Rabs_Ropp.
    assert (e * (k * k) <= e * (k * k * k)) by (apply Rmult_le_compat_l; lra). replace (2 * e * k * (102 / 100 * k)) with (204 / 100 * (e * (k * k))) in A1 by field.
    replace (1 * (2 * e * k * (k * (102 / 100 * k)))) with (204 / 100 * (e * (k * k * k))) in A2 by field. replace (41 * / 10 * e * (k * k * k)) with (41 / 10 * (e * (k * k * k))) by field. assert (0 <= e * (k * k * k)) by (apply Rmult_le_pos; lra). lra. }
  split; [exact W|]. replace (n' * j) with ((n' * j - n0 * k) + n0 * k) by ring. eapply Rle_trans; [apply Rabs_triang|].
  assert (Rabs (n0 * k) <= 1 * k) by (rewrite Rabs_mult, (Rabs_pos_eq k) by lra; apply Rmult_le_compat_r; lra). lra.
Qed.
Lemma weight32 lm (d th : R) (t w : f32) (w0 : R) : libm_accurate lm d 5 -> 0 <= d <= 4 / 100000 -> 0 <= th <= 4 -> / 10 <= sin th ->
  is_finite t = true -> Rabs (B2R t - th) <= d + 32 / 100000000 / sin th -> is_finite w = true -> 0 <= w0 <= 1 -> Rabs (B2R w - w0) <= u + eta ->
  let p := Bdiv mode_NE (lm_sin lm (Bmult mode_NE w t)) (lm_sin lm t) in let e := d + / 1000000 in
  is_finite p = true /\ Rabs (B2R p - sin (w0 * th) / sin th) <= 42 / 10 * e / (sin th * sin th * sin th) /\ Rabs (B2R p) <= 12 / 10 / sin th.
Proof.
  intros LA Hd Hth Hs Ft Ht Fw Hw Dw. cbv zeta. set (s := sin th) in *. assert (S1 : s <= 1) by apply SIN_bound. set (e := d + / 1000000).
  assert (He : 0 <= e <= / 20000) by (unfold e; lra).
  assert (U : u = 1 / 16777216) by reflexivity. assert (E0 : 0 < eta) by apply bpow_gt_0. assert (E1 : eta <= / 1000000000000000000000000000000) by (pose proof eta_tau as ET1; unfold tau in ET1; lra).
  assert (I : s * / s = 1) by (apply Rinv_r; lra). assert (K0 : 0 < / s) by (apply Rinv_0_lt_compat; lra). unfold Rdiv in Ht. fold s in Ht.
  assert (K1 : 1 <= / s <= 10) by (set (k := / s) in *; split; nra).
  set (k := / s) in *. clearbody k. set (tau0 := d + 32 * / 100000000 * k) in *. assert (T0 : 0 <= tau0 <= 1 / 10000) by (unfold tau0; lra).
  assert (Tb : Rabs (B2R t) <= 401 / 100) by (apply Rabs_le_inv in Ht; apply Rabs_le; lra).
  assert (Wb : Rabs (B2R w) <= 1001 / 1000) by (apply Rabs_le_inv in Dw; rewrite U in *; apply Rabs_le; lra).
  assert (B127 : 100 <= bpow radix2 127) by (apply Rle_trans with (bpow radix2 7); [cbn; lra|apply bpow_le; lia]).
  assert (Pb : Rabs (B2R w * B2R t) <= 41 / 10). { rewrite Rabs_mult. apply Rle_trans with (1001 / 1000 * (401 / 100)); [apply Rmult_le_compat; auto using Rabs_pos|lra]. }
  destruct (mult_ok w t Fw Ft) as [Fm Rm]; [lra|]. pose proof (rnd_near _ _ Pb) as Dm. rewrite <- Rm in Dm. clear Rm. set (m := Bmult mode_NE w t) in *. clearbody m.
  assert (A1 : Rabs (B2R m - w0 * th) <= tau0 + 5 / 10000000).
  { replace (B2R m - w0 * th) with ((B2R m - B2R w * B2R t) + ((B2R w - w0) * B2R t + w0 * (B2R t - th))) by ring.
    assert (X1 : Rabs ((B2R w - w0) * B2R t) <= (u + eta) * (401 / 100)) by (rewrite Rabs_mult; apply Rmult_le_compat; auto using Rabs_pos).
    assert (X2 : Rabs (w0 * (B2R t - th)) <= 1 * tau0) by (rewrite Rabs_mult; apply Rmult_le_compat; auto using Rabs_pos; apply Rabs_le; lra).
    apply Rabs_le_inv in X1, X2, Dm. rewrite U in *. apply Rabs_le. lra. }
  assert (Mb : Rabs (B2R m) <= 5) by (apply Rabs_le_inv in Pb, Dm; rewrite U in *; apply Rabs_le; lra).
  destruct (LA m Fm Mb) as ((Fsm & Esm) & _). destruct (LA t Ft ltac:(lra)) as ((Fst & Est) & _).
  set (n' := lm_sin lm m) in *. set (s' := lm_sin lm t) in *.
  assert (N1 : Rabs (B2R n' - sin (w0 * th)) <= 2 * e / s).
  { replace (B2R n' - sin (w0 * th)) with ((B2R n' - sin (B2R m)) + (sin (B2R m) - sin (w0 * th))) by ring. eapply Rle_trans; [apply Rabs_triang|]. pose proof (sin_lip (B2R m) (w0 * th)).
    unfold Rdiv. fold s. change (/ s) with (/ s). unfold tau0, e in *. assert (KE : / s = k) by (apply Rmult_eq_reg_l with s; [|lra]; rewrite Rinv_r by lra; lra). rewrite KE. assert (d * 1 <= d * k) by (apply Rmult_le_compat_l; lra). lra. }
  assert (N2 : Rabs (B2R s' - s) <= 2 * e / s).
  { replace (B2R s' - s) with ((B2R s' - sin (B2R t)) + (sin (B2R t) - s)) by ring. eapply Rle_trans; [apply Rabs_triang|]. pose proof (sin_lip (B2R t) th). fold s in H.
    unfold Rdiv. unfold tau0, e in *. assert (KE : / s = k) by (apply Rmult_eq_reg_l with s; [|lra]; rewrite Rinv_r by lra; lra). rewrite KE. assert (d * 1 <= d * k) by (apply Rmult_le_compat_l; lra). lra. }
  destruct (weight_err (sin (w0 * th)) (B2R n') s (B2R s') e He Hs S1) as (D1 & D2 & D3); [apply Rabs_le, SIN_bound|exact N1|exact N2|].
  assert (KE : / s = k) by (apply Rmult_eq_reg_l with s; [|lra]; rewrite Rinv_r by lra; lra).
  assert (KC : / (s * s * s) = k * k * k) by (rewrite <- KE; field; lra). unfold Rdiv in D2, D3 |- *. rewrite KE, KC in *.
  assert (KK : 1 <= k * k <= 100) by (split; nra). assert (KK2 : k <= k * k * k) by nra.
  assert (EK : e * (k * k * k) <= 5 / 1000 * k). { replace (e * (k * k * k)) with (e * (k * k) * k) by ring. apply Rmult_le_compat_r; [lra|]. nra. }
  assert (W : Rabs (B2R n' * / B2R s') <= 113 / 100 * k) by lra.
  destruct (div_ok n' s' Fsm) as [Fp Rp]; [lra|unfold Rdiv; lra|]. pose proof (rnd_near _ _ W) as Dp. unfold Rdiv in Rp. rewrite <- Rp in Dp. clear Rp.
  split; [exact Fp|]. set (p := Bdiv mode_NE n' s') in *. set (r := B2R n' * / B2R s') in *.
  assert (EU : u * (113 / 100 * k) + eta <= 7 / 100 * (/ 1000000 * k)) by (rewrite U; lra).
  assert (e * k <= e * (k * k * k)) by (apply Rmult_le_compat_l; lra). assert (/ 1000000 * k <= e * k) by (apply Rmult_le_compat_r; [lra|unfold e; lra]).
  split.
  - replace (B2R p - sin (w0 * th) * k) with ((B2R p - r) + (r - sin (w0 * th) * k)) by ring. eapply Rle_trans; [apply Rabs_triang|]. lra.
  - replace (B2R p) with ((B2R p - r) + r) by ring. eapply Rle_trans; [apply Rabs_triang|]. lra.
Qed.

(*@ C76_slerp *)
(** C76: with sine and arc cosine accurate to d, the spherical interpolation of two f32 vectors of unit length (to 1e-3), at an
    angle whose sine s is at least 1/10, is off by at most 10 (d + 1e-6) / s^3 in every component *)
Lemma l_slerp32 :
  forall (lm : Libm) (self v1 v2 : Vec (T (Arith := F32 lm))) (n : nat) (x a b : nat -> R) (k : T (Arith := F32 lm)) (d : R),
  vec_f self n x -> vec_f v1 n a -> vec_f v2 n b -> is_finite (k : f32) = true -> 0 <= B2R (k : f32) <= 1 ->
  libm_accurate lm d 5 -> acos_accurate lm d -> 0 <= d <= 4 / 100000 ->
  Rabs (rnorm n a - 1) <= / 1000 -> Rabs (rnorm n b - 1) <= / 1000 ->
  let t := acos (rdot n a b) in / 10 <= sin t ->
  exists v' r, v_slerp v1 v2 k self = (v', Ok tt) /\ vec_f v' n r /\
    forall i, (i < n)%nat -> Rabs (r i - great_circle (B2R (k : f32)) t (a i) (b i)) <= 10 * (d + / 1000000) / (sin t * sin t * sin t).
Proof.
  intros lm self v1 v2 n x a b k d Hs H1 H2 Fk Hk LA AA Hd Na Nb t0 Hsin. unfold great_circle. set (th := t0) in *.
  destruct (vec_f_inv lm self n x Hs) as (fs & Hfs & _). destruct (vec_f_inv lm v1 n a H1) as (f & Hf & Ef). destruct (vec_f_inv lm v2 n b H2) as (g & Hg & Eg).
  destruct (slerp_prefix (A := F32 lm) self v1 v2 n _ _ _ k Hfs Hf Hg (in_range32 lm k Fk Hk)) as (v1' & v2' & Hx & Hy & ->).
  assert (U : u = 1 / 16777216) by reflexivity. assert (E0 : 0 < eta) by apply bpow_gt_0. assert (E1 : eta <= / 1000000000000000000000000000000) by (pose proof eta_tau as ET1; unfold tau in ET1; lra).
  assert (B127 : 100 <= bpow radix2 127) by (apply Rle_trans with (bpow radix2 7); [cbn; lra|apply bpow_le; lia]).
  assert (B100 : 100 <= bpow radix2 100) by (apply Rle_trans with (bpow radix2 7); [cbn; lra|apply bpow_le; lia]).
  assert (Rf : rnorm n (fun i => B2R (f i)) = rnorm n a) by (apply rnorm_ext; intros; apply Ef; auto). assert (Rg : rnorm n (fun i => B2R (g i)) = rnorm n b) by (apply rnorm_ext; intros; apply Eg; auto).
  assert (Rd : rdot n (fun i => B2R (f i)) (fun i => B2R (g i)) = rdot n a b) by (apply rdot_ext; intros; [apply Ef|apply Eg]; auto).
  apply Rabs_le_inv in Na, Nb. assert (NN : rnorm n a * rnorm n b <= 101 / 100) by (pose proof (rnorm_pos n a); pose proof (rnorm_pos n b); nra).
  destruct (prod_sum lm n f g) as [Fd Ed]; [apply (vec_is_dim _ _ _ Hf)|intros i Hi; split; [apply Ef, Hi|apply Eg, Hi]|rewrite Rf, Rg; unfold huge; apply Rle_trans with 100; [lra|]; eapply Rle_trans; [exact B100|apply bpow_le; lia]|].
  rewrite Rf, Rg, Rd in Ed. change (fsum (A := F32 lm) n (fun i => fmul (Arith := F32 lm) (f i) (g i))) with (fsum (A := F32 lm) n (fun i => Bmult mode_NE (f i) (g i))).
  set (s := fsum (A := F32 lm) n (fun i => Bmult mode_NE (f i) (g i))) in *.
  assert (C1 : -1 <= rdot n a b <= 1).
  { destruct (Rle_or_lt (-1) (rdot n a b)) as [L|L]; [destruct (Rle_or_lt (rdot n a b) 1) as [L'|L']|]; [split; auto| |]; exfalso.
    - unfold th, t0, acos in Hsin. destruct (Rle_dec (rdot n a b) (-1)); [lra|]. destruct (Rle_dec 1 (rdot n a b)); [|lra]. rewrite sin_0 in Hsin. lra.
    - unfold th, t0, acos in Hsin. destruct (Rle_dec (rdot n a b) (-1)); [|lra]. rewrite sin_PI in Hsin. lra. }
  assert (Sa : sqrt (1 - rdot n a b * rdot n a b) = sin th) by (unfold th, t0; rewrite sin_acos by exact C1; reflexivity).
  destruct (acos_lip (rdot n a b) (B2R (s : f32)) (31 / 100000000)) as [S1 S2]; [lra|rewrite Sa; exact Hsin|unfold tau in Ed; eapply Rle_trans; [exact Ed|lra]|].
  rewrite Sa in S2. fold t0 in S2. fold th in S2. destruct (AA s Fd ltac:(apply Rabs_le; lra)) as [Ft Et].
  change (facos (Arith := F32 lm) s) with (lm_acos lm s). set (t := lm_acos lm s) in *.
  assert (K0 : 0 < / sin th) by (apply Rinv_0_lt_compat; lra).
  assert (Dt : Rabs (B2R t - th) <= d + 32 / 100000000 / sin th).
  { replace (B2R t - th) with ((B2R t - acos (B2R (s : f32))) + (acos (B2R (s : f32)) - th)) by ring. eapply Rle_trans; [apply Rabs_triang|]. unfold Rdiv in *. lra. }
  assert (TB : 0 <= th <= 4) by (unfold th, t0; pose proof (acos_bound (rdot n a b)); pose proof PI_4; lra).
  destruct (minus_ok (f1 (A := F32 lm)) k eq_refl Fk) as [Fp Rp]; [rewrite B2R_f1; apply Rabs_le; lra|]. rewrite B2R_f1 in Rp.
  assert (Dp : Rabs (rnd32 (1 - B2R k) - (1 - B2R k)) <= u * 1 + eta) by (apply rnd_near, Rabs_le; lra). rewrite <- Rp in Dp. clear Rp. rewrite Rmult_1_r in Dp.
  change (fsub (Arith := F32 lm) f1 k) with (Bminus mode_NE (f1 (A := F32 lm)) k : f32).
  destruct (weight32 lm d th t _ (1 - B2R k) LA Hd TB Hsin Ft Dt Fp ltac:(lra) Dp) as (Fp1 & Dp1 & Bp1).
  destruct (weight32 lm d th t k (B2R k) LA Hd TB Hsin Ft Dt Fk ltac:(lra)) as (Fp2 & Dp2 & Bp2); [rewrite Rminus_diag_eq, Rabs_R0 by reflexivity; rewrite U; lra|].
  change (fdiv (Arith := F32 lm) (fsin (Arith := F32 lm) (fmul (Arith := F32 lm) (Bminus mode_NE (f1 (A := F32 lm)) k : f32) t)) (fsin (Arith := F32 lm) t))
    with (Bdiv mode_NE (lm_sin lm (Bmult mode_NE (Bminus mode_NE (f1 (A := F32 lm)) k : f32) t)) (lm_sin lm t) : f32).
  change (fdiv (Arith := F32 lm) (fsin (Arith := F32 lm) (fmul (Arith := F32 lm) k t)) (fsin (Arith := F32 lm) t))
    with (Bdiv mode_NE (lm_sin lm (Bmult mode_NE k t)) (lm_sin lm t) : f32).
  set (p := Bdiv mode_NE (lm_sin lm (Bmult mode_NE (Bminus mode_NE (f1 (A := F32 lm)) k : f32) t)) (lm_sin lm t)) in *. set (q := Bdiv mode_NE (lm_sin lm (Bmult mode_NE k t)) (lm_sin lm t)) in *.
  set (e := d + / 1000000) in *. assert (He : / 1000000 <= e) by (unfold e; lra). set (kk := / sin th) in *. set (p0 := sin ((1 - B2R k) * th) / sin th) in *. set (q0 := sin (B2R k * th) / sin th) in *.
  assert (I : sin th * kk = 1) by (apply Rinv_r; lra). assert (K1 : 1 <= kk <= 10) by (pose proof (SIN_bound th); split; nra).
  unfold Rdiv in Dp1, Dp2, Bp1, Bp2. fold kk in Bp1, Bp2.
  assert (KC : / (sin th * sin th * sin th) = kk * kk * kk) by (unfold kk; field; lra). unfold Rdiv at 2. rewrite KC in *.
  assert (KK : 1 <= kk * kk) by nra. assert (KK2 : kk <= kk * kk * kk) by nra.
  assert (C : forall i, (i < n)%nat -> let r := Bplus mode_NE (Bmult mode_NE (f i : f32) p) (Bmult mode_NE (g i : f32) q) in
     is_finite (Bmult mode_NE (f i : f32) p) = true /\ is_finite (Bmult mode_NE (g i : f32) q) = true /\ is_finite r = true /\
     Rabs (B2R r - (sin ((1 - B2R k) * th) * a i + sin (B2R k * th) * b i) / sin th) <= 10 * e * (kk * kk * kk)).
  { intros i Hi. cbv zeta. destruct (Ef i Hi) as [F1 R1]. destruct (Eg i Hi) as [F2 R2].
    pose proof (rnorm_bound n a i Hi) as A1. pose proof (rnorm_bound n b i Hi) as A2. rewrite <- R1, <- R2 in *.
    assert (Rabs (B2R (f i)) <= 1001 / 1000) as B1 by lra. assert (Rabs (B2R (g i)) <= 1001 / 1000) as B2 by lra.
    destruct (blend32 (f i) (g i) p q (1001 / 1000) (12 * / 10 * kk) (12 * / 10 * kk) F1 F2 Fp1 Fp2 B1 B2 Bp1 Bp2) as (G1 & G2 & G3 & G4); [lra|].
    split; [exact G1|]. split; [exact G2|]. split; [exact G3|]. set (r := Bplus mode_NE _ _) in *.
    replace (B2R r - (sin ((1 - B2R k) * th) * B2R (f i) + sin (B2R k * th) * B2R (g i)) / sin th) with
      ((B2R r - (B2R (f i) * B2R p + B2R (g i) * B2R q)) + (B2R (f i) * (B2R p - p0) + B2R (g i) * (B2R q - q0))) by (unfold p0, q0; field; lra).
    assert (X1 : Rabs (B2R (f i) * (B2R p - p0)) <= 1001 / 1000 * (42 * / 10 * e * (kk * kk * kk))) by (rewrite Rabs_mult; apply Rmult_le_compat; auto using Rabs_pos).
    assert (X2 : Rabs (B2R (g i) * (B2R q - q0)) <= 1001 / 1000 * (42 * / 10 * e * (kk * kk * kk))) by (rewrite Rabs_mult; apply Rmult_le_compat; auto using Rabs_pos).
    assert (X3 : u * (2001 / 1000) * (1001 / 1000 * (12 * / 10 * kk + 12 * / 10 * kk)) + 4 * eta <= 3 / 10 * (/ 1000000 * kk)) by (rewrite U; lra).
    assert (e * kk <= e * (kk * kk * kk)) by (apply Rmult_le_compat_l; lra). assert (/ 1000000 * kk <= e * kk) by (apply Rmult_le_compat_r; lra).
    eapply Rle_trans; [apply Rabs_triang|]. pose proof (Rabs_triang (B2R (f i) * (B2R p - p0)) (B2R (g i) * (B2R q - q0))).
    assert (0 <= e * (kk * kk * kk)) by lra. lra. }
  destruct (combine_ok (A := F32 lm) self v1' v2' n _ _ _ (p : T (Arith := F32 lm)) (q : T (Arith := F32 lm)) Hfs Hx Hy) as (s' & E & H);
    try (intros i Hi; apply (valid_finite lm); apply (C i Hi)).
  exists s'. eexists. split; [exact E|]. split; [eexists; split; [exact H|intros i Hi; reflexivity]|]. intros i Hi. apply (C i Hi).
Qed.

(*@ C76_parallel *)
(** C76, violation for a whole class: whenever the computed scalar product is 1 or more, spherical interpolation fails with a NaN
    error, for every fraction, although the two vectors are the same direction; sine and arc cosine as in IEEE 754 *)
Lemma l_slerp32_nan :
  forall (lm : Libm) (self v1 v2 : Vec (T (Arith := F32 lm))) (n : nat) (x a b : nat -> R) (k s : T (Arith := F32 lm)),
  acos_edge lm -> vec_f self n x -> vec_f v1 n a -> vec_f v2 n b -> is_finite (k : f32) = true -> 0 <= B2R (k : f32) <= 1 ->
  v_dot_product v1 v2 = Ok s -> is_finite (s : f32) = true -> 1 <= B2R (s : f32) ->
  v_slerp v1 v2 k self = (self, Err (UtilsErr Nan)).
Proof.
  intros lm self v1 v2 n x a b k s (A1 & A2 & A3 & A4) Hs H1 H2 Fk Hk Ed Fs Bs.
  destruct (vec_f_inv lm self n x Hs) as (fs & Hfs & _). destruct (vec_f_inv lm v1 n a H1) as (f & Hf & Ef). destruct (vec_f_inv lm v2 n b H2) as (g & Hg & Eg).
  destruct (slerp_prefix (A := F32 lm) self v1 v2 n _ _ _ k Hfs Hf Hg (in_range32 lm k Fk Hk)) as (v1' & v2' & Hx & Hy & ->).
  rewrite (v_dot_is (A := F32 lm) _ _ _ _ _ _ Hf Hg), Nat.eqb_refl in Ed. injection Ed as Ed.
  assert (Ed' : fsum (A := F32 lm) n (fun i => fmul (Arith := F32 lm) (f i) (g i)) = s) by exact Ed. rewrite Ed'.
  destruct (vec_is_dim _ _ _ Hf) as [Dn _].
  assert (B127 : 100 <= bpow radix2 127) by (apply Rle_trans with (bpow radix2 7); [cbn; lra|apply bpow_le; lia]).
  assert (Fw : is_finite (Bminus mode_NE (f1 (A := F32 lm)) k) = true) by (apply (minus_ok (f1 (A := F32 lm)) k eq_refl Fk); rewrite B2R_f1; apply Rabs_le; lra).
  set (w := Bminus mode_NE (f1 (A := F32 lm)) k) in *.
  assert (N : is_nan (Bdiv mode_NE (lm_sin lm (Bmult mode_NE w (lm_acos lm s))) (lm_sin lm (lm_acos lm s))) = true).
  { destruct (Rle_lt_or_eq_dec _ _ Bs) as [L|L].
    - pose proof (A2 s Fs L) as Na. assert (Np : is_nan (Bmult mode_NE w (lm_acos lm s)) = true) by (destruct (lm_acos lm s); try discriminate; destruct w; reflexivity).
      pose proof (A4 _ Np) as Ns. destruct (lm_sin lm (Bmult mode_NE w (lm_acos lm s))); try discriminate. reflexivity.
    - rewrite (A1 s Fs (eq_sym L)). rewrite A3. assert (exists c, Bmult mode_NE w (B754_zero false) = B754_zero c) as (c & ->) by (destruct w; try discriminate; cbn; eauto).
      rewrite A3. reflexivity. }
  eapply (combine_bad1 (A := F32 lm) self v1' v2' n _ _ _ 0 Nan); eauto.
  - intros; lia.
  - change (fdiv (Arith := F32 lm) (fsin (Arith := F32 lm) (fmul (Arith := F32 lm) (fsub (Arith := F32 lm) f1 k) (facos (Arith := F32 lm) s))) (fsin (Arith := F32 lm) (facos (Arith := F32 lm) s)))
      with (Bdiv mode_NE (lm_sin lm (Bmult mode_NE w (lm_acos lm s))) (lm_sin lm (lm_acos lm s)) : f32).
    destruct (Bdiv mode_NE (lm_sin lm (Bmult mode_NE w (lm_acos lm s))) (lm_sin lm (lm_acos lm s))); try discriminate.
    change (fmul (Arith := F32 lm)) with (Bmult (prec := prec) (emax := emax) mode_NE). destruct (f 0%nat); reflexivity.
Qed.

(** ** Examples *)
Definition edge_libm : Libm :=
  mkLibm (fun x => match x with B754_zero b => B754_zero b | B754_nan => B754_nan | _ => near (sin (B2R x)) end) (fun x => near (cos (B2R x)))
    (fun x => x) (fun x => if Rlt_bool 1 (B2R x) then B754_nan else if Req_bool (B2R x) 1 then B754_zero false else near (acos (B2R x))) (fun y x => x) (fun x _ => x) (fun x => x).
Lemma edge_sin B : libm_accurate edge_libm (5 / 10000000) B.
Proof.
  intros x Fx _. cbn [edge_libm lm_sin lm_cos]. pose proof (SIN_bound (B2R x)). pose proof (COS_bound (B2R x)). split; [|apply near_ok4; apply Rabs_le; lra].
  destruct x as [c| | |c m e Hb]; try discriminate; [|apply near_ok4; apply Rabs_le; lra]. split; [reflexivity|]. cbn. rewrite sin_0, Rminus_0_r, Rabs_R0. lra.
Qed.
Lemma edge_acos : acos_accurate edge_libm (5 / 10000000).
Proof.
  intros x Fx Hx. cbn [edge_libm lm_acos]. apply Rabs_le_inv in Hx. rewrite Rlt_bool_false by lra. destruct (Req_bool_spec (B2R x) 1) as [->|].
  - split; [reflexivity|]. cbn. rewrite acos_1, Rminus_0_r, Rabs_R0. lra.
  - apply near_ok4. pose proof (acos_bound (B2R x)). pose proof PI_4. apply Rabs_le. lra.
Qed.
Lemma edge_ok : acos_edge edge_libm.
Proof.
  cbn [edge_libm lm_acos lm_sin acos_edge]. unfold acos_edge. cbn [edge_libm lm_acos lm_sin]. split; [|split; [|split]].
  - intros x _ ->. rewrite Rlt_bool_false by lra. rewrite Req_bool_true by reflexivity. reflexivity.
  - intros x _ H. rewrite Rlt_bool_true by exact H. reflexivity.
  - reflexivity.
  - intros x H. destruct x; try discriminate. reflexivity.
Qed.
Lemma axis_vec lm (l : list Z) : (1 <= length l <= 4)%nat -> Forall (fun z => (Z.abs z <= 2 ^ 24)%Z) l ->
  vec_f (lm := lm) (mk_vec (A := F32 lm) (map z32 l)) (length l) (fun i => IZR (nth i l 0%Z)).
Proof. exact (vec_z lm l). Qed.

(*@ C76_parallel_refuted *)
(** ... so interpolating from the attitude 1 to the attitude 1 fails with every such libm *)
Lemma l_slerp32_nan_w :
  forall (lm : Libm), acos_edge lm -> exists v : Vec (T (Arith := F32 lm)), quat_f v qone /\
  forall k : T (Arith := F32 lm), is_finite (k : f32) = true -> 0 <= B2R (k : f32) <= 1 -> v_slerp v v k v = (v, Err (UtilsErr Nan)).
Proof.
  intros lm A. exists (mk_vec (A := F32 lm) (map z32 [1; 0; 0; 0]%Z)). assert (Q := fquat_z lm 1 0 0 0 ltac:(lia) ltac:(lia) ltac:(lia) ltac:(lia)). split; [exact Q|].
  assert (O : obs (v_dot_product (A := F32 lm) (mk_vec (A := F32 lm) (map z32 [1; 0; 0; 0]%Z)) (mk_vec (A := F32 lm) (map z32 [1; 0; 0; 0]%Z))) = Ok (B2SF (z32 1))) by (vm_compute; reflexivity).
  revert Q O. generalize (mk_vec (A := F32 lm) (map z32 [1; 0; 0; 0]%Z)). intros v Q O k Fk Hk.
  destruct (v_dot_product (A := F32 lm) v v) as [s| |] eqn:E; try discriminate O. unfold obs, rmap in O. assert (O2 : B2SF (s : f32) = B2SF (z32 1)) by congruence. clear O. apply B2SF_inj in O2.
  destruct (z32_R 1 ltac:(lia)) as [F1 R1]. rewrite <- O2 in F1, R1. apply (l_slerp32_nan lm v v v 4 _ _ _ k s A Q Q Q Fk Hk E F1). rewrite R1. lra.
Qed.
Lemma ex_interp32 :
  acos_edge edge_libm /\ libm_accurate edge_libm (5 / 10000000) 5 /\ acos_accurate edge_libm (5 / 10000000) /\
  exists (v1 v2 : Vec (T (Arith := F32 edge_libm))) (k : T (Arith := F32 edge_libm)) (a b : nat -> R), vec_f v1 4 a /\ vec_f v2 4 b /\
  is_finite (k : f32) = true /\ B2R (k : f32) = 1 / 2 /\ rnorm 4 a = 1 /\ rnorm 4 b = 1 /\ sin (acos (rdot 4 a b)) = 1.
Proof.
  split; [exact edge_ok|]. split; [apply edge_sin|]. split; [exact edge_acos|].
  exists (mk_vec (A := F32 edge_libm) (map z32 [1; 0; 0; 0]%Z)), (mk_vec (A := F32 edge_libm) (map z32 [0; 1; 0; 0]%Z)), (lit32 1 2), (fun i => IZR (nth i [1; 0; 0; 0]%Z 0%Z)), (fun i => IZR (nth i [0; 1; 0; 0]%Z 0%Z)).
  split; [apply (axis_vec edge_libm [1; 0; 0; 0]%Z); [cbn; lia|repeat constructor; cbn; lia]|]. split; [apply (axis_vec edge_libm [0; 1; 0; 0]%Z); [cbn; lia|repeat constructor; cbn; lia]|].
  split; [apply half_R|]. split; [etransitivity; [apply half_R|lra]|]. split; [unfold rnorm, rdot; cbn; apply sqrt_lem_1; lra|]. split; [unfold rnorm, rdot; cbn; apply sqrt_lem_1; lra|].
  replace (rdot 4 _ _) with 0 by (unfold rdot; cbn; ring). rewrite acos_0. apply sin_PI2.
Qed.
(*@ example *)
Example C76_example :
  exists lm, acos_edge lm /\ libm_accurate lm (5 / 10000000) 5 /\ acos_accurate lm (5 / 10000000) /\
  exists (v1 v2 : Vec (T (Arith := F32 lm))) (k : T (Arith := F32 lm)) (a b : nat -> R), vec_f v1 4 a /\ vec_f v2 4 b /\
  is_finite (k : f32) = true /\ B2R (k : f32) = 1 / 2 /\ rnorm 4 a = 1 /\ rnorm 4 b = 1 /\ sin (acos (rdot 4 a b)) = 1.
Proof. exact (ex_intro _ edge_libm ex_interp32). Qed.
