(** C75: inverse and exponential of a quaternion in f32. *)
(*@+*)
From Coq Require Import List Arith ZArith Reals Lia Bool Lra SpecFloat.
From Flocq Require Import Core BinarySingleNaN.
From Verif Require Import M_Base M_Arith M_Utils M_Vector M_Matrix M_Quaternion M_F32
  S_Spec S_Linalg S_Norm S_Quat S_F32 S_Track P_Inst P_InstF P_F32Ar.
Import ListNotations.
Local Open Scope R_scope.
(*@-*)
From Coq Require Import Psatz.
From Verif Require Import P_Hoare P_Cont P_Loops P_Access P_Pointwise P_Trans P_Float P_Product S_Compare
  P_Compare P_Dot P_Norm P_FErr P_Norm32 P_Quat P_FAcc P_F32Mul P_F32Rot P_QPred P_QExp P_F32Ar P_Lup32.

(** ** helpers *)
Lemma rnd_near x M : Rabs x <= M -> Rabs (rnd32 x - x) <= u * M + eta.
Proof.
  intros H. destruct (rnd32_err x) as (e & h & He & Hh & ->). replace (x * (1 + e) + h - x) with (x * e + h) by ring.
  eapply Rle_trans; [apply Rabs_triang|]. rewrite Rabs_mult. pose proof (Rabs_pos x). pose proof (Rabs_pos e).
  assert (Rabs x * Rabs e <= M * u) by (apply Rmult_le_compat; auto). lra.
Qed.
Lemma eta_40 : 0 < eta <= / 10 ^ 40.
Proof.
  split; [apply bpow_gt_0|]. unfold eta. apply Rle_trans with (bpow radix2 (-140)); [apply bpow_le; lia|].
  change (bpow radix2 (-140)) with (/ IZR (2 ^ 140)). change 10 with (IZR 10). rewrite pow_IZR. apply Rinv_le; [apply IZR_lt; reflexivity|apply IZR_le; vm_compute; discriminate].
Qed.
Lemma flush_keep lm (r : f32) : is_finite r = true -> 101 / 1000000 < B2R r -> flush (A := F32 lm) r = r.
Proof.
  intros F H. destruct (eps32 lm) as [Fe Ee]. unfold flush. change (@fleb (F32 lm) r EPSILON) with (Bleb (r : f32) (EPSILON (A := F32 lm))).
  rewrite Bleb_ok by auto. rewrite Rle_bool_false by lra. reflexivity.
Qed.
Lemma rnorm4 q : rnorm 4 (qf q) = qnorm q.
Proof. unfold rnorm, rdot, qnorm, qnorm2. cbn. f_equal. ring. Qed.

(** the scale factor [1 / (n n)], relative to the true one *)
Lemma sq_rel d e k : Rabs d <= 7 * u -> Rabs e <= u -> Rabs k <= u / 1000 -> Rabs ((1 + d) * (1 + d) * (1 + e) + k - 1) <= 152 / 10 * u.
Proof.
  intros Hd He Hk. assert (U : u = 1 / 16777216) by reflexivity. apply Rabs_le_inv in Hd, He, Hk. set (D := d * d + 2 * d).
  assert (HD : -(1401 / 100 * u) <= D <= 1401 / 100 * u).
  { unfold D. assert (0 <= d * d <= 49 * u * u) by (split; [apply Rle_0_sqr|]; nra). rewrite U in *. lra. }
  replace ((1 + d) * (1 + d) * (1 + e) + k - 1) with (D + e + D * e + k) by (unfold D; ring).
  assert (-(u / 1000) <= D * e <= u / 1000) by (rewrite U in *; split; nra). apply Rabs_le. lra.
Qed.
Lemma inv_rel P : Rabs (P - 1) <= 152 / 10 * u -> 0 < P /\ Rabs (/ P - 1) <= 153 / 10 * u.
Proof.
  intros H. assert (U : u = 1 / 16777216) by reflexivity. apply Rabs_le_inv in H. assert (P0 : 0 < P) by (rewrite U in *; lra). split; [exact P0|].
  pose proof (Rinv_l P ltac:(lra)) as E. set (y := / P) in *. assert (Y : 0 < y) by (apply Rinv_0_lt_compat; exact P0).
  apply Rabs_le. rewrite U in *. split; nra.
Qed.
Lemma inv_sq (o n : f32) (N : R) : is_finite o = true -> B2R o = 1 -> is_finite n = true -> 2 / 10000 <= N <= bpow radix2 58 -> Rabs (B2R n - N) <= 7 * u * N ->
  let s := Bdiv mode_NE o (Bmult mode_NE n n) in
  is_finite s = true /\ Rabs (B2R s * (N * N) - 1) <= 17 * u.
Proof.
  intros Fo Eo Fn HN Hn s. assert (U : u = 1 / 16777216) by reflexivity. pose proof eta_40 as [E0 E1].
  assert (N0 : 0 < N) by lra. assert (N2 : 4 / 100000000 <= N * N) by nra. assert (B58 : bpow radix2 58 * bpow radix2 58 = bpow radix2 116) by (rewrite <- bpow_plus; reflexivity).
  assert (N3 : N * N <= bpow radix2 116) by (rewrite <- B58; apply Rmult_le_compat; lra).
  set (d := (B2R n - N) / N). assert (Ed : B2R n = N * (1 + d)) by (unfold d; field; lra).
  assert (Hd : Rabs d <= 7 * u). { unfold d, Rdiv. rewrite Rabs_mult, (Rabs_pos_eq (/ N)) by (left; apply Rinv_0_lt_compat; lra). apply Rmult_le_reg_r with N; [lra|]. rewrite Rmult_assoc, Rinv_l by lra. lra. }
  assert (EP : B2R n * B2R n = N * N * ((1 + d) * (1 + d))) by (rewrite Ed; ring).
  assert (Hdd : / 2 <= (1 + d) * (1 + d) <= 2) by (apply Rabs_le_inv in Hd; rewrite U in Hd; split; nra).
  assert (B117 : 2 * bpow radix2 116 = bpow radix2 117) by (change 2 with (bpow radix2 1); rewrite <- bpow_plus; reflexivity).
  assert (B127 : bpow radix2 117 <= bpow radix2 127) by (apply bpow_le; lia).
  assert (BP : Rabs (B2R n * B2R n) <= bpow radix2 117) by (rewrite EP, Rabs_pos_eq by nra; nra).
  destruct (mult_ok n n Fn Fn ltac:(lra)) as [Fp Ep]. set (p := Bmult mode_NE n n) in *.
  destruct (rnd32_err (B2R n * B2R n)) as (e & h & He & Hh & Er). rewrite Er, EP in Ep.
  assert (HK : Rabs (h / (N * N)) <= u / 1000).
  { unfold Rdiv at 1. rewrite Rabs_mult, (Rabs_pos_eq (/ (N * N))) by (left; apply Rinv_0_lt_compat; nra). apply Rmult_le_reg_r with (N * N); [nra|]. rewrite Rmult_assoc, Rinv_l by nra. rewrite Rmult_1_r.
    eapply Rle_trans; [exact Hh|]. eapply Rle_trans; [exact E1|]. apply Rle_trans with (u / 1000 * (4 / 100000000)); [rewrite U; cbn [pow]; lra|]. apply Rmult_le_compat_l; [rewrite U|]; lra. }
  set (P := (1 + d) * (1 + d) * (1 + e) + h / (N * N)). assert (EP' : B2R p = N * N * P) by (rewrite Ep; unfold P; field; lra).
  destruct (inv_rel P (sq_rel d e _ Hd He HK)) as [P0 HP]. assert (Np : B2R p <> 0) by (rewrite EP'; nra).
  assert (EI : 1 / B2R p = / (N * N) * / P) by (rewrite EP'; field; split; nra).
  assert (I0 : 0 < / (N * N) <= 25000000) by (split; [apply Rinv_0_lt_compat; nra|replace 25000000 with (/ (4 / 100000000)) by lra; apply Rinv_le; lra]).
  assert (BI : Rabs (1 / B2R p) <= bpow radix2 127).
  { rewrite EI. apply Rle_trans with (bpow radix2 26); [|apply bpow_le; lia]. apply Rabs_le_inv in HP. rewrite U in HP. change (bpow radix2 26) with 67108864. rewrite Rabs_pos_eq; [nra|]. apply Rmult_le_pos; lra. }
  destruct (div_ok o p Fo Np) as [Fs Es]; [rewrite Eo; exact BI|]. fold s in Fs, Es. split; [exact Fs|]. rewrite Es, Eo.
  destruct (rnd32_err (1 / B2R p)) as (e2 & h2 & He2 & Hh2 & ->). rewrite EI.
  replace ((/ (N * N) * / P * (1 + e2) + h2) * (N * N) - 1) with ((/ P - 1) + / P * e2 + h2 * (N * N)) by (field; split; nra).
  assert (T2 : Rabs (/ P * e2) <= 101 / 100 * u).
  { rewrite Rabs_mult. apply Rmult_le_compat; auto using Rabs_pos. apply Rabs_le_inv in HP. rewrite U in HP. apply Rabs_le. lra. }
  assert (T3 : Rabs (h2 * (N * N)) <= u / 100).
  { rewrite Rabs_mult, (Rabs_pos_eq (N * N)) by nra. apply Rle_trans with (eta * bpow radix2 116); [apply Rmult_le_compat; auto using Rabs_pos; nra|].
    unfold eta. rewrite <- bpow_plus. cbn. rewrite U. lra. }
  eapply Rle_trans; [apply Rabs_triang|]. eapply Rle_trans; [apply Rplus_le_compat_r, Rabs_triang|]. lra.
Qed.

Definition qinv (q : quat) : quat := qscale (/ qnorm2 q) (qconj q).
Lemma qinv_mul q : qnorm q <> 0 -> qmul q (qinv q) = qone /\ qmul (qinv q) q = qone.
Proof.
  intros N. assert (N0 : qnorm2 q <> 0) by (rewrite <- qnorm_sqr; apply Rmult_integral_contrapositive; auto).
  unfold qinv, qmul, qscale, qconj, qone, qnorm2 in *. cbn. split; f_equal; field; exact N0.
Qed.

(** the path through [invert] in f32, once the norm is known *)
Lemma invert_path lm (v : Vec (T (Arith := F32 lm))) (f : nat -> f32) q n : vec_is (A := F32 lm) v 4 f -> quat_f v q ->
  v_calculate_norm v = Ok n -> fltb (Arith := F32 lm) EPSILON n = true ->
  let s := Bdiv mode_NE (f1 (A := F32 lm) : f32) (Bmult mode_NE (n : f32) n) in
  (forall i (x : f32), (i < 4)%nat -> is_finite x = true -> B2R x = qf (qconj q) i -> is_finite (Bmult mode_NE x s) = true) ->
  exists v' g, q_invert v = (v', Ok tt) /\ vec_is (A := F32 lm) v' 4 (fun i => Bmult mode_NE (g i : f32) s) /\
    forall i, (i < 4)%nat -> is_finite (g i) = true /\ B2R (g i) = qf (qconj q) i.
Proof.
  intros Hf Hq En Hn s FM. destruct (conj_f lm v q Hq) as (c & Ec & Hc). destruct (quat_f_inv lm c _ Hc) as (g & Hg & Fg).
  pose proof (v_mul_by_scalar_in_place_pw (A := F32 lm) c 4 g Hg (s : T (Arith := F32 lm))) as PW.
  apply pointwise_v_ok in PW.
  - destruct PW as (v' & E & Hv'). exists v', g. split; [|split; [exact Hv'|exact Fg]].
    unfold q_invert. erewrite sbind_ok by (unfold reads; rewrite En; reflexivity). erewrite sbind_ok by exact Ec. rewrite Hn. exact E.
  - intros i Hi. apply (valid_finite lm). apply (FM i _ Hi); apply Fg, Hi.
Qed.

(*@ C75_inverse *)
(** C75: for every f32 quaternion with norm between 2e-4 and 2^58 [invert] succeeds, and the result times the quaternion is 1
    up to 3e-6, on both sides *)
Lemma l_invert32 :
  forall (lm : Libm) (v : Vec (T (Arith := F32 lm))) (q : quat), quat_f v q -> 2 / 10000 <= qnorm q <= bpow radix2 58 ->
  exists v' r, q_invert v = (v', Ok tt) /\ quat_f v' r /\ qdist (qmul q r) qone <= 3 / 1000000 /\ qdist (qmul r q) qone <= 3 / 1000000.
Proof.
  intros lm v q Hq HN. destruct (quat_f_inv lm v q Hq) as (f & Hf & Ff). set (N := qnorm q) in *.
  assert (EN : rnorm 4 (fun i => B2R (f i)) = N) by (unfold N; rewrite <- rnorm4; apply rnorm_ext; intros i Hi; apply Ff, Hi).
  assert (B58 : bpow radix2 58 <= bpow radix2 60) by (apply bpow_le; lia).
  destruct (norm_err lm 4 f ltac:(lia) (fun i Hi => proj1 (Ff i Hi))) as [Fn En]; [rewrite EN; lra|]. cbv zeta in En. rewrite EN in En.
  set (n := Bsqrt mode_NE (fsum (A := F32 lm) 4 (fun i => Bmult mode_NE (f i) (f i)))) in *.
  assert (U : u = 1 / 16777216) by reflexivity. assert (L : 19 / 100000 <= B2R n) by (apply Rabs_le_inv in En; rewrite U in En; lra).
  assert (Ev : v_calculate_norm v = Ok (n : T (Arith := F32 lm))) by (rewrite (v_norm_is (A := F32 lm) v 4 f Hf); f_equal; apply (flush_keep lm n Fn); lra).
  destruct (eps32 lm) as [Fe Ee].
  assert (Hgt : fltb (Arith := F32 lm) EPSILON n = true) by (change (Bltb (EPSILON (A := F32 lm) : f32) n = true); rewrite Bltb_ok by auto; apply Rlt_bool_true; lra).
  destruct (inv_sq (f1 (A := F32 lm)) n N eq_refl (B2R_f1 lm) Fn HN En) as [Fs Es]. set (s := Bdiv mode_NE (f1 (A := F32 lm) : f32) (Bmult mode_NE n n)) in *.
  assert (N0 : 0 < N) by lra. assert (IN : 0 < / N) by (apply Rinv_0_lt_compat; lra).
  assert (CB : forall i, (i < 4)%nat -> Rabs (qf (qconj q) i) <= N).
  { intros i Hi. replace N with (rnorm 4 (qf (qconj q))); [apply rnorm_bound, Hi|]. rewrite rnorm4. unfold N, qnorm, qnorm2, qconj. cbn. f_equal. ring. }
  assert (SB : Rabs (B2R s - / (N * N)) <= 17 * u * / (N * N)).
  { replace (B2R s - / (N * N)) with ((B2R s * (N * N) - 1) * / (N * N)) by (field; lra). rewrite Rabs_mult, (Rabs_pos_eq (/ (N * N))) by (left; apply Rinv_0_lt_compat; nra). apply Rmult_le_compat_r; [left; apply Rinv_0_lt_compat; nra|exact Es]. }
  assert (PB : forall i, (i < 4)%nat -> Rabs (qf (qconj q) i * B2R s - qf (qinv q) i) <= 17 * u * / N /\ Rabs (qf (qconj q) i * B2R s) <= 101 / 100 * / N).
  { intros i Hi. assert (EQ : qf (qinv q) i = qf (qconj q) i * / (N * N)).
    { unfold N. rewrite qnorm_sqr. destruct i as [|[|[|[|i]]]]; try lia; cbn; ring. }
    specialize (CB i Hi). assert (EE : qf (qconj q) i * B2R s - qf (qinv q) i = qf (qconj q) i * (B2R s - / (N * N))) by (rewrite EQ; ring).
    assert (IE : N * / (N * N) = / N) by (field; lra).
    assert (K : Rabs (qf (qconj q) i * (B2R s - / (N * N))) <= 17 * u * / N).
    { rewrite Rabs_mult. rewrite <- IE. replace (17 * u * (N * / (N * N))) with (N * (17 * u * / (N * N))) by ring. apply Rmult_le_compat; auto using Rabs_pos. }
    rewrite EE. split; [exact K|]. replace (qf (qconj q) i * B2R s) with (qf (qconj q) i * (B2R s - / (N * N)) + qf (qconj q) i * / (N * N)) by ring.
    eapply Rle_trans; [apply Rabs_triang|]. assert (Rabs (qf (qconj q) i * / (N * N)) <= / N); [|rewrite U in K; lra].
    rewrite Rabs_mult, (Rabs_pos_eq (/ (N * N))) by (left; apply Rinv_0_lt_compat; nra). rewrite <- IE. apply Rmult_le_compat_r; [left; apply Rinv_0_lt_compat; nra|exact CB]. }
  assert (I5 : / N <= 5000) by (replace 5000 with (/ (2 / 10000)) by lra; apply Rinv_le; lra).
  assert (B127 : 10000 <= bpow radix2 127) by (apply Rle_trans with (bpow radix2 14); [cbn; lra|apply bpow_le; lia]).
  assert (M : forall i (x : f32), (i < 4)%nat -> is_finite x = true -> B2R x = qf (qconj q) i -> is_finite (Bmult mode_NE x s) = true /\ B2R (Bmult mode_NE x s) = rnd32 (qf (qconj q) i * B2R s)).
  { intros i x Hi Fx Ex. destruct (mult_ok x s Fx Fs) as [K1 K2]; [rewrite Ex; destruct (PB i Hi); lra|]. rewrite Ex in K2. auto. }
  destruct (invert_path lm v f q n Hf Hq Ev Hgt) as (v' & g & E & Hv' & Fg); [intros i x Hi Fx Ex; apply (M i x Hi Fx Ex)|]. fold s in Hv'.
  set (h := fun i => Bmult mode_NE (g i : f32) s) in *. exists v', (Quat (B2R (h 0%nat)) (B2R (h 1%nat)) (B2R (h 2%nat)) (B2R (h 3%nat))).
  split; [exact E|]. split; [exists h; split; [exact Hv'|]; apply below4; reflexivity|].
  assert (D : qdist (Quat (B2R (h 0%nat)) (B2R (h 1%nat)) (B2R (h 2%nat)) (B2R (h 3%nat))) (qinv q) <= 2 * (14 / 10000000 * / N)).
  { assert (C : forall i, (i < 4)%nat -> Rabs (B2R (h i) - qf (qinv q) i) <= 14 / 10000000 * / N).
    { intros i Hi. unfold h. destruct (Fg i Hi) as [Fx Ex]. destruct (M i (g i) Hi Fx Ex) as [_ ->]. destruct (PB i Hi) as [K1 K2].
      replace (rnd32 (qf (qconj q) i * B2R s) - qf (qinv q) i) with ((rnd32 (qf (qconj q) i * B2R s) - qf (qconj q) i * B2R s) + (qf (qconj q) i * B2R s - qf (qinv q) i)) by ring.
      eapply Rle_trans; [apply Rabs_triang|]. pose proof (rnd_near _ _ K2) as K3.
      assert (EI : eta <= / 1000000000 * / N).
      { apply Rle_trans with (/ 1000000000 * / bpow radix2 58); [|apply Rmult_le_compat_l; [lra|apply Rinv_le; lra]].
        unfold eta. rewrite <- bpow_opp. apply Rle_trans with (bpow radix2 (-30) * bpow radix2 (-58)); [rewrite <- bpow_plus; apply bpow_le; lia|].
        apply Rmult_le_compat_r; [apply bpow_ge_0|]. cbn. lra. }
      rewrite U in K1, K3. lra. }
    apply qdist_comp; [apply (C 0%nat)|apply (C 1%nat)|apply (C 2%nat)|apply (C 3%nat)]; lia. }
  destruct (qinv_mul q ltac:(unfold N in N0; lra)) as [Q1 Q2].
  split; [rewrite <- Q1; rewrite qdist_mul_l|rewrite <- Q2; rewrite qdist_mul_r]; fold N; set (DD := qdist _ _) in *.
  - apply Rle_trans with (N * (2 * (14 / 10000000 * / N))); [apply Rmult_le_compat_l; lra|]. replace (N * (2 * (14 / 10000000 * / N))) with (28 / 10000000) by (field; lra). lra.
  - apply Rle_trans with (2 * (14 / 10000000 * / N) * N); [apply Rmult_le_compat_r; lra|]. replace (2 * (14 / 10000000 * / N) * N) with (28 / 10000000) by (field; lra). lra.
Qed.

(*@ C75_huge *)
(** C75, violation for a whole class, every libm: a finite quaternion with a component of magnitude 2^64 or more is inverted to
    exactly zero, with the outcome Ok *)
Lemma l_invert_huge :
  forall (lm : Libm) (v : Vec (T (Arith := F32 lm))) (q : quat) (k : nat), quat_f v q -> (k < 4)%nat -> bpow radix2 64 <= Rabs (qf q k) ->
  exists v', q_invert v = (v', Ok tt) /\ quat_f v' qzero.
Proof.
  intros lm v q k Hq Hk Hbig. destruct (quat_f_inv lm v q Hq) as (f & Hf & Ff).
  assert (S : forall m, (m <= 4)%nat -> nonneg (fsum (A := F32 lm) m (fun i => Bmult mode_NE (f i) (f i))) /\
     ((k < m)%nat -> fsum (A := F32 lm) m (fun i => Bmult mode_NE (f i) (f i)) = B754_infinity false)).
  { induction m as [|m IH]; intros Hm.
    - split; [|lia]. right. split; [reflexivity|]. cbn. lra.
    - destruct (IH ltac:(lia)) as [I1 I2]. destruct (Bsqr (f m) (proj1 (Ff m ltac:(lia)))) as [Q1 Q2].
      destruct (nonneg_plus _ _ I1 Q1) as [P1 P2]. split; [exact P1|]. intros Hkm. apply P2.
      destruct (Nat.eq_dec k m) as [<-|]; [right; apply Q2; rewrite (proj2 (Ff k Hk)); exact Hbig|left; apply I2; lia]. }
  destruct (S 4%nat ltac:(lia)) as [_ Sn]. specialize (Sn Hk).
  assert (Ev : v_calculate_norm v = Ok (B754_infinity false : T (Arith := F32 lm))).
  { rewrite (v_norm_is (A := F32 lm) v 4 f Hf). f_equal. change (fsum (A := F32 lm) 4 (fun i => fmul (Arith := F32 lm) (f i) (f i))) with (fsum (A := F32 lm) 4 (fun i => Bmult mode_NE (f i) (f i))). rewrite Sn. reflexivity. }
  assert (Z : Bdiv mode_NE (f1 (A := F32 lm) : f32) (Bmult mode_NE (B754_infinity false : f32) (B754_infinity false)) = B754_zero false) by reflexivity.
  assert (M : forall x : f32, is_finite x = true -> exists b, Bmult mode_NE x (B754_zero false) = B754_zero b) by (intros x Fx; destruct x; try discriminate; cbn; eauto).
  destruct (invert_path lm v f q (B754_infinity false : f32) Hf Hq Ev eq_refl) as (v' & g & E & Hv' & Fg).
  - intros i x Hi Fx Ex. rewrite Z. destruct (M x Fx) as [b ->]. reflexivity.
  - rewrite Z in Hv'. exists v'. split; [exact E|]. eexists. split; [exact Hv'|]. intros i Hi. cbv beta. destruct (M (g i) (proj1 (Fg i Hi))) as [b ->].
    destruct i as [|[|[|[|i]]]]; try lia; reflexivity.
Qed.

(** ** exponential *)
(** [within EPSILON x 0] *)
Lemma within0 lm (x : f32) : is_finite x = true ->
  (Rabs (B2R x) <= 98 / 1000000 -> within (A := F32 lm) EPSILON x f0) /\ (within (A := F32 lm) EPSILON x f0 -> Rabs (B2R x) <= 102 / 1000000).
Proof.
  intros Fx. destruct (eps32 lm) as [FE [EL EU]]. pose proof eta_40 as [E0 E1]. assert (U : u = 1 / 16777216) by reflexivity.
  destruct (is_finite (Bminus mode_NE x (f0 (A := F32 lm) : f32))) eqn:F1.
  2:{ exfalso. destruct x as [s| | |s m e H]; try discriminate; destruct s; discriminate. }
  destruct (fin_minus _ _ F1) as (_ & _ & Em). assert (Z : B2R (f0 (A := F32 lm) : f32) = 0) by reflexivity. rewrite Z, Rminus_0_r in Em.
  assert (ES : B2R (Bminus mode_NE x (f0 (A := F32 lm) : f32)) = B2R x) by (rewrite Em; apply round_generic; [apply valid_rnd_N|apply generic_format_B2R]).
  unfold within. change (fleb (Arith := F32 lm) (fabs (Arith := F32 lm) (fsub (Arith := F32 lm) x f0)) EPSILON) with (Bleb (Babs (Bminus mode_NE x (f0 (A := F32 lm) : f32))) (EPSILON (A := F32 lm) : f32)).
  rewrite Bleb_ok by (try exact FE; rewrite is_finite_Babs; exact F1). rewrite B2R_Babs, ES. split.
  - intros H. apply Rle_bool_true. lra.
  - destruct (Rle_bool_spec (Rabs (B2R x)) (B2R (EPSILON (A := F32 lm) : f32))); [intros; lra|discriminate].
Qed.
Lemma sqrt3_small x y z c : 0 <= c -> Rabs x <= c -> Rabs y <= c -> Rabs z <= c -> sqrt (x * x + y * y + z * z) <= 1733 / 1000 * c.
Proof.
  intros P X Y Z. replace (1733 / 1000 * c) with (sqrt ((1733 / 1000 * c) * (1733 / 1000 * c))) by (apply sqrt_square; lra). apply sqrt_le_1_alt.
  assert (K : forall t, Rabs t <= c -> t * t <= c * c) by (intros t Ht; apply Rabs_le_inv in Ht; nra). pose proof (K x X). pose proof (K y Y). pose proof (K z Z). assert (0 <= c * c) by nra. lra.
Qed.

(*@ C75_exp *)
(** C75: the exponential of a pure f32 quaternion (real part at most 9.8e-5) whose vector part is between 2e-4 and B long is
    (cos|v|, sin|v| v/|v|) up to (3 + |v|) 1e-6 + 3 d, where d is the error of sin and cos up to 2 B *)
Lemma l_exp32 :
  forall (lm : Libm) (v : Vec (T (Arith := F32 lm))) (q : quat) (d B : R), quat_f v q -> Rabs (Qw q) <= 98 / 1000000 ->
  2 / 10000 <= vnorm q <= B -> B <= 1000 -> libm_accurate lm d (2 * B) -> 0 <= d <= / 100 ->
  exists v' r, q_exp_new v = Ok v' /\ quat_f v' r /\ qdist r (qexp (Quat 0 (Qx q) (Qy q) (Qz q))) <= (3 + vnorm q) / 1000000 + 3 * d.
Proof.
  intros lm v q d B Hq Hw HN HB LA Hd. destruct (quat_f_inv lm v q Hq) as (f & Hf & Ff). set (N := vnorm q) in *.
  assert (U : u = 1 / 16777216) by reflexivity. pose proof eta_40 as [E0 E1].
  pose proof (Ff 0%nat ltac:(lia)) as [F0 f00]. pose proof (Ff 1%nat ltac:(lia)) as [F1 f01]. pose proof (Ff 2%nat ltac:(lia)) as [F2 f02]. pose proof (Ff 3%nat ltac:(lia)) as [F3 f03].
  cbn [qf quad] in f00, f01, f02, f03.
  destruct (l_is_real (F32 lm) _ v f Hf) as ((br & Er & Hr) & (bp & Ep & Hp) & _).
  assert (br = false) as ->.
  { destruct br; [|reflexivity]. exfalso. destruct Hr as [Hr _]. destruct (Hr eq_refl) as (W1 & W2 & W3).
    apply within0 in W1; [|exact F1]. apply within0 in W2; [|exact F2]. apply within0 in W3; [|exact F3]. rewrite f01 in W1. rewrite f02 in W2. rewrite f03 in W3.
    pose proof (sqrt3_small _ _ _ (102 / 1000000) ltac:(lra) W1 W2 W3) as K. fold (vnorm q) in K. fold N in K. lra. }
  assert (bp = true) as -> by (apply Hp, within0; [exact F0|rewrite f00; exact Hw]).
  destruct (q_get_vector_part_ok (A := F32 lm) v f Hf) as (qv & Eq & Hqv). set (fv := triple (f 1%nat) (f 2%nat) (f 3%nat)) in *.
  assert (FV : forall i, (i < 3)%nat -> is_finite (fv i : f32) = true) by (apply below3; auto).
  assert (EN : rnorm 3 (fun i => B2R (fv i : f32)) = N) by (unfold N; rewrite <- vnorm_rnorm; apply rnorm_ext; apply below3; cbn; auto).
  assert (B60 : 1000 <= bpow radix2 60) by (apply Rle_trans with (bpow radix2 10); [cbn; lra|apply bpow_le; lia]).
  destruct (norm_err lm 3 (fun i => fv i : f32) ltac:(lia) FV) as [Fn En]; [rewrite EN; lra|]. cbv zeta in En. rewrite EN in En.
  set (n := Bsqrt mode_NE (fsum (A := F32 lm) 3 (fun i => Bmult mode_NE (fv i : f32) (fv i)))) in *.
  assert (L : 19 / 100000 <= B2R n) by (apply Rabs_le_inv in En; rewrite U in En; lra).
  assert (Ev : v_calculate_norm qv = Ok (n : T (Arith := F32 lm))) by (rewrite (v_norm_is (A := F32 lm) qv 3 fv Hqv); f_equal; apply (flush_keep lm n Fn); lra).
  destruct (l_normalize32 lm qv 3 fv Hqv) as (qv1 & g & E2 & Hg & _ & Kg); [rewrite EN; unfold eps; lra|]. rewrite EN in Kg.
  destruct (LA n Fn) as ((Fs & Es) & (Fc & Ec)); [apply Rabs_le_inv in En; rewrite U in En; apply Rabs_le; lra|].
  set (sn := lm_sin lm n) in *. set (cn := lm_cos lm n) in *.
  assert (D1 : Rabs (B2R sn - sin N) <= d + 7 * u * N).
  { replace (B2R sn - sin N) with ((B2R sn - sin (B2R n)) + (sin (B2R n) - sin N)) by ring. eapply Rle_trans; [apply Rabs_triang|]. pose proof (sin_lip (B2R n) N). lra. }
  assert (D2 : Rabs (B2R cn - cos N) <= d + 7 * u * N).
  { replace (B2R cn - cos N) with ((B2R cn - cos (B2R n)) + (cos (B2R n) - cos N)) by ring. eapply Rle_trans; [apply Rabs_triang|]. pose proof (cos_lip (B2R n) N). lra. }
  assert (FG : forall i, (i < 3)%nat -> is_finite (g i : f32) = true) by (intros i Hi; apply (valid_finite lm); eapply vec_is_valid; eauto).
  assert (N0 : 0 < N) by lra.
  assert (UB : forall i, (i < 3)%nat -> Rabs (B2R (fv i : f32) / N) <= 1).
  { intros i Hi. pose proof (rnorm_bound 3 (fun i => B2R (fv i : f32)) i Hi) as K. cbv beta in K. rewrite EN in K. unfold Rdiv. rewrite Rabs_mult, (Rabs_pos_eq (/ N)) by (left; apply Rinv_0_lt_compat; lra).
    apply Rmult_le_reg_r with N; [lra|]. rewrite Rmult_assoc, Rinv_l by lra. lra. }
  assert (S1 : Rabs (sin N) <= 1) by (apply Rabs_le; pose proof (SIN_bound N); lra).
  assert (B127 : 10000 <= bpow radix2 127) by (apply Rle_trans with (bpow radix2 14); [cbn; lra|apply bpow_le; lia]).
  assert (SB : Rabs (B2R sn) <= 102 / 100) by (apply Rabs_le_inv in D1, S1; rewrite U in D1; apply Rabs_le; lra).
  assert (M : forall i, (i < 3)%nat -> is_finite (Bmult mode_NE (g i : f32) sn) = true /\
     Rabs (B2R (Bmult mode_NE (g i : f32) sn) - sin N * (B2R (fv i : f32) / N)) <= 101 / 100 * (d + 7 * u * N) + 11 / 10000000).
  { intros i Hi. specialize (Kg i Hi). specialize (UB i Hi). set (x := B2R (fv i : f32) / N) in *. set (y := B2R (g i : f32)) in *.
    assert (YB : Rabs y <= 101 / 100) by (apply Rabs_le_inv in Kg, UB; apply Rabs_le; lra).
    assert (PB : Rabs (y * B2R sn) <= 104 / 100) by (rewrite Rabs_mult; pose proof (Rabs_pos y); pose proof (Rabs_pos (B2R sn)); nra).
    destruct (mult_ok (g i : f32) sn (FG i Hi) Fs) as [K1 K2]; [fold y; lra|]. split; [exact K1|]. rewrite K2. fold y.
    pose proof (rnd_near _ _ PB) as K3. replace (rnd32 (y * B2R sn) - sin N * x) with ((rnd32 (y * B2R sn) - y * B2R sn) + (y * (B2R sn - sin N) + sin N * (y - x))) by ring.
    eapply Rle_trans; [apply Rabs_triang|]. assert (K4 : Rabs (y * (B2R sn - sin N) + sin N * (y - x)) <= 101 / 100 * (d + 7 * u * N) + / 1000000).
    { eapply Rle_trans; [apply Rabs_triang|]. rewrite !Rabs_mult. apply Rplus_le_compat; [apply Rmult_le_compat; auto using Rabs_pos|]. replace (/ 1000000) with (1 * / 1000000) by ring. apply Rmult_le_compat; auto using Rabs_pos. }
    assert (u * (104 / 100) + eta <= / 10000000) by (rewrite U; cbn [pow] in E1; lra). lra. }
  pose proof (v_mul_by_scalar_in_place_pw (A := F32 lm) qv1 3 g Hg (sn : T (Arith := F32 lm))) as PW. apply pointwise_v_ok in PW; [|intros i Hi; apply (valid_finite lm), M, Hi].
  destruct PW as (qv2 & E3 & Hv2). destruct (v_duplicate_ok (A := F32 lm) v _ _ Hf) as (dd & Ed & Hdd).
  destruct (q_fillq_ok (A := F32 lm) dd f (cn : T (Arith := F32 lm)) (Bmult mode_NE (g 0%nat : f32) sn) (Bmult mode_NE (g 1%nat : f32) sn) (Bmult mode_NE (g 2%nat : f32) sn) Hdd) as (v' & E4 & Hv');
    [apply (valid_finite lm), Fc|apply (valid_finite lm), M; lia|apply (valid_finite lm), M; lia|apply (valid_finite lm), M; lia|].
  exists v', (Quat (B2R cn) (B2R (Bmult mode_NE (g 0%nat : f32) sn)) (B2R (Bmult mode_NE (g 1%nat : f32) sn)) (B2R (Bmult mode_NE (g 2%nat : f32) sn))).
  split; [|split].
  - unfold q_exp_new. rewrite Ed. cbn [rbind]. rewrite Er. cbn [rbind]. rewrite (vi_get _ _ _ Hf) by lia. cbn [rbind]. rewrite Eq. cbn [rbind]. rewrite Ev. cbn [rbind]. unfold exec at 1. rewrite E2. cbn [rbind].
    unfold exec at 1. change (fsin (Arith := F32 lm) n) with sn. rewrite E3. cbn [rbind]. rewrite !(vi_get _ _ _ Hv2) by lia. cbn [rbind]. unfold exec at 1. change (fcos (Arith := F32 lm) n) with cn.
    change (fmul (Arith := F32 lm)) with (Bmult (prec := prec) (emax := emax) mode_NE). rewrite E4. cbn [rbind]. rewrite Ep. reflexivity.
  - eexists. split; [exact Hv'|]. apply below4; reflexivity.
  - assert (EE : qexp (Quat 0 (Qx q) (Qy q) (Qz q)) = Quat (cos N) (sin N * (Qx q / N)) (sin N * (Qy q / N)) (sin N * (Qz q / N))).
    { unfold qexp. change (vnorm (Quat 0 (Qx q) (Qy q) (Qz q))) with N. cbn [Qw Qx Qy Qz]. rewrite exp_0. unfold qscale. cbn. f_equal; ring. }
    rewrite EE. eapply Rle_trans; [apply qdist_comp with (e := 101 / 100 * (d + 7 * u * N) + 11 / 10000000)|rewrite U; lra]; cbn [Qw Qx Qy Qz].
    + eapply Rle_trans; [exact D2|]. rewrite U. lra.
    + destruct (M 0%nat ltac:(lia)) as [_ K]. cbn [fv triple] in K. rewrite f01 in K. exact K.
    + destruct (M 1%nat ltac:(lia)) as [_ K]. cbn [fv triple] in K. rewrite f02 in K. exact K.
    + destruct (M 2%nat ltac:(lia)) as [_ K]. cbn [fv triple] in K. rewrite f03 in K. exact K.
Qed.

(*@ C75_exp_small *)
(** C75, violation for a whole class, every libm: when every component of the vector part is at most 9.8e-5 the exponential is
    exactly 1, whatever the real part *)
Lemma l_exp32_small :
  forall (lm : Libm) (v : Vec (T (Arith := F32 lm))) (q : quat), quat_f v q ->
  Rabs (Qx q) <= 98 / 1000000 -> Rabs (Qy q) <= 98 / 1000000 -> Rabs (Qz q) <= 98 / 1000000 ->
  exists v', q_exp_new v = Ok v' /\ quat_f v' qone.
Proof.
  intros lm v q Hq H1 H2 H3. destruct (quat_f_inv lm v q Hq) as (f & Hf & Ff).
  pose proof (Ff 1%nat ltac:(lia)) as [F1 f01]. pose proof (Ff 2%nat ltac:(lia)) as [F2 f02]. pose proof (Ff 3%nat ltac:(lia)) as [F3 f03]. cbn [qf quad] in f01, f02, f03.
  destruct (l_is_real (F32 lm) _ v f Hf) as ((br & Er & Hr) & _). assert (br = true) as -> by (apply Hr; repeat split; apply within0; auto; congruence).
  destruct (v_duplicate_ok (A := F32 lm) v _ _ Hf) as (dd & Ed & Hdd).
  destruct (q_fillq_ok (A := F32 lm) dd f f1 f0 f0 f0 Hdd) as (v' & E4 & Hv'); try apply ok_f1; try apply ok_f0. exists v'. split.
  - unfold q_exp_new. rewrite Ed. cbn [rbind]. rewrite Er. cbn [rbind]. unfold exec. rewrite E4. reflexivity.
  - eexists. split; [exact Hv'|]. apply below4; cbn [quad qone qf Qw Qx Qy Qz]; [apply B2R_f1|reflexivity|reflexivity|reflexivity].
Qed.

(** ** Examples *)
(*@ C75_huge_refuted *)
(** ... so the invertible quaternion 2^64 has the "inverse" 0 and multiplying back gives 0, not 1 *)
Lemma l_invert_huge_w :
  forall (lm : Libm), exists (v v' : Vec (T (Arith := F32 lm))) (q : quat),
  quat_f v q /\ qnorm q = bpow radix2 64 /\ q_invert v = (v', Ok tt) /\ quat_f v' qzero /\ qdist (qmul q qzero) qone = 1.
Proof.
  intros lm.
  assert (Z : is_finite (z32 (2 ^ 64)) = true /\ B2R (z32 (2 ^ 64)) = bpow radix2 64).
  { destruct (lit32_R (2 ^ 64) 1) as [F E].
    - replace (IZR (2 ^ 64) / IZR 1) with (bpow radix2 64) by (change (IZR (2 ^ 64)) with (bpow radix2 64); field). rewrite Rabs_pos_eq by apply bpow_ge_0. apply bpow_le. lia.
    - split; [exact F|]. etransitivity; [exact E|]. replace (IZR (2 ^ 64) / IZR 1) with (bpow radix2 64) by (change (IZR (2 ^ 64)) with (bpow radix2 64); field). apply round_generic; [apply valid_rnd_N|]. apply generic_format_bpow. unfold FLT_exp. cbn. lia. }
  assert (Q : quat_f (lm := lm) (mk_vec (A := F32 lm) (map z32 [2 ^ 64; 0; 0; 0]%Z)) (Quat (bpow radix2 64) 0 0 0)).
  { eexists. split; [apply (fvec_is lm); [cbn; lia|repeat constructor; try apply Z]|].
    cbn [map length]. intros i Hi. destruct i as [|[|[|[|i]]]]; cbn [nth qf quad Qw Qx Qy Qz]; [apply Z|reflexivity|reflexivity|reflexivity|lia]. }
  destruct (l_invert_huge lm _ _ 0%nat Q ltac:(lia)) as (v' & E & H).
  { cbn [qf quad Qw]. rewrite Rabs_pos_eq by apply bpow_ge_0. lra. }
  eexists _, v', _. split; [exact Q|]. split; [|split; [exact E|split; [exact H|]]].
  - unfold qnorm, qnorm2. cbn [Qw Qx Qy Qz]. rewrite !Rmult_0_l, !Rplus_0_r. apply sqrt_square, bpow_ge_0.
  - unfold qdist, qmul, qnorm, qnorm2, qzero, qone, qsub. cbn. apply sqrt_lem_1; lra.
Qed.


(** The hypotheses of C75_inverse and C75_exp are met by 3 + 4i and by the pure quaternion i (with any libm, with the libm rounding
    the exact sine and cosine to 2^-23) *)
Lemma l_inv32_example :
  (forall (lm : Libm), exists (v : Vec (T (Arith := F32 lm))) (q : quat), quat_f v q /\ q = Quat 3 4 0 0 /\ 2 / 10000 <= qnorm q <= bpow radix2 58) /\
  exists (v : Vec (T (Arith := F32 near_libm))) (q : quat), quat_f v q /\ q = Quat 0 1 0 0 /\ Rabs (Qw q) <= 98 / 1000000 /\
  2 / 10000 <= vnorm q <= 1 /\ libm_accurate near_libm (2 / 10000000) (2 * 1).
Proof.
  split.
  - intros lm. eexists _, _. split; [apply (fquat_z lm 3 4 0 0); cbn; lia|]. split; [reflexivity|].
    assert (E : qnorm (Quat 3 4 0 0) = 5) by (unfold qnorm, qnorm2; cbn [Qw Qx Qy Qz]; apply sqrt_lem_1; lra). rewrite E. split; [lra|].
    apply Rle_trans with (bpow radix2 3); [cbn; lra|apply bpow_le; lia].
  - eexists _, _. split; [apply (fquat_z near_libm 0 1 0 0); cbn; lia|]. split; [reflexivity|]. cbn [Qw]. rewrite Rabs_R0. split; [lra|].
    assert (E : vnorm (Quat 0 1 0 0) = 1) by (unfold vnorm; cbn [Qw Qx Qy Qz]; apply sqrt_lem_1; lra). rewrite E. split; [lra|apply near_accurate].
Qed.
(*@ example *)
Example C75_example :
  (forall (lm : Libm), exists (v : Vec (T (Arith := F32 lm))) (q : quat), quat_f v q /\ q = Quat 3 4 0 0 /\ 2 / 10000 <= qnorm q <= bpow radix2 58) /\
  exists (v : Vec (T (Arith := F32 near_libm))) (q : quat), quat_f v q /\ q = Quat 0 1 0 0 /\ Rabs (Qw q) <= 98 / 1000000 /\
  2 / 10000 <= vnorm q <= 1 /\ libm_accurate near_libm (2 / 10000000) (2 * 1).
Proof. exact l_inv32_example. Qed.
