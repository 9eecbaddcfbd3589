(** C85: complex arithmetic in f32. *)
(*@+*)
From Coq Require Import List Arith ZArith NArith Reals Lia Bool Lra SpecFloat.
From Flocq Require Import Core BinarySingleNaN.
From Verif Require Import M_Base M_Arith M_Utils M_Dsp M_F32 S_Spec S_Dsp S_Track S_Cplx32 P_Inst P_InstF P_F32Ar.
Import ListNotations.
Local Open Scope R_scope.
(*@-*)
From Coq Require Import Psatz.
From Flocq Require Import Plus_error Relative.
From Verif Require Import P_Hoare P_Cont P_Float S_Compare P_Compare P_Norm P_FErr P_Norm32 P_FAcc P_F32Mul P_Inv32 P_Sara32.

Lemma absq x : Rabs x * Rabs x = x * x.
Proof. rewrite <- Rabs_mult. apply Rabs_pos_eq. apply Rle_0_sqr. Qed.
Lemma cabs_sqr a : cabs a * cabs a = Re a * Re a + Im a * Im a.
Proof. unfold cabs. apply sqrt_sqrt. nra. Qed.
Lemma cabs_pos a : 0 <= cabs a. Proof. apply sqrt_pos. Qed.
Lemma cabs_le a e : 0 <= e -> Rabs (Re a) <= e -> Rabs (Im a) <= e -> cabs a <= 14143 / 10000 * e.
Proof.
  intros E H1 H2. apply sqr_le_abs; [lra|]. rewrite cabs_sqr, <- (absq (Re a)), <- (absq (Im a)).
  pose proof (Rabs_pos (Re a)). pose proof (Rabs_pos (Im a)). assert (Rabs (Re a) * Rabs (Re a) <= e * e) by (apply Rmult_le_compat; auto).
  assert (Rabs (Im a) * Rabs (Im a) <= e * e) by (apply Rmult_le_compat; auto). nra.
Qed.
Lemma cabs_part a : Rabs (Re a) <= cabs a /\ Rabs (Im a) <= cabs a.
Proof.
  split; (apply sqr_le_abs; [apply cabs_pos|]); rewrite absq, cabs_sqr; nra.
Qed.
Lemma ccs (x1 x2 y1 y2 : R) : Rabs (x1 * y1) + Rabs (x2 * y2) <= sqrt (x1 * x1 + x2 * x2) * sqrt (y1 * y1 + y2 * y2).
Proof.
  rewrite !Rabs_mult. rewrite <- (absq x1), <- (absq x2), <- (absq y1), <- (absq y2).
  pose proof (Rabs_pos x1). pose proof (Rabs_pos x2). pose proof (Rabs_pos y1). pose proof (Rabs_pos y2).
  set (a := Rabs x1) in *. set (b := Rabs x2) in *. set (c := Rabs y1) in *. set (d := Rabs y2) in *.
  rewrite <- sqrt_mult by nra. rewrite <- (sqrt_square (a * c + b * d)) by nra. apply sqrt_le_1_alt.
  assert (0 <= (a * d - b * c) * (a * d - b * c)) by apply Rle_0_sqr. lra.
Qed.
Lemma cabs_tri a b : cabs (cadd a b) <= cabs a + cabs b.
Proof.
  pose proof (cabs_pos a). pose proof (cabs_pos b). apply sqr_le_abs; [lra|]. rewrite cabs_sqr. pose proof (cabs_sqr a). pose proof (cabs_sqr b).
  pose proof (ccs (Re a) (Im a) (Re b) (Im b)) as C. fold (cabs a) (cabs b) in C. pose proof (Rle_abs (Re a * Re b)). pose proof (Rle_abs (Im a * Im b)).
  unfold cadd. cbn [Re Im]. nra.
Qed.
Lemma cdist_tri a b c : cdist a c <= cdist a b + cdist b c.
Proof.
  unfold cdist. replace (csub a c) with (cadd (csub a b) (csub b c)); [apply cabs_tri|]. unfold csub, cadd. cbn [Re Im]. f_equal; ring.
Qed.
Lemma cabs_mul a b : cabs (cmul a b) = cabs a * cabs b.
Proof. unfold cabs. rewrite <- sqrt_mult by nra. f_equal. unfold cmul. cbn [Re Im]. ring. Qed.
Lemma cdist_mul a b c : cdist (cmul a c) (cmul b c) = cdist a b * cabs c.
Proof. unfold cdist. rewrite <- cabs_mul. f_equal. unfold csub, cmul. cbn [Re Im]. f_equal; ring. Qed.

(** two products, added or subtracted *)
Definition B50 : R := bpow radix2 50.
Lemma B50_val : 1 <= B50 /\ B50 * B50 <= huge / 1000000 /\ 1000000 * B50 <= huge / 1000000 /\ 1000000 * huge <= bpow radix2 127 * 1000000.
Proof.
  unfold B50, huge. split; [change 1 with (bpow radix2 0); apply bpow_le; lia|]. rewrite <- bpow_plus. change (50 + 50)%Z with 100%Z.
  assert (M : 1000000 <= bpow radix2 20) by (change (bpow radix2 20) with 1048576; lra).
  assert (E : bpow radix2 120 = bpow radix2 20 * bpow radix2 100) by (rewrite <- bpow_plus; reflexivity).
  assert (E2 : bpow radix2 70 = bpow radix2 20 * bpow radix2 50) by (rewrite <- bpow_plus; reflexivity).
  assert (P1 : 0 < bpow radix2 100) by apply bpow_gt_0. assert (P2 : 0 < bpow radix2 50) by apply bpow_gt_0.
  assert (L : bpow radix2 70 <= bpow radix2 100) by (apply bpow_le; lia). assert (L2 : bpow radix2 120 <= bpow radix2 127) by (apply bpow_le; lia).
  split; [nra|]. split; nra.
Qed.
Lemma two_prod (x1 y1 x2 y2 : f32) (M : R) : is_finite x1 = true -> is_finite y1 = true -> is_finite x2 = true -> is_finite y2 = true ->
  Rabs (B2R x1 * B2R y1) + Rabs (B2R x2 * B2R y2) <= M -> M <= huge / 1000000 ->
  let p := Bmult mode_NE x1 y1 in let q := Bmult mode_NE x2 y2 in
  (is_finite (Bplus mode_NE p q) = true /\ Rabs (B2R (Bplus mode_NE p q) - (B2R x1 * B2R y1 + B2R x2 * B2R y2)) <= 20001 / 10000 * u * M + 4 * eta) /\
  (is_finite (Bminus mode_NE p q) = true /\ Rabs (B2R (Bminus mode_NE p q) - (B2R x1 * B2R y1 - B2R x2 * B2R y2)) <= 20001 / 10000 * u * M + 4 * eta).
Proof.
  intros F1 F2 F3 F4 HM MB p q. pose proof (Rabs_pos (B2R x1 * B2R y1)) as A0. pose proof (Rabs_pos (B2R x2 * B2R y2)) as A1. assert (U : u = 1 / 16777216) by reflexivity. pose proof eta_40 as [E0 E1].
  assert (H1 : 1 <= huge) by (unfold huge; change 1 with (bpow radix2 0); apply bpow_le; lia).
  destruct (prod_err x1 y1 F1 F2) as [Fp Ep]; [lra|]. destruct (prod_err x2 y2 F3 F4) as [Fq Eq]; [lra|]. fold p in Fp, Ep. fold q in Fq, Eq.
  set (X := B2R x1 * B2R y1) in *. set (Y := B2R x2 * B2R y2) in *.
  assert (T10 : / 10 ^ 40 <= 1) by (simpl; lra).
  assert (EUM : u * Rabs X + u * Rabs Y <= u * M) by (rewrite <- Rmult_plus_distr_l; apply Rmult_le_compat_l; [rewrite U; lra|exact HM]).
  assert (L127 : huge <= bpow radix2 127) by (apply bpow_le; lia).
  assert (AP : Rabs (B2R p) <= Rabs X + (u * Rabs X + eta)). { replace (B2R p) with (X + (B2R p - X)) by ring. eapply Rle_trans; [apply Rabs_triang|]. lra. }
  assert (AQ : Rabs (B2R q) <= Rabs Y + (u * Rabs Y + eta)). { replace (B2R q) with (Y + (B2R q - Y)) by ring. eapply Rle_trans; [apply Rabs_triang|]. lra. }
  assert (UM : u * M <= M) by (rewrite U; lra). assert (M0 : 0 <= M) by lra.
  assert (K : forall s N, Rabs (s - N) <= u * M + 2 * eta -> Rabs N <= M -> Rabs (rnd32 s - N) <= 20001 / 10000 * u * M + 4 * eta).
  { intros s N Hs HN. eapply Rle_trans; [apply (rnd_acc s N M (u * M + 2 * eta)); auto; nra|]. assert (0 <= u * M) by (rewrite U; lra). assert (u * (u * M) <= 1 / 10000 * (u * M)) by (apply Rmult_le_compat_r; [auto|rewrite U; lra]).
    assert (eta * u <= eta / 10) by (rewrite U; lra). lra. }
  assert (RB : forall s, Rabs s <= Rabs (B2R p) + Rabs (B2R q) -> Rabs s <= bpow radix2 127) by (intros s Hs; lra).
  split.
  - destruct (plus_ok p q Fp Fq) as [Fs Es]; [apply RB, Rabs_triang|]. split; [exact Fs|]. rewrite Es. apply K.
    + replace (B2R p + B2R q - (X + Y)) with ((B2R p - X) + (B2R q - Y)) by ring. eapply Rle_trans; [apply Rabs_triang|]. lra.
    + eapply Rle_trans; [apply Rabs_triang|]. exact HM.
  - destruct (minus_ok p q Fp Fq) as [Fs Es]; [apply RB; unfold Rminus; eapply Rle_trans; [apply Rabs_triang|]; rewrite Rabs_Ropp; lra|]. split; [exact Fs|]. rewrite Es. apply K.
    + replace (B2R p - B2R q - (X - Y)) with ((B2R p - X) + - (B2R q - Y)) by ring. eapply Rle_trans; [apply Rabs_triang|]. rewrite Rabs_Ropp. lra.
    + unfold Rminus. eapply Rle_trans; [apply Rabs_triang|]. rewrite Rabs_Ropp. exact HM.
Qed.


Lemma sum_rel (x y : f32) : exists e, Rabs e <= u /\ rnd32 (B2R x + B2R y) = (B2R x + B2R y) * (1 + e).
Proof.
  destruct (FLT_plus_error_N_ex radix2 (-149) 24 (fun z => negb (Z.even z)) (B2R x) (B2R y)) as (e & He & E); [apply generic_format_B2R|apply generic_format_B2R|].
  exists e. split; [|exact E]. eapply Rle_trans; [exact He|]. unfold u_ro, u. change (bpow radix2 (- (24) + 1)) with (/ 8388608). lra.
Qed.
Lemma scaled_abs (c d : cplx) (e1 e2 k : R) : Rabs e1 <= k -> Rabs e2 <= k -> Re c = Re d * (1 + e1) -> Im c = Im d * (1 + e2) -> cdist c d <= k * cabs d.
Proof.
  intros H1 H2 E1 E2. pose proof (Rabs_pos e1). pose proof (cabs_pos d) as P. unfold cdist. apply sqr_le_abs; [nra|]. rewrite cabs_sqr.
  replace (k * cabs d * (k * cabs d)) with (k * k * (cabs d * cabs d)) by ring. rewrite cabs_sqr. unfold csub. cbn [Re Im]. rewrite E1, E2.
  assert (S1 : e1 * e1 <= k * k) by (rewrite <- absq; apply Rmult_le_compat; auto using Rabs_pos).
  assert (S2 : e2 * e2 <= k * k) by (rewrite <- absq; apply Rmult_le_compat; auto using Rabs_pos).
  replace (Re d * (1 + e1) - Re d) with (Re d * e1) by ring. replace (Im d * (1 + e2) - Im d) with (Im d * e2) by ring.
  assert (0 <= Re d * Re d * (k * k - e1 * e1)) by (apply Rmult_le_pos; [apply Rle_0_sqr|lra]).
  assert (0 <= Im d * Im d * (k * k - e2 * e2)) by (apply Rmult_le_pos; [apply Rle_0_sqr|lra]). nra.
Qed.
Lemma sum127 a b : cabs a <= bpow radix2 50 -> cabs b <= bpow radix2 50 ->
  Rabs (Re a + Re b) <= bpow radix2 127 /\ Rabs (Im a + Im b) <= bpow radix2 127 /\ Rabs (Re a - Re b) <= bpow radix2 127 /\ Rabs (Im a - Im b) <= bpow radix2 127.
Proof.
  intros Ha Hb. destruct (cabs_part a) as [A1 A2]. destruct (cabs_part b) as [C1 C2].
  assert (L : 2 * bpow radix2 50 <= bpow radix2 127) by (change 2 with (bpow radix2 1); rewrite <- bpow_plus; apply bpow_le; lia).
  unfold Rminus. repeat split; (eapply Rle_trans; [apply Rabs_triang|]); rewrite ?Rabs_Ropp; lra.
Qed.

(*@ C85_sum *)
(** C85: negation and conjugation are exact, and sum and difference of complex numbers up to 2^50 are off by at most 6e-8 of the
    result *)
Lemma l_csum32 :
  forall (lm : Libm) (x y s : Complex (A := F32 lm)) (a b : cplx), cplx_f x a -> cplx_f y b -> cabs a <= bpow radix2 50 -> cabs b <= bpow radix2 50 ->
  (exists z c, c_add x y s = (z, Ok tt) /\ cplx_f z c /\ cdist c (cadd a b) <= 6 / 100000000 * cabs (cadd a b)) /\
  (exists z c, c_sub x y s = (z, Ok tt) /\ cplx_f z c /\ cdist c (csub a b) <= 6 / 100000000 * cabs (csub a b)) /\
  (exists z, c_neg x = (z, Ok tt) /\ cplx_f z (copp a)) /\
  (exists z, c_conjugate x = (z, Ok tt) /\ cplx_f z (cconj a)).
Proof.
  intros lm x y s a b ((Fx1 & Ex1) & (Fx2 & Ex2)) ((Fy1 & Ey1) & (Fy2 & Ey2)) Ha Hb. destruct (sum127 a b Ha Hb) as (S1 & S2 & S3 & S4).
  assert (U : u <= 6 / 100000000) by (unfold u; lra).
  assert (V1 : valid (A := F32 lm) (Bopp (c_re x : f32))) by (apply (valid_finite lm); rewrite is_finite_Bopp; exact Fx1).
  assert (V2 : valid (A := F32 lm) (Bopp (c_im x : f32))) by (apply (valid_finite lm); rewrite is_finite_Bopp; exact Fx2).
  split; [|split; [|split]].
  - destruct (plus_ok (c_re x) (c_re y) Fx1 Fy1) as [F1 E1]; [rewrite Ex1, Ey1; exact S1|]. destruct (plus_ok (c_im x) (c_im y) Fx2 Fy2) as [F2 E2]; [rewrite Ex2, Ey2; exact S2|].
    destruct (sum_rel (c_re x) (c_re y)) as (e1 & He1 & R1). destruct (sum_rel (c_im x) (c_im y)) as (e2 & He2 & R2).
    eexists. exists (Cplx (B2R (Bplus mode_NE (c_re x : f32) (c_re y))) (B2R (Bplus mode_NE (c_im x : f32) (c_im y)))). split; [reflexivity|]. split; [repeat split; assumption|].
    apply (scaled_abs _ _ e1 e2); try lra; cbn [Re Im cadd]; [rewrite E1, R1, Ex1, Ey1|rewrite E2, R2, Ex2, Ey2]; reflexivity.
  - destruct (minus_ok (c_re x) (c_re y) Fx1 Fy1) as [F1 E1]; [rewrite Ex1, Ey1; exact S3|]. destruct (minus_ok (c_im x) (c_im y) Fx2 Fy2) as [F2 E2]; [rewrite Ex2, Ey2; exact S4|].
    destruct (sum_rel (c_re x) (Bopp (c_re y))) as (e1 & He1 & R1). destruct (sum_rel (c_im x) (Bopp (c_im y))) as (e2 & He2 & R2). rewrite B2R_Bopp in R1, R2.
    eexists. exists (Cplx (B2R (Bminus mode_NE (c_re x : f32) (c_re y))) (B2R (Bminus mode_NE (c_im x : f32) (c_im y)))). split; [reflexivity|]. split; [repeat split; assumption|].
    apply (scaled_abs _ _ e1 e2); try lra; cbn [Re Im csub]; [rewrite E1, <- Ex1, <- Ey1|rewrite E2, <- Ex2, <- Ey2]; assumption.
  - exists (mkComplex (A := F32 lm) (Bopp (c_re x : f32)) (Bopp (c_im x : f32))). split.
    + unfold c_neg, sbind, reads, c_set_real_part, c_set_imaginary_part, lift, modify, sbind. cbn [c_re c_im].
      change (fneg (Arith := F32 lm) (c_re x)) with (Bopp (c_re x : f32)). rewrite is_valid_value_ok by exact V1. cbn [c_re c_im].
      change (fneg (Arith := F32 lm) (c_im x)) with (Bopp (c_im x : f32)). rewrite is_valid_value_ok by exact V2. reflexivity.
    + unfold cplx_f. cbn [c_re c_im copp Re Im]. rewrite !is_finite_Bopp, !B2R_Bopp, Ex1, Ex2. auto.
  - exists (mkComplex (A := F32 lm) (c_re x) (Bopp (c_im x : f32))). split.
    + unfold c_conjugate, sbind, reads, c_set_imaginary_part, lift, modify, sbind. cbn [c_re c_im].
      change (fneg (Arith := F32 lm) (c_im x)) with (Bopp (c_im x : f32)). rewrite is_valid_value_ok by exact V2. reflexivity.
    + unfold cplx_f. cbn [c_re c_im cconj Re Im]. rewrite !is_finite_Bopp, !B2R_Bopp, Ex2. auto.
Qed.

Lemma part50 a b : cabs a <= bpow radix2 50 -> cabs b <= bpow radix2 50 -> cabs a * cabs b <= huge / 1000000.
Proof. intros Ha Hb. pose proof (cabs_pos a). pose proof (cabs_pos b). eapply Rle_trans; [apply Rmult_le_compat; eauto|]. apply B50_val. Qed.
Lemma eta_39 : 6 * eta <= / 10 ^ 39.
Proof. pose proof eta_40 as [_ E]. replace (/ 10 ^ 39) with (10 * / 10 ^ 40) by (simpl; field). lra. Qed.

(*@ C85_product *)
(** C85: the product is off by at most 1.7e-7 of the result (plus 1e-39 for underflow) *)
Lemma l_cmul32 :
  forall (lm : Libm) (x y s : Complex (A := F32 lm)) (a b : cplx), cplx_f x a -> cplx_f y b -> cabs a <= bpow radix2 50 -> cabs b <= bpow radix2 50 ->
  exists z c, c_mul x y s = (z, Ok tt) /\ cplx_f z c /\ cdist c (cmul a b) <= 17 / 100000000 * cabs (cmul a b) + / 10 ^ 39.
Proof.
  intros lm x y s a b ((Fx1 & Ex1) & (Fx2 & Ex2)) ((Fy1 & Ey1) & (Fy2 & Ey2)) Ha Hb. pose proof (part50 a b Ha Hb) as MB. pose proof eta_40 as [E0 _]. pose proof eta_39 as E39.
  pose proof (ccs (Re a) (Im a) (Re b) (Im b)) as C1. pose proof (ccs (Re a) (Im a) (Im b) (Re b)) as C2. rewrite (Rplus_comm (Im b * Im b)) in C2. fold (cabs a) (cabs b) in C1, C2.
  rewrite <- Ex1, <- Ex2, <- Ey1, <- Ey2 in C1, C2.
  destruct (two_prod _ _ _ _ _ Fx1 Fy1 Fx2 Fy2 C1 MB) as [_ [F1 B1]]. destruct (two_prod _ _ _ _ _ Fx1 Fy2 Fx2 Fy1 C2 MB) as [[F2 B2] _]. cbv zeta in *.
  rewrite Ex1, Ex2, Ey1, Ey2 in B1, B2.
  eexists. exists (Cplx (B2R (Bminus mode_NE (Bmult mode_NE (c_re x : f32) (c_re y)) (Bmult mode_NE (c_im x : f32) (c_im y))))
                        (B2R (Bplus mode_NE (Bmult mode_NE (c_re x : f32) (c_im y)) (Bmult mode_NE (c_im x : f32) (c_re y))))).
  split; [reflexivity|]. split; [repeat split; assumption|]. rewrite cabs_mul. pose proof (cabs_pos a). pose proof (cabs_pos b). assert (0 <= cabs a * cabs b) by (apply Rmult_le_pos; auto).
  unfold cdist. eapply Rle_trans; [apply cabs_le; [|exact B1|exact B2]|]; assert (U : u = 1 / 16777216) by reflexivity; rewrite U; lra.
Qed.

Lemma close32 lm (x : f32) : is_finite x = true -> exists b, allclose (A := F32 lm) x f0 EPSILON = Ok b /\
  (Rabs (B2R x) <= 98 / 1000000 -> b = true) /\ (102 / 1000000 < Rabs (B2R x) -> b = false).
Proof.
  intros F. destruct (within0 lm x F) as [W1 W2]. unfold allclose. rewrite !is_valid_value_ok; [|apply (valid_finite lm); reflexivity|apply (valid_finite lm); exact F].
  cbn [rbind]. eexists. split; [reflexivity|]. unfold within in W1, W2. split; [exact W1|]. intros H.
  destruct (fleb (Arith := F32 lm) _ _); [|reflexivity]. specialize (W2 eq_refl). lra.
Qed.

(** a quotient of nearby numbers *)
Lemma quot32 (n d : f32) (N D M : R) : is_finite n = true -> is_finite d = true -> 1 / 100000000 <= D -> 0 <= M -> M <= huge / 1000000 -> Rabs N <= M ->
  Rabs (B2R n - N) <= 20001 / 10000 * u * M + 4 * eta -> Rabs (B2R d - D) <= 20001 / 10000 * u * D + 4 * eta -> M / D <= huge / 1000000 ->
  is_finite (Bdiv mode_NE n d) = true /\ Rabs (B2R (Bdiv mode_NE n d) - N / D) <= 501 / 100 * u * (M / D) + 2 / 10 ^ 31.
Proof.
  intros Fn Fd HD HM MB HN Hn Hd HQ. assert (U : u = 1 / 16777216) by reflexivity. pose proof eta_40 as [E0 E1].
  assert (T40 : / 10 ^ 40 <= / 10 ^ 30 * / 10 ^ 10) by (right; simpl; field). assert (T30 : 0 < / 10 ^ 30 <= 1) by (simpl; lra). assert (T10 : / 10 ^ 10 = 1 / 10000000000) by (simpl; field).
  rewrite T10 in T40. assert (E2 : eta <= / 10 ^ 30 / 10000000000) by lra.
  assert (E3 : 4 * eta <= 1 / 10000 * u * D) by (rewrite U; lra).
  assert (Hd' : Rabs (B2R d - D) <= 20002 / 10000 * u * D) by lra. clear Hd. set (d0 := B2R d) in *. apply Rabs_le_inv in Hd'.
  assert (Pd : 999 / 1000 * D <= d0) by (rewrite U in Hd'; lra). assert (d0P : 0 < d0) by lra.
  set (Q := M / D) in *. assert (EQ : M = Q * D) by (unfold Q; field; lra). assert (Q0 : 0 <= Q) by (unfold Q; apply Rmult_le_pos; [auto|left; apply Rinv_0_lt_compat; lra]).
  assert (EN : Rabs (N / D) <= Q). { unfold Rdiv. rewrite Rabs_mult, (Rabs_pos_eq (/ D)) by (left; apply Rinv_0_lt_compat; lra). unfold Q, Rdiv. apply Rmult_le_compat_r; [left; apply Rinv_0_lt_compat; lra|auto]. }
  assert (ED : Rabs (B2R n / d0 - N / D) <= 4005 / 1000 * u * Q + / 10 ^ 31).
  { replace (B2R n / d0 - N / D) with (((B2R n - N) + N / D * (D - d0)) * / d0) by (field; lra).
    rewrite Rabs_mult, (Rabs_pos_eq (/ d0)) by (left; apply Rinv_0_lt_compat; lra). apply Rmult_le_reg_r with d0; [auto|]. rewrite Rmult_assoc, Rinv_l, Rmult_1_r by lra.
    eapply Rle_trans; [apply Rabs_triang|]. rewrite Rabs_mult.
    assert (A1 : Rabs (D - d0) <= 20002 / 10000 * u * D) by (apply Rabs_le; lra).
    assert (A2 : Rabs (N / D) * Rabs (D - d0) <= Q * (20002 / 10000 * u * D)) by (apply Rmult_le_compat; auto using Rabs_pos).
    assert (QD : 0 <= Q * D) by (apply Rmult_le_pos; lra).
    assert (L1 : 4005 / 1000 * u * Q * (999 / 1000 * D) <= 4005 / 1000 * u * Q * d0) by (apply Rmult_le_compat_l; [rewrite U; lra|auto]).
    assert (T31 : / 10 ^ 31 = / 10 ^ 30 / 10) by (simpl; field).
    assert (L2 : / 10 ^ 31 * (999 / 1000 * (1 / 100000000)) <= / 10 ^ 31 * d0) by (apply Rmult_le_compat_l; [rewrite T31; lra|lra]).
    rewrite T31 in *. rewrite EQ in Hn. rewrite U in *.
    assert (LL : 4005 / 1000 * (1 / 16777216) * Q * (999 / 1000 * D) = 4005 / 1000 * 999 / 1000 / 16777216 * (Q * D)) by field.
    lra. }
  assert (T31 : / 10 ^ 31 = / 10 ^ 30 / 10) by (simpl; field). assert (T312 : 2 / 10 ^ 31 = / 10 ^ 30 / 5) by (simpl; field).
  assert (H1 : 1000000 <= huge) by (unfold huge; apply Rle_trans with (bpow radix2 20); [change (bpow radix2 20) with 1048576; lra|apply bpow_le; lia]).
  assert (L127 : huge <= bpow radix2 127) by (apply bpow_le; lia).
  assert (AB : Rabs (B2R n / d0) <= bpow radix2 127).
  { replace (B2R n / d0) with (N / D + (B2R n / d0 - N / D)) by ring. eapply Rle_trans; [apply Rabs_triang|]. rewrite T31 in ED. rewrite U in ED. lra. }
  destruct (div_ok n d Fn) as [Fq Eq]; [fold d0; lra|exact AB|]. split; [exact Fq|]. rewrite Eq. fold d0.
  eapply Rle_trans; [apply (rnd_acc _ (N / D) Q _ ED EN)|]; rewrite T31, ?T312; rewrite U; lra.
Qed.

Definition cquot (a b : cplx) : cplx :=
  Cplx ((Re a * Re b + Im a * Im b) / (Re b * Re b + Im b * Im b)) ((Im a * Re b - Re a * Im b) / (Re b * Re b + Im b * Im b)).
Lemma size_sqr b : csizeable b -> 1 / 100000000 <= Re b * Re b + Im b * Im b.
Proof.
  intros [H|H]; rewrite <- (absq (Re b)), <- (absq (Im b)); pose proof (Rabs_pos (Re b)); pose proof (Rabs_pos (Im b)).
  - assert (102 / 1000000 * (102 / 1000000) <= Rabs (Re b) * Rabs (Re b)) by (apply Rmult_le_compat; lra). nra.
  - assert (102 / 1000000 * (102 / 1000000) <= Rabs (Im b) * Rabs (Im b)) by (apply Rmult_le_compat; lra). nra.
Qed.
Lemma quot_unique a b q : 0 < Re b * Re b + Im b * Im b -> cmul q b = a -> q = cquot a b.
Proof. intros H <-. unfold cquot, cmul. destruct q as [q1 q2]. cbn [Re Im]. f_equal; field; lra. Qed.
Lemma quot_is a b : 0 < Re b * Re b + Im b * Im b -> cmul (cquot a b) b = a.
Proof. intros H. destruct a as [a1 a2]. unfold cquot, cmul. cbn [Re Im]. f_equal; field; lra. Qed.

(** ** the quotient *)
Lemma cdiv_core lm (x y s : Complex (A := F32 lm)) (a b : cplx) : cplx_f x a -> cplx_f y b -> cabs a <= 2 * bpow radix2 100 -> cabs b <= bpow radix2 50 -> cabs a * cabs b <= huge / 1000000 ->
  csizeable b -> cabs a <= 2 * bpow radix2 50 * cabs b \/ cabs a <= bpow radix2 50 ->
  exists z c, c_div x y s = (z, Ok tt) /\ cplx_f z c /\ cdist c (cquot a b) <= 43 / 100000000 * cabs (cquot a b) + 3 / 10 ^ 31.
Proof.
  intros ((Fx1 & Ex1) & (Fx2 & Ex2)) ((Fy1 & Ey1) & (Fy2 & Ey2)) Ha Hb MB Sz Hab.
  assert (U : u = 1 / 16777216) by reflexivity. pose proof (size_sqr b Sz) as SB.
  assert (ND : exists b1, allclose (A := F32 lm) (c_re y) f0 EPSILON = Ok b1 /\ (b1 = true -> allclose (A := F32 lm) (c_im y) f0 EPSILON = Ok false)).
  { destruct (close32 lm (c_re y) Fy1) as (b1 & E1 & _ & H1). destruct (close32 lm (c_im y) Fy2) as (b2 & E2 & _ & H2). exists b1. split; [exact E1|]. intros T. rewrite E2. f_equal.
    rewrite Ey1 in H1. rewrite Ey2 in H2. destruct Sz as [Z|Z]; [specialize (H1 Z); congruence|apply H2, Z]. }
  destruct ND as (b1 & N1 & N2).
  set (dd := Bplus mode_NE (Bmult mode_NE (c_re y : f32) (c_re y)) (Bmult mode_NE (c_im y : f32) (c_im y))).
  set (n1 := Bplus mode_NE (Bmult mode_NE (c_re x : f32) (c_re y)) (Bmult mode_NE (c_im x : f32) (c_im y))).
  set (n2 := Bminus mode_NE (Bmult mode_NE (c_im x : f32) (c_re y)) (Bmult mode_NE (c_re x : f32) (c_im y))).
  assert (ED : c_div x y s = (mkComplex (A := F32 lm) (Bdiv mode_NE n1 dd) (Bdiv mode_NE n2 dd), Ok tt)).
  { unfold c_div, sbind, lift. rewrite N1. destruct b1; [rewrite (N2 eq_refl)|]; reflexivity. }
  pose proof (ccs (Re a) (Im a) (Re b) (Im b)) as C1. pose proof (ccs (Im a) (Re a) (Re b) (Im b)) as C2. rewrite (Rplus_comm (Im a * Im a)) in C2. fold (cabs a) (cabs b) in C1, C2.
  assert (C3 : Rabs (Re b * Re b) + Rabs (Im b * Im b) <= Re b * Re b + Im b * Im b) by (rewrite !Rabs_pos_eq by apply Rle_0_sqr; lra).
  assert (A12 : Rabs (Re a * Re b + Im a * Im b) <= cabs a * cabs b) by (eapply Rle_trans; [apply Rabs_triang|exact C1]).
  assert (A22 : Rabs (Im a * Re b - Re a * Im b) <= cabs a * cabs b) by (unfold Rminus; eapply Rle_trans; [apply Rabs_triang|]; rewrite Rabs_Ropp; exact C2).
  assert (DB : Re b * Re b + Im b * Im b <= huge / 1000000). { rewrite <- cabs_sqr. pose proof (cabs_pos b). eapply Rle_trans; [apply Rmult_le_compat; eauto|]. apply B50_val. }
  rewrite <- Ex1, <- Ex2, <- Ey1, <- Ey2 in C1, C2. rewrite <- Ey1, <- Ey2 in C3 at 1 2.
  destruct (two_prod _ _ _ _ _ Fx1 Fy1 Fx2 Fy2 C1 MB) as [[F1 B1] _]. destruct (two_prod _ _ _ _ _ Fx2 Fy1 Fx1 Fy2 C2 MB) as [_ [F2 B2]].
  assert (C3' : Rabs (B2R (c_re y : f32) * B2R (c_re y : f32)) + Rabs (B2R (c_im y : f32) * B2R (c_im y : f32)) <= Re b * Re b + Im b * Im b) by (rewrite Ey1, Ey2, !Rabs_pos_eq by apply Rle_0_sqr; lra).
  destruct (two_prod _ _ _ _ _ Fy1 Fy1 Fy2 Fy2 C3' DB) as [[F3 B3] _]. cbv zeta in *. fold dd in F3, B3. fold n1 in F1, B1. fold n2 in F2, B2.
  rewrite Ex1, Ex2, Ey1, Ey2 in B1, B2. rewrite Ey1, Ey2 in B3. clear C1 C2 C3 C3'. set (D := Re b * Re b + Im b * Im b) in *.
  pose proof (cabs_pos a) as Pa. pose proof (cabs_pos b) as Pb. assert (M0 : 0 <= cabs a * cabs b) by (apply Rmult_le_pos; auto).
  assert (SD : cabs b * cabs b = D) by apply cabs_sqr. assert (Pb' : 1 / 10000 <= cabs b).
  { destruct (Rle_dec (1 / 10000) (cabs b)); auto. exfalso. assert (cabs b * cabs b < 1 / 10000 * (1 / 10000)) by nra. lra. }
  assert (EQ : cabs a * cabs b / D = cabs a / cabs b) by (rewrite <- SD; field; lra).
  assert (QB : cabs a * cabs b / D <= huge / 1000000).
  { rewrite EQ. destruct B50_val as (V0 & _ & V1 & _). unfold B50 in *. destruct Hab as [Hab|Hab].
    - apply Rmult_le_reg_r with (cabs b); [lra|]. unfold Rdiv at 1. rewrite Rmult_assoc, Rinv_l, Rmult_1_r by lra. eapply Rle_trans; [exact Hab|]. apply Rmult_le_compat_r; lra.
    - apply Rmult_le_reg_r with (cabs b); [lra|]. unfold Rdiv at 1. rewrite Rmult_assoc, Rinv_l, Rmult_1_r by lra. eapply Rle_trans; [exact Hab|].
      assert (1000000 * bpow radix2 50 * (1 / 10000) <= huge / 1000000 * cabs b) by (apply Rmult_le_compat; lra). lra. }
  destruct (quot32 n1 dd _ D (cabs a * cabs b) F1 F3 SB M0 MB A12 B1 B3 QB) as [G1 R1].
  destruct (quot32 n2 dd _ D (cabs a * cabs b) F2 F3 SB M0 MB A22 B2 B3 QB) as [G2 R2].
  eexists. exists (Cplx (B2R (Bdiv mode_NE n1 dd)) (B2R (Bdiv mode_NE n2 dd))). split; [exact ED|]. split; [repeat split; assumption|].
  assert (CQ : cabs (cquot a b) = cabs a * cabs b / D). { rewrite EQ. assert (DP : 0 < D) by lra. pose proof (quot_is a b DP) as Q. apply (f_equal cabs) in Q. rewrite cabs_mul in Q. rewrite <- Q. field. lra. }
  rewrite CQ. set (Q := cabs a * cabs b / D) in *. assert (Q0 : 0 <= Q) by (rewrite <- CQ; apply cabs_pos).
  assert (T0 : 0 < 2 / 10 ^ 31) by (simpl; lra). assert (T1 : 14143 / 10000 * (2 / 10 ^ 31) <= 3 / 10 ^ 31) by (simpl; lra).
  unfold cdist. eapply Rle_trans; [apply (cabs_le _ (501 / 100 * u * Q + 2 / 10 ^ 31)); [rewrite U; lra|exact R1|exact R2]|]. rewrite U. lra.
Qed.

(*@ C85_quotient *)
(** C85: dividing by a number of which one part is above 1.02 EPSILON never fails, and the quotient is off by at most 4.3e-7 of
    the result (plus 3e-31) *)
Lemma l_cdiv32 :
  forall (lm : Libm) (x y s : Complex (A := F32 lm)) (a b q : cplx), cplx_f x a -> cplx_f y b -> cabs a <= bpow radix2 50 -> cabs b <= bpow radix2 50 ->
  csizeable b -> cmul q b = a ->
  exists z c, c_div x y s = (z, Ok tt) /\ cplx_f z c /\ cdist c q <= 43 / 100000000 * cabs q + 3 / 10 ^ 31.
Proof.
  intros lm x y s a b q Hx Hy Ha Hb Sz Hq. pose proof (size_sqr b Sz) as SB. rewrite (quot_unique a b q ltac:(lra) Hq).
  apply cdiv_core; auto using part50. assert (bpow radix2 50 <= bpow radix2 100) by (apply bpow_le; lia). assert (0 < bpow radix2 50) by apply bpow_gt_0. lra.
Qed.

(*@ C85_round_trip *)
(** C85: multiplying by b and dividing by b again gives the number back within 7e-7 of it (plus 1e-30) *)
Lemma l_cround32 :
  forall (lm : Libm) (x y s s' : Complex (A := F32 lm)) (a b : cplx), cplx_f x a -> cplx_f y b -> cabs a <= bpow radix2 50 -> cabs b <= bpow radix2 15 -> csizeable b ->
  exists p z c, c_mul x y s = (p, Ok tt) /\ c_div p y s' = (z, Ok tt) /\ cplx_f z c /\ cdist c a <= 7 / 10000000 * cabs a + / 10 ^ 30.
Proof.
  intros lm x y s s' a b Hx Hy Ha Hb15 Sz. assert (Hb : cabs b <= bpow radix2 50) by (eapply Rle_trans; [exact Hb15|apply bpow_le; lia]). pose proof (size_sqr b Sz) as SB. pose proof (cabs_pos a) as Pa. pose proof (cabs_pos b) as Pb.
  assert (Pb' : 1 / 10000 <= cabs b). { pose proof (cabs_sqr b) as SD. destruct (Rle_dec (1 / 10000) (cabs b)); auto. exfalso. assert (cabs b * cabs b < 1 / 10000 * (1 / 10000)) by nra. lra. }
  destruct (l_cmul32 lm x y s a b Hx Hy Ha Hb) as (p & c1 & Ep & Hp & D1). set (r := cquot c1 b).
  assert (Er : cmul r b = c1) by (apply quot_is; lra). rewrite cabs_mul in D1.
  assert (T39 : / 10 ^ 39 = / 10 ^ 30 / 1000000000) by (simpl; field). assert (T31 : 3 / 10 ^ 31 = / 10 ^ 30 * (3 / 10)) by (simpl; field). assert (T30 : 0 < / 10 ^ 30 <= / 10 ^ 3) by (simpl; lra).
  rewrite T39 in D1.
  assert (D2 : cdist r a <= 17 / 100000000 * cabs a + / 10 ^ 30 / 100000).
  { apply Rmult_le_reg_r with (cabs b); [lra|]. rewrite <- cdist_mul, Er. eapply Rle_trans; [exact D1|].
    assert (/ 10 ^ 30 / 100000 * (1 / 10000) <= / 10 ^ 30 / 100000 * cabs b) by (apply Rmult_le_compat_l; lra). lra. }
  assert (Nr : cabs r <= cabs a + cdist r a). { unfold cdist. replace r with (cadd a (csub r a)) at 1; [apply cabs_tri|]. unfold cadd, csub. destruct r, a. cbn. f_equal; ring. }
  assert (N1 : cabs c1 = cabs r * cabs b) by (rewrite <- Er; apply cabs_mul).
  destruct B50_val as (V0 & V1 & _ & _). unfold B50 in *. assert (T3 : / 10 ^ 3 = 1 / 1000) by (simpl; field).
  assert (Rr : cabs r <= 1001 / 1000 * bpow radix2 50) by (rewrite T3 in T30; lra).
  assert (BB : bpow radix2 50 * bpow radix2 50 = bpow radix2 100) by (rewrite <- bpow_plus; reflexivity). pose proof (cabs_pos r) as Pr.
  assert (NB : cabs c1 <= 1001 / 1000 * bpow radix2 50 * bpow radix2 50) by (rewrite N1; apply Rmult_le_compat; lra).
  assert (B15 : 0 < bpow radix2 15) by apply bpow_gt_0. assert (E80 : bpow radix2 50 * bpow radix2 15 * bpow radix2 15 = bpow radix2 80) by (rewrite <- !bpow_plus; reflexivity).
  assert (H80 : 1001 / 1000 * bpow radix2 80 <= huge / 1000000).
  { assert (bpow radix2 80 * 2097152 <= huge); [|pose proof (bpow_gt_0 radix2 80); lra]. change 2097152 with (bpow radix2 21). rewrite <- bpow_plus. apply bpow_le. lia. }
  assert (MB : cabs c1 * cabs b <= huge / 1000000).
  { rewrite N1. eapply Rle_trans; [|exact H80]. rewrite <- E80. replace (1001 / 1000 * (bpow radix2 50 * bpow radix2 15 * bpow radix2 15)) with (1001 / 1000 * bpow radix2 50 * bpow radix2 15 * bpow radix2 15) by ring.
    apply Rmult_le_compat; [apply Rmult_le_pos; lra|lra|apply Rmult_le_compat; lra|exact Hb15]. }
  destruct (cdiv_core lm p y s' c1 b Hp Hy) as (z & c & Ez & Hz & D3); [rewrite <- BB; pose proof (Rmult_lt_0_compat _ _ (bpow_gt_0 radix2 50) (bpow_gt_0 radix2 50)); lra|exact Hb|exact MB|exact Sz|left; rewrite N1; apply Rmult_le_compat_r; lra|].
  exists p, z, c. split; [exact Ep|]. split; [exact Ez|]. split; [exact Hz|]. fold r in D3.
  eapply Rle_trans; [apply (cdist_tri _ r)|]. rewrite T31 in D3. lra.
Qed.

(*@ C85_module *)
(** C85: the module is off by at most 1.8e-7 of it from 1.03e-4 on and is flushed to 0 up to 9.7e-5; it never fails *)
Lemma l_cmodule32 :
  forall (lm : Libm) (x : Complex (A := F32 lm)) (a : cplx), cplx_f x a -> cabs a <= bpow radix2 50 ->
  exists m : f32, c_calculate_module x = Ok m /\ is_finite m = true /\
  (cabs a <= 97 / 1000000 -> B2R m = 0) /\ (103 / 1000000 < cabs a -> Rabs (B2R m - cabs a) <= 18 / 100000000 * cabs a).
Proof.
  intros lm x a ((F1 & E1) & (F2 & E2)) Ha. assert (U : u = 1 / 16777216) by reflexivity. pose proof eta_40 as [E0 E40].
  pose proof (cabs_sqr a) as SQ. pose proof (cabs_pos a) as P. set (V := Re a * Re a + Im a * Im a) in *.
  assert (VB : V <= huge / 1000000) by (rewrite <- SQ; apply part50; exact Ha).
  assert (C : Rabs (B2R (c_re x : f32) * B2R (c_re x : f32)) + Rabs (B2R (c_im x : f32) * B2R (c_im x : f32)) <= V) by (rewrite E1, E2, !Rabs_pos_eq by apply Rle_0_sqr; unfold V; lra).
  destruct (two_prod _ _ _ _ _ F1 F1 F2 F2 C VB) as [[F3 B3] _]. cbv zeta in *.
  assert (H127 : huge <= bpow radix2 127) by (apply bpow_le; lia). assert (H1 : 1 <= huge) by (unfold huge; change 1 with (bpow radix2 0); apply bpow_le; lia).
  pose proof (Rabs_pos (B2R (c_re x : f32) * B2R (c_re x : f32))) as N1. pose proof (Rabs_pos (B2R (c_im x : f32) * B2R (c_im x : f32))) as N2.
  destruct (mult_ok (c_re x) (c_re x) F1 F1) as [G1 R1]; [lra|]. destruct (mult_ok (c_im x) (c_im x) F2 F2) as [G2 R2]; [lra|].
  set (p := Bmult mode_NE (c_re x : f32) (c_re x)) in *. set (q := Bmult mode_NE (c_im x : f32) (c_im x)) in *.
  assert (P1 : 0 <= B2R p) by (rewrite R1; apply rnd_nonneg, Rle_0_sqr). assert (P2 : 0 <= B2R q) by (rewrite R2; apply rnd_nonneg, Rle_0_sqr).
  assert (PP : 0 <= B2R (Bplus mode_NE p q)).
  { destruct (prod_err (c_re x) (c_re x) F1 F1) as [_ Ep]; [lra|]. destruct (prod_err (c_im x) (c_im x) F2 F2) as [_ Eq]; [lra|]. fold p in Ep. fold q in Eq.
    apply Rabs_le_inv in Ep, Eq. rewrite (Rabs_pos_eq (_ * _)) in Ep by apply Rle_0_sqr. rewrite (Rabs_pos_eq (_ * _)) in Eq by apply Rle_0_sqr. rewrite (Rabs_pos_eq (_ * _)) in C by apply Rle_0_sqr. rewrite (Rabs_pos_eq (_ * _)) in C by apply Rle_0_sqr.
    assert (T : / 10 ^ 40 <= 1) by (simpl; lra).
    destruct (plus_ok p q G1 G2) as [_ R3]; [rewrite Rabs_pos_eq by lra; rewrite U in Ep, Eq; lra|]. rewrite R3. apply rnd_nonneg. lra. }
  rewrite E1, E2 in B3. fold V in B3. set (w := Bplus mode_NE p q) in *. destruct (sqrt_ok0 w F3 PP) as [F4 E4].
  assert (T19 : 4 * eta <= / 10 ^ 19 * / 10 ^ 19) by (replace (/ 10 ^ 19 * / 10 ^ 19) with (100 * / 10 ^ 40) by (simpl; field); lra).
  assert (S19 : 0 < / 10 ^ 19 <= / 10 ^ 15) by (simpl; lra). assert (T15 : / 10 ^ 15 = 1 / 1000000000000000) by (simpl; field).
  assert (V0 : 0 <= V) by (rewrite <- SQ; apply Rmult_le_pos; auto).
  assert (RR : Rabs (sqrt (B2R w) - cabs a) <= 20001 / 10000 * u * cabs a + / 10 ^ 19).
  { replace (cabs a) with (sqrt V) by reflexivity. apply root_rel; [exact PP|exact V0|rewrite U; lra|lra|]. eapply Rle_trans; [exact B3|]. lra. }
  assert (RM : Rabs (B2R (Bsqrt mode_NE w) - cabs a) <= 30002 / 10000 * u * cabs a + 3 / 1000000000000000).
  { rewrite E4. eapply Rle_trans; [apply (rnd_acc _ (cabs a) (cabs a) _ RR); [rewrite Rabs_pos_eq; lra|rewrite U; lra]|]. assert (eta <= 1 / 1000000000000000) by (assert (/ 10 ^ 40 <= / 10 ^ 15) by (simpl; lra); lra). rewrite U. lra. }
  destruct (close32 lm (Bsqrt mode_NE w) F4) as (b & Eb & Hb1 & Hb2). exists (if b then f0 (A := F32 lm) : f32 else Bsqrt mode_NE w).
  split; [unfold c_calculate_module; change (fsqrt (Arith := F32 lm) _) with (Bsqrt mode_NE w); rewrite Eb; destruct b; reflexivity|]. split; [destruct b; [reflexivity|exact F4]|].
  apply Rabs_le_inv in RM. rewrite U in RM. split; intros H.
  - rewrite Hb1; [reflexivity|]. apply Rabs_le. lra.
  - rewrite Hb2; [apply Rabs_le; lra|]. eapply Rlt_le_trans; [|apply Rle_abs]. lra.
Qed.

Lemma scaled_trig (r y : f32) (v d : R) : is_finite r = true -> is_finite y = true -> 0 <= d <= / 10 -> Rabs (B2R r) <= 2 * bpow radix2 50 -> Rabs (B2R y - v) <= d -> Rabs v <= 1 ->
  is_finite (Bmult mode_NE r y) = true /\ Rabs (B2R (Bmult mode_NE r y) - B2R r * v) <= (d + 11 / 10 * u) * Rabs (B2R r) + eta.
Proof.
  intros Fr Fy Hd Hr Dy Hv. assert (U : u = 1 / 16777216) by reflexivity. pose proof eta_40 as [E0 E40]. pose proof (Rabs_pos (B2R r)) as R0. set (rr := Rabs (B2R r)) in *.
  assert (Ay : Rabs (B2R y) <= 11 / 10) by (replace (B2R y) with (v + (B2R y - v)) by ring; eapply Rle_trans; [apply Rabs_triang|]; lra).
  assert (Py : Rabs (B2R r * B2R y) <= 11 / 10 * rr) by (rewrite Rabs_mult; fold rr; pose proof (Rabs_pos (B2R y)); nra).
  destruct B50_val as (V0 & _ & V1 & _). unfold B50 in *. destruct (prod_err r y Fr Fy) as [F E]; [lra|]. split; [exact F|].
  replace (B2R (Bmult mode_NE r y) - B2R r * v) with ((B2R (Bmult mode_NE r y) - B2R r * B2R y) + B2R r * (B2R y - v)) by ring.
  eapply Rle_trans; [apply Rabs_triang|]. rewrite (Rabs_mult (B2R r) (B2R y - v)). fold rr. assert (rr * Rabs (B2R y - v) <= rr * d) by (apply Rmult_le_compat_l; lra).
  assert (u * Rabs (B2R r * B2R y) <= u * (11 / 10 * rr)) by (apply Rmult_le_compat_l; [rewrite U|]; lra). lra.
Qed.

(*@ C85_polar *)
(** C85: the polar form is converted to within 2d + 1e-7 of the radius, if sin and cos are off by at most d *)
Lemma l_cpolar32 :
  forall (lm : Libm) (s : Complex (A := F32 lm)) (r t : T (Arith := F32 lm)) (d B : R), libm_accurate lm d B -> 0 <= d <= / 10 ->
  is_finite (r : f32) = true -> is_finite (t : f32) = true -> Rabs (B2R (r : f32)) <= bpow radix2 50 -> Rabs (B2R (t : f32)) <= B ->
  exists z c, c_convert_from_polar r t s = (z, Ok tt) /\ cplx_f z c /\
  cdist c (cpolar (B2R (r : f32)) (B2R (t : f32))) <= (2 * d + / 10000000) * Rabs (B2R (r : f32)) + / 10 ^ 39.
Proof.
  intros lm s r t d B A Hd Fr Ft Hr Ht. assert (U : u = 1 / 16777216) by reflexivity. pose proof eta_40 as [E0 E40]. destruct (A t Ft Ht) as [[Fs Ds] [Fc Dc]].
  pose proof (Rabs_pos (B2R (r : f32))) as R0. set (rr := Rabs (B2R (r : f32))) in *.
  assert (K : forall (y : f32) (v : R), is_finite y = true -> Rabs (B2R y - v) <= d -> Rabs v <= 1 ->
    is_finite (Bmult mode_NE (r : f32) y) = true /\ Rabs (B2R (Bmult mode_NE (r : f32) y) - B2R (r : f32) * v) <= (d + 11 / 10 * u) * rr + eta).
  { intros y v Fy Dy Hv. apply scaled_trig; auto; unfold rr in *; lra. }
  pose proof (SIN_bound (B2R (t : f32))) as BS. pose proof (COS_bound (B2R (t : f32))) as BC.
  destruct (K _ _ Fc Dc ltac:(apply Rabs_le; lra)) as [G1 Q1]. destruct (K _ _ Fs Ds ltac:(apply Rabs_le; lra)) as [G2 Q2].
  set (p := Bmult mode_NE (r : f32) (lm_cos lm t)) in *. set (q := Bmult mode_NE (r : f32) (lm_sin lm t)) in *.
  exists (mkComplex (A := F32 lm) p q), (Cplx (B2R p) (B2R q)). split.
  - unfold c_convert_from_polar, sbind, c_set_real_part, c_set_imaginary_part, lift, modify, sbind.
    change (fmul (Arith := F32 lm) r (fcos t)) with p. change (fmul (Arith := F32 lm) r (fsin t)) with q.
    rewrite !is_valid_value_ok by (apply (valid_finite lm); assumption). reflexivity.
  - split; [repeat split; assumption|]. unfold cdist. pose proof eta_39. assert (0 <= d * rr) by (apply Rmult_le_pos; lra).
    eapply Rle_trans; [apply (cabs_le _ ((d + 11 / 10 * u) * rr + eta)); [|exact Q1|exact Q2]|]; rewrite U; lra.
Qed.

(*@ C85_exponential *)
(** C85: the exponential is off by at most 3d + 1.1e-7 of its modulus if exp, sin and cos are off by at most d (exp relatively),
    unless that modulus is near EPSILON or below: then the result is 0 *)
Lemma l_cexp32 :
  forall (lm : Libm) (x : Complex (A := F32 lm)) (a : cplx) (d B : R), cplx_f x a -> libm_accurate lm d B -> exp_accurate lm d B -> 0 <= d <= / 10 ->
  Rabs (Re a) <= B -> Rabs (Im a) <= B -> exp (Re a) <= bpow radix2 50 ->
  exists z c, c_expo x = (z, Ok tt) /\ cplx_f z c /\ cabs (cexp a) = exp (Re a) /\
  (102 / 1000000 < (1 - d) * exp (Re a) -> cdist c (cexp a) <= (3 * d + 11 / 100000000) * exp (Re a) + / 10 ^ 39) /\
  ((1 + d) * exp (Re a) <= 98 / 1000000 -> c = Cplx 0 0).
Proof.
  intros lm x a d B ((F1 & E1) & (F2 & E2)) A X Hd H1 H2 H50. assert (U : u = 1 / 16777216) by reflexivity. pose proof eta_40 as [E0 E40].
  destruct (X (c_re x) F1 ltac:(rewrite E1; exact H1)) as [Fm Dm]. destruct (A (c_im x) F2 ltac:(rewrite E2; exact H2)) as [[Fs Ds] [Fc Dc]]. rewrite E1 in Dm. rewrite E2 in Ds, Dc.
  pose proof (exp_pos (Re a)) as EP. set (E := exp (Re a)) in *. apply Rabs_le_inv in Dm. assert (DE : 0 <= d * E <= / 10 * E) by (split; [apply Rmult_le_pos|apply Rmult_le_compat_r]; lra).
  assert (CA : cabs (cexp a) = E).
  { unfold cabs, cexp, cpolar. fold E. cbn [Re Im]. replace (E * cos (Im a) * (E * cos (Im a)) + E * sin (Im a) * (E * sin (Im a))) with (E * E * (Rsqr (sin (Im a)) + Rsqr (cos (Im a)))) by (unfold Rsqr; ring).
    rewrite sin2_cos2, Rmult_1_r. apply sqrt_square. lra. }
  set (m := lm_exp lm (c_re x)) in *. assert (Am : Rabs (B2R m) <= 11 / 10 * E) by (apply Rabs_le; lra).
  pose proof (SIN_bound (Im a)) as BS. pose proof (COS_bound (Im a)) as BC. assert (B50P : 0 < bpow radix2 50) by apply bpow_gt_0.
  destruct (scaled_trig m _ _ d Fm Fc Hd ltac:(lra) Dc ltac:(apply Rabs_le; lra)) as [G1 Q1]. destruct (scaled_trig m _ _ d Fm Fs Hd ltac:(lra) Ds ltac:(apply Rabs_le; lra)) as [G2 Q2].
  destruct (close32 lm m Fm) as (b & Eb & Hb1 & Hb2).
  set (p := Bmult mode_NE (m : f32) (lm_cos lm (c_im x))) in *. set (q := Bmult mode_NE (m : f32) (lm_sin lm (c_im x))) in *.
  exists (if b then mkComplex (A := F32 lm) f0 f0 else mkComplex (A := F32 lm) p q), (if b then Cplx 0 0 else Cplx (B2R p) (B2R q)). split; [|split; [|split; [exact CA|]]].
  - unfold c_expo, sbind, reads, lift. change (fexp (Arith := F32 lm) (c_re x)) with m. rewrite Eb. destruct b; reflexivity.
  - destruct b; repeat split; assumption.
  - split; intros H.
    + rewrite Hb2; [|eapply Rlt_le_trans; [|apply Rle_abs]; lra]. pose proof eta_39.
      assert (K : forall z v, Rabs (z - B2R m * v) <= (d + 11 / 10 * u) * Rabs (B2R m) + eta -> Rabs v <= 1 -> Rabs (z - E * v) <= (21 / 10 * d + 121 / 100 * u) * E + eta).
      { intros z v Hz Hv. replace (z - E * v) with ((z - B2R m * v) + (B2R m - E) * v) by ring. eapply Rle_trans; [apply Rabs_triang|]. rewrite (Rabs_mult (B2R m - E)).
        assert (Rabs (B2R m - E) * Rabs v <= d * E * 1) by (apply Rmult_le_compat; auto using Rabs_pos; apply Rabs_le; lra).
        assert ((d + 11 / 10 * u) * Rabs (B2R m) <= (d + 11 / 10 * u) * (11 / 10 * E)) by (apply Rmult_le_compat_l; [rewrite U|]; lra). lra. }
      unfold cdist. eapply Rle_trans; [apply (cabs_le _ ((21 / 10 * d + 121 / 100 * u) * E + eta))|]; [rewrite U; lra|apply (K _ _ Q1); apply Rabs_le; lra|apply (K _ _ Q2); apply Rabs_le; lra|]. rewrite U. lra.
    + rewrite Hb1; [reflexivity|]. apply Rabs_le. lra.
Qed.

(*@ C85_overflow *)
(** C85, violation: a number with a part of magnitude 2^64 or more divided by itself gives NaN as the real part, with the outcome
    Ok; its module is an error *)
Lemma l_cover32 :
  forall (lm : Libm) (x s : Complex (A := F32 lm)) (a : cplx), cplx_f x a -> bpow radix2 64 <= Rabs (Re a) \/ bpow radix2 64 <= Rabs (Im a) ->
  (exists z, c_div x x s = (z, Ok tt) /\ c_re z = (B754_nan : T (Arith := F32 lm))) /\ c_calculate_module x = Err Inf.
Proof.
  intros lm x s a ((F1 & E1) & (F2 & E2)) H.
  destruct (Bsqr (c_re x) F1) as [N1 O1]. destruct (Bsqr (c_im x) F2) as [N2 O2]. rewrite E1 in O1. rewrite E2 in O2.
  assert (S : Bplus mode_NE (Bmult mode_NE (c_re x : f32) (c_re x)) (Bmult mode_NE (c_im x : f32) (c_im x)) = B754_infinity false) by (apply nonneg_plus; auto; destruct H; auto).
  assert (B64 : 1 <= bpow radix2 64) by (change 1 with (bpow radix2 0); apply bpow_le; lia). split.
  - assert (ND : exists b1, allclose (A := F32 lm) (c_re x) f0 EPSILON = Ok b1 /\ (b1 = true -> allclose (A := F32 lm) (c_im x) f0 EPSILON = Ok false)).
    { destruct (close32 lm (c_re x) F1) as (b1 & A1 & _ & H1). destruct (close32 lm (c_im x) F2) as (b2 & A2 & _ & H2). exists b1. split; [exact A1|]. intros T. rewrite A2. f_equal.
      rewrite E1 in H1. rewrite E2 in H2. destruct H as [Z|Z]; [rewrite H1 in T by lra; discriminate|apply H2; lra]. }
    destruct ND as (b1 & A1 & A2). eexists. split; [unfold c_div, sbind, lift; rewrite A1; destruct b1; [rewrite (A2 eq_refl)|]; reflexivity|].
    cbn [c_re]. change (Bdiv mode_NE (Bplus mode_NE (Bmult mode_NE (c_re x : f32) (c_re x)) (Bmult mode_NE (c_im x : f32) (c_im x)))
      (Bplus mode_NE (Bmult mode_NE (c_re x : f32) (c_re x)) (Bmult mode_NE (c_im x : f32) (c_im x))) = B754_nan). rewrite S. reflexivity.
  - unfold c_calculate_module. change (fsqrt (Arith := F32 lm) _) with (Bsqrt mode_NE (Bplus mode_NE (Bmult mode_NE (c_re x : f32) (c_re x)) (Bmult mode_NE (c_im x : f32) (c_im x)))).
    rewrite S. reflexivity.
Qed.

Lemma c85_ex : exists (x y : Complex (A := F32 near_libm)) (a b : cplx), cplx_f x a /\ cplx_f y b /\ a = Cplx 3 4 /\ b = Cplx 1 2 /\
  cabs a <= bpow radix2 50 /\ cabs b <= bpow radix2 15 /\ csizeable b /\ 103 / 1000000 < cabs a /\ libm_accurate near_libm (2 / 10000000) 1000.
Proof.
  exists (mkComplex (A := F32 near_libm) (z32 3) (z32 4)), (mkComplex (A := F32 near_libm) (z32 1) (z32 2)), (Cplx 3 4), (Cplx 1 2).
  assert (L : 32 <= bpow radix2 15 /\ bpow radix2 15 <= bpow radix2 50) by (split; [change 32 with (bpow radix2 5)|]; apply bpow_le; lia).
  assert (A : cabs (Cplx 3 4) = 5) by (unfold cabs; cbn [Re Im]; replace (3 * 3 + 4 * 4) with (5 * 5) by ring; apply sqrt_square; lra).
  assert (B : cabs (Cplx 1 2) <= 3) by (apply sqr_le_abs; [lra|]; rewrite cabs_sqr; cbn [Re Im]; lra).
  repeat split; try (apply z32_R; lia); try (rewrite A; lra); try lra.
  - left. cbn [Re]. rewrite Rabs_pos_eq; lra.
  - apply (near_accurate 1000 x H H0).
  - apply (near_accurate 1000 x H H0).
  - apply (near_accurate 1000 x H H0).
  - apply (near_accurate 1000 x H H0).
Qed.

Lemma near3_ok y : Rabs y <= 3 -> is_finite (near y) = true /\ Rabs (B2R (near y) - y) <= 3 / 10000000.
Proof.
  intros H. set (m := ZnearestE (y * bpow radix2 24)).
  assert (E : Rabs (F2R (Float radix2 m (-24)) - y) <= / 2 * bpow radix2 (-24)).
  { unfold F2R. cbn [Fnum Fexp]. replace (IZR m * bpow radix2 (-24) - y) with ((IZR m - y * bpow radix2 24) * bpow radix2 (-24)).
    - rewrite Rabs_mult, (Rabs_pos_eq (bpow radix2 (-24))) by apply bpow_ge_0. apply Rmult_le_compat_r; [apply bpow_ge_0|].
      unfold m. rewrite Rabs_minus_sym. apply Znearest_half.
    - rewrite Rmult_minus_distr_r, Rmult_assoc, <- bpow_plus. cbn [Z.add Z.opp Z.pos_sub]. cbn. ring. }
  rewrite u_val in E. set (x := F2R (Float radix2 m (-24))) in *. assert (U : u = 1 / 16777216) by reflexivity.
  assert (X2 : Rabs x <= 301 / 100). { apply Rabs_le_inv in E. apply Rabs_le_inv in H. apply Rabs_le. rewrite U in E. lra. }
  pose proof (binary_normalize_correct prec emax _ _ mode_NE m (-24) false) as C. cbn [round_mode] in C. fold x in C.
  rewrite rnd32_lt in C by (apply Rle_trans with 4; [lra|apply Rle_trans with (bpow radix2 2); [cbn; lra|apply bpow_le; lia]]).
  destruct C as (C1 & C2 & _). split; [exact C2|]. unfold near. fold m. rewrite C1.
  pose proof (rnd_near x _ X2) as N. pose proof eta_40 as [_ E40]. assert (/ 10 ^ 40 <= / 10 ^ 10) by (simpl; lra). assert (/ 10 ^ 10 = 1 / 10000000000) by (simpl; field).
  fold (rnd32 x). replace (rnd32 x - y) with ((rnd32 x - x) + (x - y)) by ring. eapply Rle_trans; [apply Rabs_triang|]. rewrite U in N, E. lra.
Qed.
Definition exp_libm : Libm :=
  mkLibm (fun x => near (sin (B2R x))) (fun x => near (cos (B2R x))) (fun x => x) (fun x => x) (fun x _ => x) (fun x _ => x) (fun x => near (exp (B2R x))).
Lemma exp_libm_ok : libm_accurate exp_libm (1 / 1000000) 1 /\ exp_accurate exp_libm (1 / 1000000) 1.
Proof.
  split.
  - intros x Fx _. cbn [exp_libm lm_sin lm_cos]. pose proof (SIN_bound (B2R x)). pose proof (COS_bound (B2R x)).
    split; (split; [apply near3_ok; apply Rabs_le; lra|]); (eapply Rle_trans; [apply near3_ok; apply Rabs_le; lra|]); lra.
  - intros x Fx B. cbn [exp_libm lm_exp]. apply Rabs_le_inv in B. pose proof exp_le_3 as E3.
    assert (L : exp (B2R x) <= 3). { destruct (Req_dec (B2R x) 1) as [->|N]; [exact E3|]. apply Rle_trans with (exp 1); [left; apply exp_increasing; lra|exact E3]. }
    assert (G : 1 / 3 <= exp (B2R x)).
    { apply Rle_trans with (exp (- (1))). { rewrite exp_Ropp. unfold Rdiv. rewrite Rmult_1_l. apply Rinv_le; [apply exp_pos|exact E3]. }
      destruct (Req_dec (B2R x) (- (1))) as [->|N]; [lra|]. left. apply exp_increasing. lra. }
    destruct (near3_ok (exp (B2R x))) as [F D]; [rewrite Rabs_pos_eq; lra|]. split; [exact F|]. lra.
Qed.
Lemma c85_ex2 : exists (x : Complex (A := F32 exp_libm)) (a : cplx), cplx_f x a /\ a = Cplx 1 (-1) /\
  libm_accurate exp_libm (1 / 1000000) 1 /\ exp_accurate exp_libm (1 / 1000000) 1 /\ Rabs (Re a) <= 1 /\ Rabs (Im a) <= 1 /\
  exp (Re a) <= bpow radix2 50 /\ 102 / 1000000 < (1 - 1 / 1000000) * exp (Re a).
Proof.
  exists (mkComplex (A := F32 exp_libm) (z32 1) (z32 (-1))), (Cplx 1 (-1)). split; [split; apply z32_R; lia|]. split; [reflexivity|].
  split; [apply exp_libm_ok|]. split; [apply exp_libm_ok|]. cbn [Re Im]. pose proof exp_le_3. pose proof (exp_ineq1 1 ltac:(lra)).
  assert (4 <= bpow radix2 50) by (change 4 with (bpow radix2 2); apply bpow_le; lia). repeat split; try lra; rewrite ?Rabs_pos_eq, ?Rabs_left by lra; lra.
Qed.

(*@ example *)
(** C85 hypotheses: 3 + 4i and 1 + 2i, and an implementation of sin and cos within 2e-7 *)
Example C85_example :
  exists (x y : Complex (A := F32 near_libm)) (a b : cplx), cplx_f x a /\ cplx_f y b /\ a = Cplx 3 4 /\ b = Cplx 1 2 /\
  cabs a <= bpow radix2 50 /\ cabs b <= bpow radix2 15 /\ csizeable b /\ 103 / 1000000 < cabs a /\ libm_accurate near_libm (2 / 10000000) 1000.
Proof. exact c85_ex. Qed.
(*@ example *)
(** C85 hypotheses: the exponential of 1 - i, with an implementation of exp, sin and cos within 1e-6 *)
Example C85_example_exp :
  exists (x : Complex (A := F32 exp_libm)) (a : cplx), cplx_f x a /\ a = Cplx 1 (-1) /\
  libm_accurate exp_libm (1 / 1000000) 1 /\ exp_accurate exp_libm (1 / 1000000) 1 /\ Rabs (Re a) <= 1 /\ Rabs (Im a) <= 1 /\
  exp (Re a) <= bpow radix2 50 /\ 102 / 1000000 < (1 - 1 / 1000000) * exp (Re a).
Proof. exact c85_ex2. Qed.
