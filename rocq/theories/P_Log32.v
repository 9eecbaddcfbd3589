(** C88: the matrix logarithm in f32. *)
(*@+*)
From Coq Require Import List Arith ZArith Reals Lia Bool Lra SpecFloat.
From Flocq Require Import Core BinarySingleNaN.
From Verif Require Import M_Base M_Arith M_Utils M_Vector M_Matrix M_F32
  S_Spec S_Linalg S_Norm S_Quat S_F32 S_Decomp S_Track S_Interp32 P_Inst P_InstF.
Import ListNotations.
Local Open Scope R_scope.
(*@-*)
From Coq Require Import Psatz.
From Verif Require Import P_Hoare P_Cont P_Loops P_Access P_Pointwise P_Trans P_Float P_Product
  P_Dot P_Norm P_FErr P_Norm32 P_FAcc P_F32Mul P_F32Ar P_Diag P_Lup32 P_Qr32 P_Interp P_Inv32 P_Euler32 P_Interp32.

(** ** Arc cosine, quotient and product over the reals *)
Lemma acos_near t y E : 0 < t < PI -> 0 <= E <= sin t * sin t / 100 -> Rabs (y - cos t) <= E ->
  -1 < y < 1 /\ Rabs (acos y - t) <= 1011 / 1000 * (E * / sin t).
Proof.
  intros Ht HE Hy. pose proof (sin_gt_0 t (proj1 Ht) (proj2 Ht)) as S0. set (x := cos t) in *. set (s := sin t) in *.
  assert (S2 : s * s = 1 - x * x) by (unfold s, x; pose proof (sin2_cos2 t) as Q; unfold Rsqr in Q; lra).
  assert (X : -1 < x < 1) by (split; nra). assert (S01 : s <= 1) by nra. apply Rabs_le_inv in Hy.
  replace t with (acos x) by (unfold x; apply acos_cos; lra).
  assert (C : forall c, Rmin x y <= c <= Rmax x y -> -1 < c < 1 /\ 9895 / 10000 * s <= sqrt (1 - c * c)).
  { intros c Hc. assert (Hcx : - E <= c - x <= E) by (revert Hc; unfold Rmin, Rmax; destruct (Rle_dec x y); lra).
    assert (K : (9895 / 10000 * s) * (9895 / 10000 * s) <= 1 - c * c).
    { replace (1 - c * c) with (s * s - 2 * (x * (c - x)) - (c - x) * (c - x)) by (rewrite S2; ring).
      assert (Rabs (x * (c - x)) <= 1 * E) by (rewrite Rabs_mult; apply Rmult_le_compat; auto using Rabs_pos; apply Rabs_le; lra). apply Rabs_le_inv in H. assert (E <= / 100) by nra. pose proof (Rmult_le_pos (E - (c - x)) (E + (c - x)) ltac:(lra) ltac:(lra)). assert ((c - x) * (c - x) <= / 100 * E) by nra. nra. }
    split; [split; nra|]. rewrite <- (sqrt_square (9895 / 10000 * s)) by lra. apply sqrt_le_1_alt, K. }
  assert (Y : -1 < y < 1) by (apply C; unfold Rmin, Rmax; destruct (Rle_dec x y); lra). split; [exact Y|].
  assert (G : exists c, acos y - acos x = - / sqrt (1 - Rsqr c) * (y - x) /\ Rmin x y <= c <= Rmax x y).
  { destruct (Rtotal_order x y) as [L|[L|L]].
    - destruct (MVT_cor2 acos (fun c => - / sqrt (1 - Rsqr c)) x y L) as (c & E' & K).
      + intros c Hc. apply acos_diff. apply C. rewrite Rmin_left, Rmax_right by lra. exact Hc.
      + exists c. split; [exact E'|]. rewrite Rmin_left, Rmax_right by lra. lra.
    - rewrite <- L. exists x. split; [ring|]. rewrite Rmin_left, Rmax_right by lra. lra.
    - destruct (MVT_cor2 acos (fun c => - / sqrt (1 - Rsqr c)) y x L) as (c & E' & K).
      + intros c Hc. apply acos_diff. apply C. rewrite Rmin_right, Rmax_left by lra. exact Hc.
      + exists c. split; [lra|]. rewrite Rmin_right, Rmax_left by lra. lra. }
  destruct G as (c & E' & Hc). destruct (C c Hc) as [_ D]. rewrite E', Rabs_mult, Rabs_Ropp. change (Rsqr c) with (c * c).
  set (r := sqrt (1 - c * c)) in *. assert (0 < r) by lra. rewrite Rabs_pos_eq by (left; apply Rinv_0_lt_compat; lra).
  apply Rle_trans with (/ r * E); [apply Rmult_le_compat_l; [left; apply Rinv_0_lt_compat; lra|apply Rabs_le; lra]|].
  assert (/ r <= 1011 / 1000 * / s) by (apply Rmult_le_reg_l with r; [lra|]; rewrite Rinv_r by lra; apply Rmult_le_reg_r with s; [lra|]; replace (r * (1011 / 1000 * / s) * s) with (1011 / 1000 * r) by (field; lra); lra).
  assert (/ r * E <= (1011 / 1000 * / s) * E) by (apply Rmult_le_compat_r; lra). lra.
Qed.

Lemma quot_near t s i th den D : 0 < t <= 4 -> 0 < s <= 1 -> s * i = 1 -> 0 <= D <= 3 / 100 * s -> u * i * i <= 3 / 10000 ->
  Rabs (th - t) <= D -> Rabs (den - 2 * s) <= 2 * D + 3 * u ->
  0 < den /\ Rabs (th / den - t * i / 2) <= (26 / 10 * D + 4 * u) * (i * i) /\ Rabs (th / den) <= 22 / 10 * i.
Proof.
  intros Ht Hs I HD Hu Eth Eden. assert (I1 : 1 <= i) by nra. apply Rabs_le_inv in Eden. unfold u in *.
  assert (U : 1 / 16777216 <= 3 / 10000 * s).
  { apply Rmult_le_reg_r with (i * i); [nra|]. replace (3 / 10000 * s * (i * i)) with (3 / 10000 * (s * i) * i) by ring. rewrite I. lra. }
  assert (Hd : 193 / 100 * s <= den) by lra. assert (P : 0 < den) by lra. split; [exact P|].
  set (q := / den). assert (Q0 : 0 < q) by (apply Rinv_0_lt_compat, P). assert (Q1 : q * den = 1) by (apply Rinv_l; lra).
  assert (Qi : q <= 519 / 1000 * i).
  { apply Rmult_le_reg_r with den; [exact P|]. rewrite Q1. assert (519 / 1000 * i * (193 / 100 * s) <= 519 / 1000 * i * den) by (apply Rmult_le_compat_l; lra).
    replace (519 / 1000 * i * (193 / 100 * s)) with (519 / 1000 * (193 / 100) * (s * i)) in H by ring. rewrite I in H. lra. }
  replace (th / den - t * i / 2) with ((th - t) * q + t * i / 2 * (2 * s - den) * q).
  2:{ unfold Rdiv. fold q. replace (t * i * / 2 * (2 * s - den) * q) with (t * (s * i) * q - t * i * / 2 * (q * den)) by field. rewrite I, Q1. ring. }
  assert (A1 : Rabs ((th - t) * q) <= D * (519 / 1000 * i)).
  { rewrite Rabs_mult, (Rabs_pos_eq q) by lra. apply Rmult_le_compat; auto using Rabs_pos; lra. }
  assert (A2 : Rabs (t * i / 2 * (2 * s - den) * q) <= 2 * i * (2 * D + 3 * (1 / 16777216)) * (519 / 1000 * i)).
  { rewrite Rabs_mult, (Rabs_pos_eq q) by lra. apply Rmult_le_compat; auto using Rabs_pos; [lra|]. rewrite Rabs_mult. apply Rmult_le_compat; auto using Rabs_pos.
    - rewrite Rabs_pos_eq by nra. nra.
    - apply Rabs_le. lra. }
  assert (A3 : D * i <= D * (i * i)) by (apply Rmult_le_compat_l; nra).
  assert (B : Rabs ((th - t) * q + t * i / 2 * (2 * s - den) * q) <= (26 / 10 * D + 4 * (1 / 16777216)) * (i * i)).
  { eapply Rle_trans; [apply Rabs_triang|]. nra. }
  split; [exact B|].
  replace (th / den) with ((th - t) * q + t * i / 2 * (2 * s - den) * q + t * i / 2).
  2:{ unfold Rdiv. fold q. replace (t * i * / 2 * (2 * s - den) * q) with (t * (s * i) * q - t * i * / 2 * (q * den)) by field. rewrite I, Q1. ring. }
  eapply Rle_trans; [apply Rabs_triang|]. rewrite (Rabs_pos_eq (t * i / 2)) by nra.
  assert (D * i <= 3 / 100) by (apply Rle_trans with (3 / 100 * s * i); [apply Rmult_le_compat_r; lra|rewrite Rmult_assoc, I; lra]).
  assert (D * (i * i) <= 3 / 100 * i) by (replace (D * (i * i)) with (D * i * i) by ring; apply Rmult_le_compat_r; lra).
  assert (t * i <= 4 * i) by (apply Rmult_le_compat_r; lra). lra.
Qed.

Lemma prod_near t s i k w X e D : 0 < t <= 4 -> 0 < s <= 1 -> s * i = 1 -> 0 <= e -> 2 * e + 3 * u <= s / 100 -> 0 <= D -> Rabs X <= 1 ->
  Rabs (k - t * i / 2) <= (26 / 10 * D + 7 * u) * (i * i) -> Rabs (w - 2 * s * X) <= 2 * e + 3 * u ->
  Rabs (w * k - t * X) <= (523 / 100 * D + 4 * e + 21 * u) * i.
Proof.
  intros Ht Hs I He Hes HD HX Hk Hw. assert (I1 : 1 <= i) by nra. unfold u in *.
  assert (W : Rabs w <= 201 / 100 * s).
  { replace w with ((w - 2 * s * X) + 2 * s * X) by ring. eapply Rle_trans; [apply Rabs_triang|]. rewrite (Rabs_mult (2 * s)), (Rabs_pos_eq (2 * s)) by lra.
    assert (2 * s * Rabs X <= 2 * s * 1) by (apply Rmult_le_compat_l; lra). lra. }
  replace (w * k - t * X) with (w * (k - t * i / 2) + (t * i / 2) * (w - 2 * s * X)).
  2:{ replace (t * i / 2 * (w - 2 * s * X)) with (t * i / 2 * w - t * X * (s * i)) by field. rewrite I. field. }
  eapply Rle_trans; [apply Rabs_triang|]. rewrite !Rabs_mult. rewrite (Rabs_pos_eq (t * i / 2)) by nra.
  assert (A1 : Rabs w * Rabs (k - t * i / 2) <= 201 / 100 * s * ((26 / 10 * D + 7 * (1 / 16777216)) * (i * i))) by (apply Rmult_le_compat; auto using Rabs_pos).
  replace (201 / 100 * s * ((26 / 10 * D + 7 * (1 / 16777216)) * (i * i))) with (201 / 100 * (26 / 10 * D + 7 * (1 / 16777216)) * (s * i) * i) in A1 by ring. rewrite I in A1.
  assert (A2 : t * i / 2 * Rabs (w - 2 * s * X) <= 2 * i * (2 * e + 3 * (1 / 16777216))) by (apply Rmult_le_compat; auto using Rabs_pos; nra).
  assert (0 <= D * i) by nra. nra.
Qed.

(** ** The f32 operations *)
Lemma rr q B : Rabs q <= B -> Rabs (rnd32 q - q) <= u * (B + / 1000000).
Proof.
  intros H. destruct (rnd32_err q) as (e & h & He & Hh & ->). pose proof eta_1. replace (q * (1 + e) + h - q) with (e * q + h) by ring.
  eapply Rle_trans; [apply Rabs_triang|]. rewrite Rabs_mult. assert (Rabs e * Rabs q <= u * B) by (apply Rmult_le_compat; auto using Rabs_pos). lra.
Qed.
Lemma b127 : 100000 <= bpow radix2 127.
Proof. apply Rle_trans with (bpow radix2 17); [cbn; lra|apply bpow_le; lia]. Qed.

(** the cosine computed from the trace *)
Lemma cos32 lm (f : nat -> f32) (a0 a1 a2 e c : R) : (forall i, (i < 3)%nat -> is_finite (f i) = true) ->
  Rabs a0 <= 1 -> Rabs a1 <= 1 -> Rabs a2 <= 1 -> a0 + a1 + a2 = 1 + 2 * c -> Rabs c <= 1 -> 0 <= e <= / 100 ->
  Rabs (B2R (f 0%nat) - a0) <= e -> Rabs (B2R (f 1%nat) - a1) <= e -> Rabs (B2R (f 2%nat) - a2) <= e ->
  let A := F32 lm in let y := fdiv (Arith := F32 lm) (fsub (Arith := F32 lm) (fsum (A := F32 lm) 3 f) f1) f2 in
  is_finite (y : f32) = true /\ Rabs (B2R (y : f32) - c) <= 15 / 10 * e + 6 * u.
Proof.
  intros Ff H0 H1 H2 Ht Hc He E0 E1 E2 A y. pose proof b127 as B127.
  change y with (Bdiv mode_NE (Bminus mode_NE (Bplus mode_NE (Bplus mode_NE (Bplus mode_NE (f0 (A := F32 lm)) (f 0%nat)) (f 1%nat)) (f 2%nat)) (f1 (A := F32 lm))) (f2 (A := F32 lm))). clear y.
  apply Rabs_le_inv in H0. apply Rabs_le_inv in H1. apply Rabs_le_inv in H2. apply Rabs_le_inv in Hc. apply Rabs_le_inv in E0. apply Rabs_le_inv in E1. apply Rabs_le_inv in E2.
  destruct (plus_ok (f0 (A := F32 lm)) (f 0%nat) eq_refl (Ff 0%nat ltac:(lia))) as [F3 R3]; [change (B2R (f0 (A := F32 lm) : f32)) with 0; apply Rabs_le; lra|].
  set (s0 := Bplus mode_NE (f0 (A := F32 lm)) (f 0%nat)) in *. change (B2R (f0 (A := F32 lm) : f32)) with 0 in R3.
  pose proof (rr (0 + B2R (f 0%nat)) (102 / 100) ltac:(apply Rabs_le; lra)) as Q0. rewrite <- R3 in Q0. apply Rabs_le_inv in Q0. unfold u in *.
  destruct (plus_ok s0 (f 1%nat) F3 (Ff 1%nat ltac:(lia))) as [F4 R4]; [apply Rabs_le; lra|].
  set (s1 := Bplus mode_NE s0 (f 1%nat)) in *.
  pose proof (rr (B2R s0 + B2R (f 1%nat)) (203 / 100) ltac:(apply Rabs_le; lra)) as Q1. rewrite <- R4 in Q1. apply Rabs_le_inv in Q1. unfold u in *.
  destruct (plus_ok s1 (f 2%nat) F4 (Ff 2%nat ltac:(lia))) as [F5 R5]; [apply Rabs_le; lra|].
  set (s2 := Bplus mode_NE s1 (f 2%nat)) in *.
  pose proof (rr (B2R s1 + B2R (f 2%nat)) (304 / 100) ltac:(apply Rabs_le; lra)) as Q2. rewrite <- R5 in Q2. apply Rabs_le_inv in Q2. unfold u in *.
  destruct (minus_ok s2 (f1 (A := F32 lm)) F5 eq_refl) as [F6 R6]; [rewrite B2R_f1; apply Rabs_le; lra|].
  set (s3 := Bminus mode_NE s2 (f1 (A := F32 lm))) in *. rewrite B2R_f1 in R6.
  pose proof (rr (B2R s2 - 1) (21 / 10) ltac:(apply Rabs_le; lra)) as Q3. rewrite <- R6 in Q3. apply Rabs_le_inv in Q3. unfold u in *.
  destruct (div_ok s3 (f2 (A := F32 lm)) F6) as [F7 R7]; [rewrite two32; lra|rewrite two32; apply Rabs_le; lra|].
  rewrite two32 in R7. split; [exact F7|]. rewrite R7.
  pose proof (rr (B2R s3 / 2) (106 / 100) ltac:(apply Rabs_le; lra)) as Q4. apply Rabs_le_inv in Q4. unfold u in *. apply Rabs_le. lra.
Qed.

(** the factor theta / (2 sin theta) *)
Definition log_factor {A : Arith} (tr : T) : T := (facos ((tr - f1) / f2) / (f2 * fsin (facos ((tr - f1) / f2))))%F.
Lemma factor32 lm (y : f32) (t d E : R) : libm_accurate lm d 5 -> acos_accurate lm d -> 0 <= d -> d <= sin t / 100 -> 0 < t < PI ->
  is_finite y = true -> / 1000000 <= sin t * sin t / 200 -> 0 <= E <= 8 / 1000 * (sin t * sin t) -> Rabs (B2R y - cos t) <= E ->
  let k := fdiv (Arith := F32 lm) (facos (Arith := F32 lm) y) (fmul (Arith := F32 lm) f2 (fsin (Arith := F32 lm) (facos (Arith := F32 lm) y))) in
  is_finite (k : f32) = true /\
  Rabs (B2R (k : f32) - t * / sin t / 2) <= (26 / 10 * (1011 / 1000 * (E * / sin t) + 2 * d) + 7 * u) * (/ sin t * / sin t) /\ Rabs (B2R (k : f32)) <= 23 / 10 * / sin t /\ / sin t <= 100.
Proof.
  intros Hl Ha Hd0 Hd Ht Fy Hs2 HE Ey. cbv zeta. pose proof b127 as B127. pose proof PI_4 as P4.
  pose proof (sin_gt_0 t (proj1 Ht) (proj2 Ht)) as S0. pose proof (SIN_bound t) as S1.
  destruct (acos_near t (B2R y) E Ht ltac:(lra) Ey) as [Y Ac].
  destruct (Ha y Fy ltac:(apply Rabs_le; lra)) as [Fth Eth].
  change (facos (Arith := F32 lm) y) with (lm_acos lm y). set (th := lm_acos lm y) in *.
  set (s := sin t) in *. set (i := / s) in *. assert (I : s * i = 1) by (apply Rinv_r; lra). assert (I1 : 1 <= i) by nra.
  assert (Ei : E * i <= 8 / 1000 * s).
  { apply Rle_trans with (8 / 1000 * (s * s) * i); [apply Rmult_le_compat_r; lra|]. replace (8 / 1000 * (s * s) * i) with (8 / 1000 * s * (s * i)) by ring. rewrite I. lra. }
  assert (Ei0 : 0 <= E * i) by nra.
  assert (Dth : Rabs (B2R th - t) <= 1011 / 1000 * (E * i) + d).
  { replace (B2R th - t) with ((B2R th - acos (B2R y)) + (acos (B2R y) - t)) by ring. eapply Rle_trans; [apply Rabs_triang|]. lra. }
  pose proof (Rabs_le_inv _ _ Dth) as Dth'.
  destruct (Hl th Fth ltac:(apply Rabs_le; lra)) as [[Fs Es] _].
  change (fsin (Arith := F32 lm) th) with (lm_sin lm th). set (sn := lm_sin lm th) in *.
  assert (Dsn : Rabs (B2R sn - s) <= 1011 / 1000 * (E * i) + 2 * d).
  { replace (B2R sn - s) with ((B2R sn - sin (B2R th)) + (sin (B2R th) - sin t)) by (unfold s; ring). eapply Rle_trans; [apply Rabs_triang|]. pose proof (sin_lip (B2R th) t). lra. }
  apply Rabs_le_inv in Dsn. set (D := 1011 / 1000 * (E * i) + 2 * d) in *. assert (HD : 0 <= D <= 3 / 100 * s) by (unfold D; lra).
  change (fmul (Arith := F32 lm) f2 sn) with (Bmult mode_NE (f2 (A := F32 lm)) sn : f32).
  destruct (mult_ok (f2 (A := F32 lm)) sn eq_refl Fs) as [Fd Rd]; [rewrite two32; apply Rabs_le; lra|]. rewrite two32 in Rd.
  set (den := Bmult mode_NE (f2 (A := F32 lm)) sn) in *.
  pose proof (rr (2 * B2R sn) (207 / 100) ltac:(apply Rabs_le; lra)) as Q. rewrite <- Rd in Q.
  assert (Hden : Rabs (B2R den - 2 * s) <= 2 * D + 3 * u) by (apply Rabs_le_inv in Q; unfold u in *; apply Rabs_le; lra).
  assert (Ui : u * i * i <= 3 / 10000).
  { assert (G : / 1000000 * (i * i) <= s * s / 200 * (i * i)) by (apply Rmult_le_compat_r; [apply Rle_0_sqr|lra]). replace (s * s / 200 * (i * i)) with (s * i * (s * i) / 200) in G by field. rewrite I in G. unfold u. lra. }
  destruct (quot_near t s i (B2R th) (B2R den) D ltac:(lra) ltac:(lra) I HD Ui ltac:(unfold D; lra) Hden) as (P & B1 & B2).
  assert (I100 : i <= 100).
  { assert (G : / 1000000 * (i * i) <= s * s / 200 * (i * i)) by (apply Rmult_le_compat_r; [apply Rle_0_sqr|lra]). replace (s * s / 200 * (i * i)) with (s * i * (s * i) / 200) in G by field. rewrite I in G. clear - G I1. nra. }
  change (fdiv (Arith := F32 lm) th den) with (Bdiv mode_NE th den : f32).
  destruct (div_ok th den Fth ltac:(lra)) as [Fk Rk]; [lra|]. split; [exact Fk|].
  pose proof (rr (B2R th / B2R den) (22 / 10 * i) B2) as Q2. rewrite <- Rk in Q2. set (k := Bdiv mode_NE th den) in *.
  split; [|split; [|exact I100]].
  - replace (B2R k - t * i / 2) with ((B2R k - B2R th / B2R den) + (B2R th / B2R den - t * i / 2)) by ring. eapply Rle_trans; [apply Rabs_triang|].
    assert (i <= i * i) by (clear - I1; nra). assert (u * (22 / 10 * i + / 1000000) <= 3 * u * (i * i)) by (unfold u; lra). lra.
  - replace (B2R k) with ((B2R k - B2R th / B2R den) + B2R th / B2R den) by ring. eapply Rle_trans; [apply Rabs_triang|]. unfold u in Q2. lra.
Qed.

(** [log] and [log_in_place], once the determinant is computed and every step is finite *)
Lemma log_prefix (A : Arith) (OK : ArithOk A) (m : Mat T) n f b : mat_is m n n f -> m_is_so_n m = Ok b ->
  (forall i j, (i < n)%nat -> (j < n)%nat -> valid (f i j - f j i)%F) -> let k := log_factor (fsum n (fun i => f i i)) in
  exists s s', m_log m = exec (m_mul_by_scalar_in_place k) s /\ m_log_in_place m = m_mul_by_scalar_in_place k s' /\
    mat_is s n n (fun i j => f i j - f j i)%F /\ mat_is s' n n (fun i j => f i j - f j i)%F.
Proof.
  intros Hm Eb V k.
  assert (Et : m_trace m = Ok (fsum n (fun i => f i i))) by (rewrite (l_trace A m n n _ Hm), Nat.eqb_refl; reflexivity).
  destruct (m_duplicate_ok m n n _ Hm) as (d & Ed & Hd).
  destruct (m_transpose_ok d n n _ Hd) as (t & Et' & Ht).
  destruct (l_matrix_new A _ m t n n _ _ Hm Ht f0) as (_ & P & _). eapply pointwise_mnew_ok in P; [|exact V]. destruct P as (s & Es & Hs).
  destruct (l_matrix_in_place A m t n n _ _ Hm Ht f0) as (_ & P & _). eapply pointwise_m_ok in P; [|exact V]. destruct P as (s' & Es' & Hs').
  exists s, s'. split; [|split; [|split; assumption]].
  - unfold m_log. rewrite Eb. cbn [rbind]. rewrite Et. cbn [rbind]. rewrite Ed. cbn [rbind]. unfold exec at 1. rewrite Et'. cbn [rbind].
    rewrite Es. cbn [rbind]. reflexivity.
  - unfold m_log_in_place, sbind, reads, lift. rewrite Eb, Et, Ed. unfold exec. rewrite Et', Es'. reflexivity.
Qed.

(*@ C88_log *)
(** C88: given sine and arc cosine accurate to d, an f32 matrix within e of the rotation by t about a unit axis, whose determinant
    can be computed, has a logarithm in both forms, and every element is within 12 (e + d + 1e-6) / sin^2 t of t times the
    cross-product matrix of the axis *)
Lemma l_log32 :
  forall (lm : Libm) (m : Mat (T (Arith := F32 lm))) (a : nat -> nat -> R) (t x y z e d : R) (b : bool), mat_f m 3 3 a ->
  libm_accurate lm d 5 -> acos_accurate lm d -> x * x + y * y + z * z = 1 -> 0 < t < PI ->
  (forall i j, (i < 3)%nat -> (j < 3)%nat -> Rabs (a i j - rodrigues t x y z i j) <= e) ->
  0 <= e -> e + / 1000000 <= sin t * sin t / 200 -> 0 <= d <= sin t / 100 -> m_is_so_n m = Ok b ->
  exists ml ml' l, m_log m = Ok ml /\ m_log_in_place m = (ml', Ok tt) /\ mat_f ml 3 3 l /\ mat_f ml' 3 3 l /\
    forall i j, (i < 3)%nat -> (j < 3)%nat -> Rabs (l i j - t * cross_m x y z i j) <= 12 * (e + d + / 1000000) / (sin t * sin t).
Proof.
  intros lm m a t x y z e d b (f & Hf & Ef) Hl Hac Hu Ht Ha He Hes Hd Eb. pose proof b127 as B127. pose proof PI_4 as P4.
  assert (FF : forall i j, (i < 3)%nat -> (j < 3)%nat -> is_finite (f i j : f32) = true) by (intros i j Hi Hj; apply (valid_finite lm); eapply mat_is_valid; eauto).
  pose proof (sin_gt_0 t (proj1 Ht) (proj2 Ht)) as S0. pose proof (SIN_bound t) as S1. pose proof (COS_bound t) as C1.
  set (s := sin t) in *. assert (Hs2 : s * s <= 1) by nra.
  (* the computed differences *)
  assert (HX : forall i j, (i < 3)%nat -> (j < 3)%nat -> Rabs (cross_m x y z i j) <= 1 /\ rodrigues t x y z i j - rodrigues t x y z j i = 2 * s * cross_m x y z i j).
  { assert (x * x <= 1 /\ y * y <= 1 /\ z * z <= 1) as (X1 & Y1 & Z1) by (repeat split; nra).
    assert (- 1 <= x <= 1 /\ - 1 <= y <= 1 /\ - 1 <= z <= 1) as (X2 & Y2 & Z2) by (repeat split; nra).
    intros i j Hi Hj. split; [destruct i as [|[|[|i]]]; [| | |lia]; (destruct j as [|[|[|j]]]; [| | |lia]); unfold cross_m; cbn [nth Nat.add Nat.mul]; apply Rabs_le; lra|].
    destruct i as [|[|[|i]]]; [| | |lia]; (destruct j as [|[|[|j]]]; [| | |lia]); unfold rodrigues, cross_m; fold s; cbn [nth Nat.add Nat.mul]; ring. }
  assert (W : forall i j, (i < 3)%nat -> (j < 3)%nat -> is_finite (Bminus mode_NE (f i j) (f j i)) = true /\ Rabs (B2R (Bminus mode_NE (f i j) (f j i)) - 2 * s * cross_m x y z i j) <= 2 * e + 3 * u).
  { intros i j Hi Hj. destruct (HX i j Hi Hj) as [X1 X2]. pose proof (Ha i j Hi Hj) as A1. pose proof (Ha j i Hj Hi) as A2. rewrite <- (Ef i j Hi Hj) in A1. rewrite <- (Ef j i Hj Hi) in A2.
    apply Rabs_le_inv in A1. apply Rabs_le_inv in A2. assert (X3 : Rabs (2 * s * cross_m x y z i j) <= 2) by (rewrite Rabs_mult, (Rabs_pos_eq (2 * s)) by lra; nra). apply Rabs_le_inv in X3.
    destruct (minus_ok (f i j) (f j i) (FF i j Hi Hj) (FF j i Hj Hi)) as [Fm Rm]; [apply Rabs_le; lra|]. split; [exact Fm|].
    pose proof (rr (B2R (f i j : f32) - B2R (f j i : f32)) (21 / 10) ltac:(apply Rabs_le; lra)) as Q. rewrite <- Rm in Q. apply Rabs_le_inv in Q. unfold u in *. apply Rabs_le. lra. }
  (* the factor *)
  assert (HD : Rabs (rodrigues t x y z 0 0) <= 1 /\ Rabs (rodrigues t x y z 1 1) <= 1 /\ Rabs (rodrigues t x y z 2 2) <= 1).
  { unfold rodrigues; cbn [nth Nat.add Nat.mul]. assert (K : forall v, 0 <= v <= 1 -> Rabs (cos t + v * (1 - cos t)) <= 1).
    { intros v Hv. pose proof (Rmult_le_pos v (1 - cos t) ltac:(lra) ltac:(lra)). pose proof (Rmult_le_pos (1 - v) (1 - cos t) ltac:(lra) ltac:(lra)). apply Rabs_le. lra. }
    pose proof (Rle_0_sqr x) as X0. pose proof (Rle_0_sqr y) as Y0. pose proof (Rle_0_sqr z) as Z0. unfold Rsqr in *. repeat split; apply K; lra. }
  destruct HD as (D0 & D1 & D2).
  assert (Tr : rodrigues t x y z 0 0 + rodrigues t x y z 1 1 + rodrigues t x y z 2 2 = 1 + 2 * cos t).
  { unfold rodrigues; cbn [nth Nat.add Nat.mul]. replace (z * z) with (1 - x * x - y * y) by lra. ring. }
  destruct (cos32 lm (fun i => f i i : f32) _ _ _ e (cos t) ltac:(intros; apply FF; assumption) D0 D1 D2 Tr ltac:(apply Rabs_le; lra) ltac:(lra)) as [Fy Ey];
    [cbv beta; rewrite Ef by lia; apply Ha; lia..|].
  cbv zeta in Fy, Ey. set (yc := fdiv (Arith := F32 lm) _ _) in Fy, Ey.
  destruct (factor32 lm yc t d (15 / 10 * e + 6 * u) Hl Hac ltac:(lra) ltac:(fold s; lra) Ht Fy ltac:(fold s; lra) ltac:(fold s; unfold u; lra) Ey) as (Fk & Ek & Bk & I100).
  cbv zeta in Fk, Ek, Bk. set (k := fdiv (Arith := F32 lm) (facos (Arith := F32 lm) yc) _) in Fk, Ek, Bk. fold s in Ek, Bk, I100.
  set (i' := / s) in *. assert (I : s * i' = 1) by (apply Rinv_r; lra). assert (I1 : 1 <= i') by nra.
  set (E := 15 / 10 * e + 6 * u) in *. set (D := 1011 / 1000 * (E * i') + 2 * d) in *. assert (0 <= E) by (unfold E, u; lra). assert (HD0 : 0 <= D) by (unfold D; nra).
  assert (S2 : 2 * e + 3 * u <= s / 100) by (assert (s * s <= s) by nra; unfold u; lra).
  (* the products *)
  assert (V : forall i j, (i < 3)%nat -> (j < 3)%nat -> is_finite (Bmult mode_NE (Bminus mode_NE (f i j) (f j i)) k) = true /\
    Rabs (B2R (Bmult mode_NE (Bminus mode_NE (f i j) (f j i)) k) - t * cross_m x y z i j) <= 12 * (e + d + / 1000000) * (i' * i')).
  { intros i j Hi Hj. destruct (W i j Hi Hj) as [Fw Ew]. destruct (HX i j Hi Hj) as [X1 _]. set (w := Bminus mode_NE (f i j) (f j i)) in *.
    pose proof (prod_near t s i' (B2R (k : f32)) (B2R w) (cross_m x y z i j) e D ltac:(lra) ltac:(lra) I He S2 HD0 X1 Ek Ew) as Pn.
    assert (Bw : Rabs (B2R w) <= 201 / 100 * s).
    { replace (B2R w) with ((B2R w - 2 * s * cross_m x y z i j) + 2 * s * cross_m x y z i j) by ring. eapply Rle_trans; [apply Rabs_triang|]. rewrite (Rabs_mult (2 * s)), (Rabs_pos_eq (2 * s)) by lra.
      assert (2 * s * Rabs (cross_m x y z i j) <= 2 * s * 1) by (apply Rmult_le_compat_l; lra). lra. }
    assert (Bp : Rabs (B2R w * B2R (k : f32)) <= 47 / 10).
    { rewrite Rabs_mult. apply Rle_trans with (201 / 100 * s * (23 / 10 * i')); [apply Rmult_le_compat; auto using Rabs_pos|]. replace (201 / 100 * s * (23 / 10 * i')) with (201 / 100 * (23 / 10) * (s * i')) by ring. rewrite I. lra. }
    destruct (mult_ok w k Fw Fk) as [Fp Rp]; [lra|]. split; [exact Fp|]. rewrite Rp.
    pose proof (rr (B2R w * B2R (k : f32)) (47 / 10) Bp) as Q. set (p := B2R w * B2R (k : f32)) in *.
    replace (rnd32 p - t * cross_m x y z i j) with ((rnd32 p - p) + (p - t * cross_m x y z i j)) by ring. eapply Rle_trans; [apply Rabs_triang|].
    assert (G : i' <= i' * i') by nra.
    assert (T1 : (523 / 100 * D + 4 * e + 21 * u) * i' <= (523 / 100 * (1011 / 1000 * E + 2 * d) + 4 * e + 21 * u) * (i' * i')).
    { unfold D. replace ((523 / 100 * (1011 / 1000 * (E * i') + 2 * d) + 4 * e + 21 * u) * i') with (523 / 100 * (1011 / 1000) * E * (i' * i') + (523 / 100 * 2 * d + 4 * e + 21 * u) * i') by ring.
      assert ((523 / 100 * 2 * d + 4 * e + 21 * u) * i' <= (523 / 100 * 2 * d + 4 * e + 21 * u) * (i' * i')) by (apply Rmult_le_compat_l; [unfold u; lra|exact G]). lra. }
    apply Rle_trans with ((523 / 100 * (1011 / 1000 * E + 2 * d) + 4 * e + 26 * u) * (i' * i')).
    - assert (u * (47 / 10 + / 1000000) <= 5 * u * (i' * i')) by (unfold u; nra). lra.
    - apply Rmult_le_compat_r; [nra|]. unfold E, u. lra. }
  destruct (log_prefix (F32 lm) _ m 3 f b Hf Eb) as (sm & sm' & -> & -> & Hsm & Hsm').
  { intros i j Hi Hj. apply (valid_finite lm). apply (W i j Hi Hj). }
  change (log_factor (A := F32 lm) (fsum (A := F32 lm) 3 (fun i => f i i))) with (k : T (Arith := F32 lm)).
  assert (Sc : forall q, mat_is (A := F32 lm) q 3 3 (fun i j => f i j - f j i)%F -> exists q', m_mul_by_scalar_in_place (A := F32 lm) k q = (q', Ok tt) /\ mat_f (lm := lm) q' 3 3 (fun i j => B2R (Bmult mode_NE (Bminus mode_NE (f i j) (f j i)) k))).
  { intros q Hq. destruct (l_matrix_in_place (F32 lm) q q 3 3 _ _ Hq Hq k) as (_ & _ & _ & _ & P & _). eapply pointwise_m_ok in P; [|intros i j Hi Hj; apply (valid_finite lm); apply (V i j Hi Hj)].
    destruct P as (q' & E' & H'). exists q'. split; [exact E'|]. eexists. split; [exact H'|]. reflexivity. }
  destruct (Sc sm Hsm) as (ml & E1 & M1). destruct (Sc sm' Hsm') as (ml' & E2 & M2). exists ml, ml'. eexists. unfold exec. rewrite E1. split; [reflexivity|]. split; [exact E2|]. split; [exact M1|]. split; [exact M2|].
  intros i j Hi Hj. cbv beta. destruct (V i j Hi Hj) as [_ G]. unfold Rdiv. rewrite Rinv_mult. exact G.
Qed.

(** ** Angles whose trace rounds to 3 *)
Lemma scale_nan lm (m : Mat (T (Arith := F32 lm))) n f : mat_is (A := F32 lm) m n n f ->
  exists m', m_mul_by_scalar_in_place (A := F32 lm) (B754_nan : f32) m = (m', Err (UtilsErr Nan)) /\ mat_is (A := F32 lm) m' n n f.
Proof.
  intros Hm. destruct (l_matrix_in_place (F32 lm) m m n n _ _ Hm Hm (B754_nan : f32)) as (_ & _ & _ & _ & P & _).
  assert (Z : forall i j, fmul (Arith := F32 lm) (f i j) (B754_nan : f32) = (B754_nan : f32)) by (intros i j; change (Bmult mode_NE (f i j) B754_nan = B754_nan); destruct (f i j : f32); reflexivity).
  destruct (mat_is_dim _ _ _ _ Hm) as [Dn _].
  destruct P as [(V & _)|(i & j & k & Hi & Hj & Hb & V & E & H)].
  - specialize (V 0%nat 0%nat ltac:(lia) ltac:(lia)). cbv beta in V. rewrite Z in V. destruct V; discriminate.
  - cbv beta in Hb. rewrite Z in Hb. injection Hb as <-.
    assert (N : before 0 0 i j = false).
    { destruct (before 0 0 i j) eqn:B; auto. specialize (V 0%nat 0%nat ltac:(lia) ltac:(lia) B). cbv beta in V. rewrite Z in V. destruct V; discriminate. }
    destruct (m_mul_by_scalar_in_place (A := F32 lm) (B754_nan : f32) m) as [m' o]. cbn [fst snd] in *. subst o. exists m'. split; auto.
    eapply mat_is_ext; [exact H|]. intros a b Ha Hb'. cbv beta.
    assert (i = 0%nat /\ j = 0%nat) as [-> ->].
    { unfold before in N. destruct i, j; cbn in N; try discriminate; auto. }
    destruct (before a b 0 0) eqn:B; auto. unfold before in B. destruct a, b; cbn in B; discriminate.
Qed.

(*@ C88_trace_three *)
(** C88, violation for a whole class: once the computed trace reaches 3, as it does for every small enough angle, both forms fail
    with a NaN error although the logarithm is small; the form in place has by then replaced the matrix R by R - R', rounded *)
Lemma l_log32_nan :
  forall (lm : Libm) (m : Mat (T (Arith := F32 lm))) (n : nat) (a : nat -> nat -> R) (s : T (Arith := F32 lm)) (b : bool), acos_edge lm -> mat_f m n n a ->
  (forall i j, (i < n)%nat -> (j < n)%nat -> Rabs (a i j) <= 2) ->
  m_trace m = Ok s -> is_finite (s : f32) = true -> 3 <= B2R (s : f32) <= 100 -> m_is_so_n m = Ok b ->
  m_log m = Err (UtilsErr Nan) /\ exists m', m_log_in_place m = (m', Err (UtilsErr Nan)) /\ mat_f m' n n (fun i j => round radix2 (SpecFloat.fexp prec emax) ZnearestE (a i j - a j i)).
Proof.
  intros lm m n a s b (A1 & A2 & A3 & A4) (f & Hf & Ef) Ha Es Fs Bs Eb. pose proof b127 as B127.
  assert (FF : forall i j, (i < n)%nat -> (j < n)%nat -> is_finite (f i j : f32) = true) by (intros i j Hi Hj; apply (valid_finite lm); eapply mat_is_valid; eauto).
  assert (W : forall i j, (i < n)%nat -> (j < n)%nat -> is_finite (Bminus mode_NE (f i j) (f j i)) = true /\ B2R (Bminus mode_NE (f i j) (f j i)) = rnd32 (a i j - a j i)).
  { intros i j Hi Hj. pose proof (Ha i j Hi Hj) as H1. pose proof (Ha j i Hj Hi) as H2. apply Rabs_le_inv in H1. apply Rabs_le_inv in H2.
    destruct (minus_ok (f i j) (f j i) (FF i j Hi Hj) (FF j i Hj Hi)) as [Fm Rm]; [rewrite !Ef by assumption; apply Rabs_le; lra|]. rewrite !Ef in Rm by assumption. auto. }
  destruct (log_prefix (F32 lm) _ m n f b Hf Eb) as (sm & sm' & -> & -> & Hsm & Hsm').
  { intros i j Hi Hj. apply (valid_finite lm). apply (W i j Hi Hj). }
  rewrite (l_trace (F32 lm) m n n _ Hf), Nat.eqb_refl in Es. injection Es as Es. rewrite Es.
  assert (K : log_factor (A := F32 lm) s = (B754_nan : f32)).
  { unfold log_factor. set (y := fdiv (Arith := F32 lm) (fsub (Arith := F32 lm) s f1) f2).
    assert (Y : is_finite (y : f32) = true /\ 1 <= B2R (y : f32)).
    { change y with (Bdiv mode_NE (Bminus mode_NE s (f1 (A := F32 lm))) (f2 (A := F32 lm))).
      destruct (minus_ok s (f1 (A := F32 lm)) Fs eq_refl) as [F1 R1]; [rewrite B2R_f1; apply Rabs_le; lra|]. rewrite B2R_f1 in R1.
      set (v := Bminus mode_NE s (f1 (A := F32 lm))) in *.
      assert (V2 : 2 <= B2R v). { rewrite R1. change 2 with (bpow radix2 1). apply round_ge_generic; [apply fexp_correct; reflexivity|auto with typeclass_instances|apply fmt_bpow; lia|cbn; lra]. }
      pose proof (rr (B2R (s : f32) - 1) 100 ltac:(apply Rabs_le; lra)) as Q. rewrite <- R1 in Q. apply Rabs_le_inv in Q. unfold u in Q.
      destruct (div_ok v (f2 (A := F32 lm)) F1) as [F2 R2]; [rewrite two32; lra|rewrite two32; apply Rabs_le; lra|]. rewrite two32 in R2. split; [exact F2|]. rewrite R2.
      change 1 with (bpow radix2 0). apply round_ge_generic; [apply fexp_correct; reflexivity|auto with typeclass_instances|apply fmt_bpow; lia|cbn; lra]. }
    destruct Y as [Fy By].
    change (Bdiv mode_NE (lm_acos lm y) (Bmult mode_NE (f2 (A := F32 lm)) (lm_sin lm (lm_acos lm y))) = B754_nan).
    destruct (Rle_lt_or_eq_dec _ _ By) as [L|L].
    - pose proof (A2 y Fy L) as N. destruct (lm_acos lm y); try discriminate. reflexivity.
    - rewrite (A1 y Fy (eq_sym L)), A3. reflexivity. }
  rewrite K. destruct (scale_nan lm sm n _ Hsm) as (q & E1 & _). destruct (scale_nan lm sm' n _ Hsm') as (q' & E2 & H2). unfold exec. rewrite E1. split; [reflexivity|].
  exists q'. split; [exact E2|]. eexists. split; [exact H2|]. intros i j Hi Hj. apply (W i j Hi Hj).
Qed.

Definition small_turn : list f32 := map (fun k => lit32 k 8192) [8192; -1; 0; 1; 8192; 0; 0; 0; 8192]%Z.
Definition small_turn_r (i j : nat) : R := IZR (nth (i * 3 + j) [8192; -1; 0; 1; 8192; 0; 0; 0; 8192]%Z 0%Z) / 8192.
Lemma small_turn_ok lm : mat_f (lm := lm) (mk_mat (A := F32 lm) 3 3 small_turn) 3 3 small_turn_r.
Proof.
  pose proof (fmat_is lm 3 3 small_turn ltac:(lia) ltac:(lia) eq_refl ltac:(repeat constructor)) as H. eexists. split; [exact H|].
  intros i j Hi Hj. destruct i as [|[|[|i]]]; [| | |lia]; (destruct j as [|[|[|j]]]; [| | |lia]); unfold small_turn_r; cbn; unfold F2R; cbn; lra.
Qed.

(*@ C88_small_refuted *)
(** ... for instance on a matrix within 1e-8 of the turn by 1/8192 about z, recognised as a rotation, with every such libm *)
Lemma l_log32_small :
  forall (lm : Libm), acos_edge lm -> exists (m : Mat (T (Arith := F32 lm))) (a : nat -> nat -> R), mat_f m 3 3 a /\
  (forall i j, (i < 3)%nat -> (j < 3)%nat -> Rabs (a i j - rodrigues (/ 8192) 0 0 1 i j) <= / 100000000) /\
  m_is_so_n m = Ok true /\ m_log m = Err (UtilsErr Nan).
Proof.
  intros lm He. exists (mk_mat (A := F32 lm) 3 3 small_turn), small_turn_r. split; [apply small_turn_ok|].
  assert (Eb : m_is_so_n (A := F32 lm) (mk_mat (A := F32 lm) 3 3 small_turn) = Ok true) by (vm_compute; reflexivity).
  split; [|split; [exact Eb|]].
  - assert (C : forall c, 0 <= c <= / 8192 -> 1 - / 100000000 <= cos c <= 1).
    { intros c Hc. split; [|apply COS_bound]. replace c with (2 * (c / 2)) by field. rewrite cos_2a_sin. pose proof (Rabs_sin_le (c / 2)) as Q. rewrite (Rabs_pos_eq (c / 2)) in Q by lra. apply Rabs_le_inv in Q.
      set (v := sin (c / 2)) in *. assert (v * v <= / 16384 * / 16384) by nra. lra. }
    assert (S : / 8192 - / 10000000000 <= sin (/ 8192) <= / 8192).
    { destruct (MVT_cor2 sin cos 0 (/ 8192) ltac:(lra) (fun c _ => derivable_pt_lim_sin c)) as (c & E & Hc). rewrite sin_0 in E. pose proof (C c ltac:(lra)). lra. }
    pose proof (C (/ 8192) ltac:(lra)) as C1.
    intros i j Hi Hj. destruct i as [|[|[|i]]]; [| | |lia]; (destruct j as [|[|[|j]]]; [| | |lia]); unfold small_turn_r, rodrigues; cbn [nth Nat.add Nat.mul]; apply Rabs_le; lra.
  - assert (Et : rmap B2SF (m_trace (A := F32 lm) (mk_mat (A := F32 lm) 3 3 small_turn)) = Ok (sf 3)) by (vm_compute; reflexivity).
    assert (Et' : exists tr : f32, m_trace (A := F32 lm) (mk_mat (A := F32 lm) 3 3 small_turn) = Ok tr /\ B2SF tr = sf 3).
    { revert Et. generalize (sf 3). intros x Et. destruct (m_trace (A := F32 lm) _) as [tr|e|]; [|discriminate|discriminate].
      exists tr. split; [reflexivity|cbn [rmap] in Et; congruence]. }
    destruct Et' as (tr & Et1 & Et2). assert (tr = z32 3) as -> by (apply B2SF_inj; exact Et2).
    apply (l_log32_nan lm _ 3 small_turn_r (z32 3) true He (small_turn_ok lm)); auto.
    + intros i j Hi Hj. destruct i as [|[|[|i]]]; [| | |lia]; (destruct j as [|[|[|j]]]; [| | |lia]); unfold small_turn_r; cbn [nth Nat.add Nat.mul]; apply Rabs_le; lra.
    + cbn. unfold F2R. cbn. lra.
Qed.

Lemma ex_log32_0 : let lm := edge_libm in let m := mk_mat (A := F32 lm) 3 3 (map z32 [1; 0; 0; 0; 0; -1; 0; 1; 0]%Z) in
  acos_edge lm /\ libm_accurate lm (5 / 10000000) 5 /\ acos_accurate lm (5 / 10000000) /\
  mat_f (lm := lm) m 3 3 (fun i j => IZR (nth (i * 3 + j) [1; 0; 0; 0; 0; -1; 0; 1; 0]%Z 0%Z)) /\
  (forall i j, (i < 3)%nat -> (j < 3)%nat -> IZR (nth (i * 3 + j) [1; 0; 0; 0; 0; -1; 0; 1; 0]%Z 0%Z) = rodrigues (PI / 2) 1 0 0 i j) /\
  0 < PI / 2 < PI /\ sin (PI / 2) = 1 /\ m_is_so_n m = Ok true.
Proof.
  cbv zeta. split; [exact edge_ok|]. split; [apply edge_sin|]. split; [exact edge_acos|].
  split; [apply (mat_z edge_libm 3 3); [lia|lia|reflexivity|repeat constructor; cbn; lia]|].
  split; [|split; [pose proof PI_RGT_0; lra|split; [apply sin_PI2|]]].
  - intros i j Hi Hj. unfold rodrigues. rewrite cos_PI2, sin_PI2. destruct i as [|[|[|i]]]; [| | |lia]; (destruct j as [|[|[|j]]]; [| | |lia]); cbn [nth Nat.add Nat.mul]; ring.
  - generalize edge_libm. intros lm. vm_compute. reflexivity.
Qed.
Lemma ex_log32 : exists lm : Libm, let m := mk_mat (A := F32 lm) 3 3 (map z32 [1; 0; 0; 0; 0; -1; 0; 1; 0]%Z) in
  acos_edge lm /\ libm_accurate lm (5 / 10000000) 5 /\ acos_accurate lm (5 / 10000000) /\
  mat_f (lm := lm) m 3 3 (fun i j => IZR (nth (i * 3 + j) [1; 0; 0; 0; 0; -1; 0; 1; 0]%Z 0%Z)) /\
  (forall i j, (i < 3)%nat -> (j < 3)%nat -> IZR (nth (i * 3 + j) [1; 0; 0; 0; 0; -1; 0; 1; 0]%Z 0%Z) = rodrigues (PI / 2) 1 0 0 i j) /\
  0 < PI / 2 < PI /\ sin (PI / 2) = 1 /\ m_is_so_n m = Ok true.
Proof. exact (ex_intro _ edge_libm ex_log32_0). Qed.
(*@ example *)
(** C88 hypotheses: the quarter turn about x, with a libm accurate to 5e-7 *)
Example C88_example : exists lm : Libm, let m := mk_mat (A := F32 lm) 3 3 (map z32 [1; 0; 0; 0; 0; -1; 0; 1; 0]%Z) in
  acos_edge lm /\ libm_accurate lm (5 / 10000000) 5 /\ acos_accurate lm (5 / 10000000) /\
  mat_f (lm := lm) m 3 3 (fun i j => IZR (nth (i * 3 + j) [1; 0; 0; 0; 0; -1; 0; 1; 0]%Z 0%Z)) /\
  (forall i j, (i < 3)%nat -> (j < 3)%nat -> IZR (nth (i * 3 + j) [1; 0; 0; 0; 0; -1; 0; 1; 0]%Z 0%Z) = rodrigues (PI / 2) 1 0 0 i j) /\
  0 < PI / 2 < PI /\ sin (PI / 2) = 1 /\ m_is_so_n m = Ok true.
Proof. exact ex_log32. Qed.
