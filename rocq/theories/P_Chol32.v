(** C71: the Cholesky factor in f32. *)
(*@+*)
From Coq Require Import List Arith ZArith Reals Lia Bool Lra SpecFloat.
From Flocq Require Import Core BinarySingleNaN.
From Verif Require Import M_Base M_Arith M_Utils M_Vector M_Matrix M_F32
  S_Spec S_Linalg S_Norm S_Lu S_F32 S_Lu32 S_Chol32 P_Inst P_InstF.
Import ListNotations.
Local Open Scope R_scope.
(*@-*)
From Coq Require Import Psatz.
From Verif Require Import P_Hoare P_Cont P_Loops P_Access P_Pointwise P_Trans P_Float P_Product P_Norm P_Dot P_FErr P_FAcc P_F32App P_Lup P_Chol P_Lup32 P_Eig.

(** ** what the loops compute, for every arithmetic *)
Section Cols.
  Context {A : Arith} {OK : ArithOk A}.
  Definition csum (L : nat -> nat -> T) (i j : nat) : T := fsum j (fun k => L i k * L j k)%F.
  Definition piv0 : T := if (f0 <? EPSILON)%F then EPSILON else f0.
  Definition ccell (a L : nat -> nat -> T) (i j : nat) : T :=
    if (i =? j)%nat then fsqrt (a j j - csum L j j)%F
    else ((f1 / (if (i <? j)%nat then piv0 else L j j)) * (a i j - csum L i j))%F.
  Definition cols (n c : nat) (a L : nat -> nat -> T) : Prop :=
    (forall i j, (i < n)%nat -> (j < c)%nat -> L i j = ccell a L i j) /\
    (forall i j, (i < n)%nat -> (c <= j < n)%nat -> L i j = f0).
  Lemma csum_ext L L' i j : (forall k, (k < j)%nat -> L i k = L' i k) -> (forall k, (k < j)%nat -> L j k = L' j k) -> csum L i j = csum L' i j.
  Proof. intros H1 H2. apply fsum_ext. intros k Hk. rewrite H1, H2 by auto. reflexivity. Qed.
  Lemma row_fold m r c f i1 i2 n : mat_is m r c f -> (i1 < r)%nat -> (i2 < r)%nat -> (n <= c)%nat ->
    rfold (range 0 n) (fun k acc => let? x := m_get m i1 k in let? y := m_get m i2 k in Ok (acc + x * y)%F) f0
    = Ok (fsum n (fun k => f i1 k * f i2 k)%F).
  Proof.
    intros Hm H1 H2 Hn. apply rfold_fsum. intros i acc Hi. rewrite !(mi_get _ _ _ _ Hm) by lia. reflexivity.
  Qed.
  Lemma cols_wp m n a s L c : mat_is m n n a -> (c < n)%nat -> mat_is s n n L -> cols n c a L ->
    wp (chol_col m c) s (fun _ s' => exists L', mat_is s' n n L' /\ cols n (S c) a L') (fun _ _ => True) False.
  Proof.
    intros Hm Hc Hs (I1 & I2). unfold chol_col.
    apply wp_bind, wp_reads. rewrite (row_fold s n n L) by (auto; lia). cbn [rwp].
    set (s1 := fsum c (fun k => L c k * L c k)%F).
    apply wp_bind, wp_reads. rewrite (mi_get _ _ _ _ Hs) by auto. cbn [rwp]. rewrite (I2 c c) by lia.
    apply wp_bind. rewrite (mi_rows _ _ _ _ Hm).
    set (g := fun i : nat => if (i =? c)%nat then fsqrt (a c c - s1)%F
                 else ((f1 / (if (i <? c)%nat then piv0 else fsqrt (a c c - s1))) * (a i c - fsum c (fun k => L i k * L c k)))%F).
    assert (Loop : forall s0, mat_is s0 n n (fun i j => if (j =? c)%nat then (if (i =? c)%nat then piv0 else L i j) else L i j) ->
      wp (for_ (range 0 n) (chol_cell m c s1)) s0 (fun _ s' => exists L', mat_is s' n n L' /\ cols n (S c) a L') (fun _ _ => True) False).
    { intros s0 H0.
      apply wp_for with (I := fun r s => mat_is s n n (fun i j => if (j =? c)%nat then (if (i <? r)%nat then g i else if (i =? c)%nat then piv0 else L i j) else L i j)).
      - eapply mat_is_ext; [exact H0|]. intros i j Hi Hj. cbv beta. reflexivity.
      - intros r s2 Hr H2. unfold chol_cell. apply wp_bind, wp_reads.
        rewrite (row_fold s2 n n _ r c c H2) by lia. cbn [rwp].
        rewrite (fsum_ext c _ (fun k => L r k * L c k)%F).
        2:{ intros k Hk. destruct (Nat.eqb_spec k c); [lia|reflexivity]. }
        apply wp_bind, wp_reads.
        assert (Fin : forall e, e = g r -> wp (m_set r c e) s2 (fun _ s' => mat_is s' n n
          (fun i j => if (j =? c)%nat then (if (i <? S r)%nat then g i else if (i =? c)%nat then piv0 else L i j) else L i j)) (fun _ _ => True) False).
        { intros e ->. eapply wp_m_set; [exact H2|lia|lia| |auto]. intros Hv m' Hm'.
          eapply mat_is_ext; [exact Hm'|]. intros i j Hi Hj. cbv beta. unfold fupd2.
          destruct (Nat.eqb_spec i r), (Nat.eqb_spec j c), (Nat.ltb_spec i r), (Nat.ltb_spec i (S r)); cbn [andb]; subst; auto; try lia. }
        destruct (Nat.eqb_spec r c) as [->|Nrc].
        + rewrite (mi_get _ _ _ _ Hm) by lia. cbn [rbind rwp]. apply Fin. unfold g. rewrite Nat.eqb_refl. reflexivity.
        + rewrite (mi_get _ _ _ _ H2), (mi_get _ _ _ _ Hm) by lia. cbn [rbind rwp]. apply Fin.
          unfold g at 2. rewrite (proj2 (Nat.eqb_neq r c) Nrc), !Nat.eqb_refl.
          destruct (Nat.ltb_spec c r) as [Lcr|Lrc].
          * destruct (Nat.ltb_spec r c); [lia|]. unfold g. rewrite Nat.eqb_refl. reflexivity.
          * destruct (Nat.ltb_spec r c); [|lia]. reflexivity.
      - rewrite Nat.max_0_l. intros s2 H2.
        exists (fun i j => if (j =? c)%nat then g i else L i j). split.
        { eapply mat_is_ext; [exact H2|]. intros i j Hi Hj. cbv beta. destruct (Nat.ltb_spec i n); [reflexivity|lia]. }
        split.
        + intros i j Hi Hj. unfold ccell. destruct (Nat.eqb_spec j c) as [->|Nj].
          * rewrite !(csum_ext (fun i j => if (j =? c)%nat then g i else L i j) L) by (intros k Hk; destruct (Nat.eqb_spec k c); [lia|reflexivity]).
            unfold g at 1, csum, s1. destruct (Nat.eqb_spec i c) as [->|Ni]; [reflexivity|]. unfold g. rewrite Nat.eqb_refl. reflexivity.
          * rewrite !(csum_ext (fun i j => if (j =? c)%nat then g i else L i j) L) by (intros k Hk; destruct (Nat.eqb_spec k c); [lia|reflexivity]).
            apply I1; lia.
        + intros i j Hi Hj. destruct (Nat.eqb_spec j c); [lia|]. apply I2; lia. }
    unfold piv0 in Loop. destruct (f0 <? EPSILON)%F eqn:E0.
    - eapply wp_m_set; [exact Hs|lia|lia| |auto]. intros _ s0 H0. apply Loop. eapply mat_is_ext; [exact H0|]. intros i j Hi Hj. unfold fupd2.
      destruct (Nat.eqb_spec i c), (Nat.eqb_spec j c); cbn [andb]; reflexivity.
    - unfold wp at 1. cbn [sret]. apply Loop. eapply mat_is_ext; [exact Hs|]. intros i j Hi Hj.
      destruct (Nat.eqb_spec i c), (Nat.eqb_spec j c); subst; auto; apply I2; lia.
  Qed.
  Lemma chol_ok m ml n a : mat_is m n n a -> m_chol m = Ok ml -> exists L, mat_is ml n n L /\ cols n n a L.
  Proof.
    intros Hm E. destruct (mat_is_dim _ _ _ _ Hm) as [Dn _]. rewrite chol_unfold in E.
    destruct (m_is_positive_definite m) as [[|]| |]; try discriminate. cbn [rbind negb] in E.
    rewrite (mi_rows _ _ _ _ Hm), (mi_cols _ _ _ _ Hm) in E.
    assert (W : rwp (exec (m_init n n ;;! for_ (range 0 n) (chol_col m)) mnew) (fun ml => exists L, mat_is ml n n L /\ cols n n a L) (fun _ => True) False).
    { apply wp_exec, wp_bind, wp_m_init; [lia|lia|]. intros m0 H0.
      apply wp_for with (I := fun c s => exists L, mat_is s n n L /\ cols n c a L).
      - exists (fun _ _ => f0). split; [exact H0|]. split; intros; [lia|auto].
      - intros c s Hc (L & HL & IL). apply (cols_wp m n a s L c Hm); auto; lia.
      - rewrite Nat.max_0_l. auto. }
    rewrite E in W. exact W.
  Qed.
End Cols.

(** ** the rounding errors of one cell, the result being finite *)
Lemma fin_plus (x y : f32) : is_finite (Bplus mode_NE x y) = true ->
  is_finite x = true /\ is_finite y = true /\ B2R (Bplus mode_NE x y) = rnd32 (B2R x + B2R y).
Proof.
  intros H. assert (F : is_finite x = true /\ is_finite y = true).
  { destruct x as [sx|sx| |sx mx ex Hx], y as [sy|sy| |sy my ey Hy]; try (split; reflexivity); exfalso; cbn in H; try discriminate; destruct sx; try destruct sy; discriminate. }
  destruct F as [Fx Fy]. split; [auto|]. split; [auto|].
  pose proof (Bplus_correct prec emax _ _ mode_NE x y Fx Fy) as C. cbn [round_mode] in C.
  match type of C with if ?b then _ else _ => destruct b end; [apply C|]. destruct C as [C _]. apply over_inf in C. congruence.
Qed.
Lemma csum_err lm (f g : nat -> f32) (c : nat) :
  is_finite (fsum (A := F32 lm) c (fun k => Bmult mode_NE (f k) (g k))) = true ->
  Rabs (B2R (fsum (A := F32 lm) c (fun k => Bmult mode_NE (f k) (g k))) - Rsum c (fun k => B2R (f k) * B2R (g k))) <=
    gam (S c) * (Rsum c (fun k => Rabs (B2R (f k) * B2R (g k))) + INR c * least).
Proof.
  induction c as [|c IH]; intros H.
  - cbn [Rsum INR]. assert (E : B2R (fsum (A := F32 lm) 0 (fun k => Bmult mode_NE (f k) (g k)) : f32) = 0) by (cbn [fsum]; reflexivity).
    rewrite E, Rminus_diag_eq, Rabs_R0 by reflexivity. pose proof (gam_pos 1). lra.
  - cbn [fsum] in *. change (fadd (Arith := F32 lm)) with (Bplus mode_NE : f32 -> f32 -> f32) in *.
    set (s := fsum (A := F32 lm) c (fun k => Bmult mode_NE (f k) (g k))) in *.
    destruct (fin_plus _ _ H) as (Fs & Fp & E). specialize (IH Fs). destruct (fin_mult _ _ Fp) as (_ & _ & Ep). rewrite E, Ep.
    cbn [Rsum]. rewrite S_INR. set (p := B2R (f c) * B2R (g c)) in *. set (M := Rsum c (fun k => Rabs _)) in *. set (S0 := Rsum c (fun k => _ * _)) in *.
    assert (HS : Rabs S0 <= M) by apply Rsum_abs.
    assert (M0 : 0 <= M) by (apply Rsum_nonneg; intros; apply Rabs_pos).
    destruct (rnd32_err p) as (e1 & h1 & He1 & Hh1 & E1). rewrite E1.
    destruct (rnd32_err (B2R s + (p * (1 + e1) + h1))) as (e2 & h2 & He2 & Hh2 & E2). rewrite E2.
    pose proof least_eta as LE. pose proof least_pos as LP. pose proof (gam_pos (S c)) as G. rewrite (gam_S (S c)).
    set (d := B2R s - S0) in *. set (G0 := gam (S c)) in *. pose proof (pos_INR c) as Pc. set (N := INR c) in *.
    replace ((B2R s + (p * (1 + e1) + h1)) * (1 + e2) + h2 - (S0 + p)) with (d * (1 + e2) + S0 * e2 + p * (e1 + e2 + e1 * e2) + (h1 * (1 + e2) + h2)) by (unfold d; ring).
    assert (B1 : Rabs (1 + e2) <= 1 + ulp1) by (eapply Rle_trans; [apply Rabs_triang|]; rewrite Rabs_R1; unfold u, ulp1 in *; lra).
    assert (B2 : Rabs (d * (1 + e2)) <= G0 * (M + N * least) * (1 + ulp1)) by (rewrite Rabs_mult; apply Rmult_le_compat; auto; apply Rabs_pos).
    assert (B3 : Rabs (S0 * e2) <= M * ulp1) by (rewrite Rabs_mult; apply Rmult_le_compat; auto; try apply Rabs_pos; unfold u, ulp1 in *; lra).
    assert (B4 : Rabs (p * (e1 + e2 + e1 * e2)) <= Rabs p * (2 * ulp1)).
    { rewrite Rabs_mult. apply Rmult_le_compat_l; [apply Rabs_pos|]. eapply Rle_trans; [apply Rabs_triang|]. rewrite Rabs_mult.
      assert (Rabs e1 * Rabs e2 <= u * u) by (apply Rmult_le_compat; auto; apply Rabs_pos). pose proof (Rabs_triang e1 e2). unfold u, ulp1 in *. lra. }
    assert (B5 : Rabs (h1 * (1 + e2) + h2) <= ulp1 * least).
    { eapply Rle_trans; [apply Rabs_triang|]. rewrite Rabs_mult.
      assert (Rabs h1 * Rabs (1 + e2) <= eta * (1 + ulp1)) by (apply Rmult_le_compat; auto; apply Rabs_pos). unfold ulp1 in *. lra. }
    eapply Rle_trans; [apply Rabs_triang|]. eapply Rle_trans; [apply Rplus_le_compat_r, Rabs_triang|]. eapply Rle_trans; [apply Rplus_le_compat_r, Rplus_le_compat_r, Rabs_triang|].
    assert (G1 : ulp1 <= G0).
    { unfold G0. rewrite gam_S. pose proof (gam_pos c). unfold ulp1 in *. nra. }
    pose proof (Rabs_pos p) as Pp.
    assert (X1 : Rabs p * (2 * ulp1) <= Rabs p * (G0 * (1 + ulp1) + ulp1)) by (apply Rmult_le_compat_l; [exact Pp|]; unfold ulp1 in *; nra).
    assert (X2 : 0 <= G0 * (1 + ulp1)) by (unfold ulp1; nra).
    assert (X3 : 0 <= N * least) by nra.
    assert (X4 : 0 <= G0 * (1 + ulp1) * least) by nra.
    assert (X5 : 0 <= ulp1 * (N * least)) by (unfold ulp1; lra).
    nra.
Qed.
(** (1 / d) * w against w / d *)
Lemma recip_err lm (d w : f32) : is_finite d = true -> 0 <= B2R d <= bpow radix2 66 ->
  is_finite (Bmult mode_NE (Bdiv mode_NE (f1 (A := F32 lm)) d) w) = true ->
  B2R d <> 0 /\ is_finite w = true /\
  let v := B2R (Bmult mode_NE (Bdiv mode_NE (f1 (A := F32 lm)) d) w) in Rabs (B2R w - v * B2R d) <= 2 * ulp1 * (amp v * B2R d).
Proof.
  intros Fd [D0 D1] H. destruct (fin_mult _ _ H) as (Fr & Fw & Ev).
  assert (Nd : B2R d <> 0).
  { intros E. destruct d as [sd|sd| |sd md ed Hd]; try discriminate.
    cbn [B2R] in E. apply eq_0_F2R in E. destruct sd; discriminate. }
  destruct (fin_div _ _ Fr Nd) as (_ & Er). split; [exact Nd|]. split; [exact Fw|]. cbv zeta. rewrite Ev, Er.
  assert (E1 : B2R (f1 (A := F32 lm) : f32) = 1) by (cbn; unfold F2R; cbn; lra).
  rewrite E1. set (D := B2R d) in *. set (W := B2R w).
  pose proof (rnd_back (1 / D)) as Br. set (r := rnd32 (1 / D)) in *. pose proof (rnd_back (r * W)) as Bv. set (v := rnd32 (r * W)) in *.
  assert (PD : 0 < D) by lra. pose proof least_eta as LE. pose proof least_pos as LP. pose proof eta_pos as EP.
  assert (TD : eta * D <= 1 / 100000000000000000000).
  { apply Rle_trans with (eta * bpow radix2 66); [apply Rmult_le_compat_l; lra|]. unfold eta. rewrite <- bpow_plus. cbn. lra. }
  pose (t := Rabs r * D). assert (T0 : 0 <= t) by (apply Rmult_le_pos; [apply Rabs_pos|lra]).
  assert (A1 : Rabs (1 - r * D) <= 597 / 10000000000 * t + 11 / 1000000000000000000000).
  { replace (1 - r * D) with (- (r - 1 / D) * D) by (field; lra). rewrite Rabs_mult, Rabs_Ropp, (Rabs_pos_eq D) by lra.
    apply Rle_trans with ((597 / 10000000000 * Rabs r + 11 / 10 * eta) * D); [apply Rmult_le_compat_r; lra|]. unfold t. nra. }
  assert (A2 : 1 - t <= Rabs (1 - r * D)).
  { unfold t. replace (Rabs r * D) with (Rabs (r * D)) by (rewrite Rabs_mult, (Rabs_pos_eq D) by lra; reflexivity).
    pose proof (Rabs_triang (1 - r * D) (r * D)) as Tr. replace (1 - r * D + r * D) with 1 in Tr by ring. rewrite Rabs_R1 in Tr. lra. }
  assert (A3 : Rabs (1 - r * D) <= 5971 / 100000000000 * t) by lra.
  assert (A4 : Rabs W * t <= (597 / 10000000000 * Rabs v + 11 / 10 * eta + Rabs v) * D).
  { unfold t. replace (Rabs W * (Rabs r * D)) with (Rabs (r * W) * D) by (rewrite Rabs_mult; ring). apply Rmult_le_compat_r; [lra|].
    replace (r * W) with (- (v - r * W) + v) by ring. eapply Rle_trans; [apply Rabs_triang|]. rewrite Rabs_Ropp. lra. }
  replace (W - v * D) with (W * (1 - r * D) - (v - r * W) * D) by ring.
  eapply Rle_trans; [apply Rabs_triang|]. rewrite Rabs_Ropp, !Rabs_mult, (Rabs_pos_eq D) by lra.
  assert (A5 : Rabs W * Rabs (1 - r * D) <= 5971 / 100000000000 * (Rabs W * t)).
  { replace (5971 / 100000000000 * (Rabs W * t)) with (Rabs W * (5971 / 100000000000 * t)) by ring. apply Rmult_le_compat_l; [apply Rabs_pos|exact A3]. }
  assert (A6 : Rabs (v - r * W) * D <= (597 / 10000000000 * Rabs v + 11 / 10 * eta) * D) by (apply Rmult_le_compat_r; lra).
  unfold amp. pose proof (Rabs_pos v) as V0.
  apply Rle_trans with ((5971 / 100000000000 * (597 / 10000000000 * Rabs v + 11 / 10 * eta + Rabs v) + (597 / 10000000000 * Rabs v + 11 / 10 * eta)) * D); [lra|].
  replace (2 * ulp1 * ((Rabs v + least) * D)) with (2 * ulp1 * (Rabs v + least) * D) by ring. apply Rmult_le_compat_r; [lra|]. unfold ulp1 in *. lra.
Qed.
Lemma sqrt_fin (w : f32) : is_finite (Bsqrt mode_NE w) = true ->
  is_finite w = true /\ 0 <= B2R w /\ let v := B2R (Bsqrt mode_NE w) in 0 <= v <= bpow radix2 66 /\ Rabs (B2R w - v * v) <= 2 * ulp1 * (v * v).
Proof.
  intros H. pose proof (Bsqrt_correct prec emax _ _ mode_NE w) as C. cbn [round_mode] in C. destruct C as (E & F & _). rewrite H in F.
  destruct w as [sw|sw| |sw mw ew Hw]; try discriminate.
  - cbn [is_finite B2R] in *. split; [reflexivity|]. split; [lra|]. cbv zeta. rewrite E, sqrt_0, round_0 by apply valid_rnd_N.
    rewrite Rmult_0_r, Rminus_0_r, Rabs_R0. pose proof (bpow_ge_0 radix2 66). lra.
  - destruct sw; [discriminate|]. clear F. set (w := B754_finite false mw ew Hw) in *. split; [reflexivity|].
    pose proof (abs_B2R_ge_emin prec emax w eq_refl) as Lo. pose proof (abs_B2R_lt_emax prec emax w) as Hi.
    assert (P : 0 < B2R w) by (apply F2R_gt_0; reflexivity).
    rewrite Rabs_pos_eq in Lo, Hi by lra. split; [lra|]. cbv zeta.
    assert (E' : B2R (Bsqrt mode_NE w) = rnd32 (sqrt (B2R w))) by exact E. rewrite E'. set (W := B2R w) in *. clear E E' H. clearbody w.
    set (s := sqrt W). assert (Es : s * s = W) by (apply sqrt_sqrt; lra).
    assert (S1 : bpow radix2 (-75) <= s).
    { apply Rsqr_incr_0_var; [|apply sqrt_pos]. unfold Rsqr. rewrite Es, <- bpow_plus. eapply Rle_trans; [|exact Lo]. apply bpow_le. reflexivity || (cbv; discriminate). }
    assert (S2 : s <= bpow radix2 64).
    { apply Rsqr_incr_0_var; [|apply bpow_ge_0]. unfold Rsqr. rewrite Es, <- bpow_plus. left. exact Hi. }
    destruct (rnd32_err s) as (e & h & He & Hh & E). rewrite E.
    assert (P75 : 0 < bpow radix2 (-75)) by apply bpow_gt_0.
    assert (EH : eta <= bpow radix2 (-75) * s).
    { apply Rle_trans with (bpow radix2 (-75) * bpow radix2 (-75)); [unfold eta; rewrite <- bpow_plus; right; reflexivity|]. apply Rmult_le_compat_l; lra. }
    assert (Sm : bpow radix2 (-75) <= 1 / 1000000000000) by (cbn; lra).
    assert (Ps : 0 < s) by lra.
    assert (EH' : eta <= 1 / 1000000000000 * s) by (eapply Rle_trans; [exact EH|]; apply Rmult_le_compat_r; lra).
    pose (e' := e + h / s). assert (Ev : s * (1 + e) + h = s * (1 + e')) by (unfold e'; field; lra).
    assert (He' : Rabs e' <= 597 / 10000000000).
    { unfold e'. eapply Rle_trans; [apply Rabs_triang|]. unfold Rdiv at 1. rewrite Rabs_mult, Rabs_inv, (Rabs_pos_eq s) by lra.
      assert (Rabs h * / s <= 1 / 1000000000000) by (apply Rmult_le_reg_r with s; [lra|]; rewrite Rmult_assoc, Rinv_l by lra; lra). unfold u in *. lra. }
    rewrite Ev. apply Rabs_le_inv in He'. split.
    + split; [apply Rmult_le_pos; lra|]. replace (bpow radix2 66) with (bpow radix2 64 * 4) by (replace 4 with (bpow radix2 2) by (cbn; lra); rewrite <- bpow_plus; reflexivity).
      pose proof (bpow_gt_0 radix2 64). apply Rmult_le_compat; lra.
    + rewrite <- Es. replace (s * s - s * (1 + e') * (s * (1 + e'))) with (- (s * s * (2 * e' + e' * e'))) by ring. rewrite Rabs_Ropp, Rabs_mult, (Rabs_pos_eq (s * s)) by nra.
      replace (2 * ulp1 * (s * (1 + e') * (s * (1 + e')))) with (s * s * (2 * ulp1 * ((1 + e') * (1 + e')))) by ring. apply Rmult_le_compat_l; [nra|].
      apply Rabs_le. unfold ulp1. clear - He'. split; nra.
Qed.

(** ** the factor *)
Lemma cell_err (a s w S0 M p P g N : R) : Rabs (s - S0) <= g * (M + N * least) -> 0 <= g <= 241 / 1000000000 -> 0 <= M -> 0 <= N <= 3 ->
  Rabs (w - (a - s)) <= 597 / 10000000000 * Rabs w + 11 / 10 * eta -> Rabs (w - p) <= 2 * ulp1 * P -> Rabs p <= P ->
  Rabs (a - (S0 + p)) <= 3 / 10000000 * (M + P + 4 * least).
Proof.
  intros Hs Hg HM HN Hw Hp HP. pose proof least_eta as LE. pose proof least_pos as LP. pose proof eta_pos as EP.
  assert (P0 : 0 <= P) by (pose proof (Rabs_pos p); lra).
  assert (Wb : Rabs w <= (1 + 2 * ulp1) * P).
  { replace w with ((w - p) + p) by ring. eapply Rle_trans; [apply Rabs_triang|]. lra. }
  replace (a - (S0 + p)) with ((s - S0) + - (w - (a - s)) + (w - p)) by ring.
  eapply Rle_trans; [apply Rabs_triang|]. eapply Rle_trans; [apply Rplus_le_compat_r, Rabs_triang|]. rewrite Rabs_Ropp.
  assert (X : g * (M + N * least) <= 241 / 1000000000 * (M + 3 * least)).
  { apply Rmult_le_compat; try lra; [assert (0 <= N * least) by nra; lra|]. assert (N * least <= 3 * least) by nra. lra. }
  unfold ulp1 in *. lra.
Qed.
Section Factor.
  Variable lm : Libm.
  Notation F := (F32 lm).
  Variables (n : nat) (a L : nat -> nat -> f32).
  Hypothesis Hn : (1 <= n <= 4)%nat.
  Hypothesis FL : forall i j, (i < n)%nat -> (j < n)%nat -> is_finite (L i j) = true.
  Hypothesis HC : cols (A := F) n n a L.
  Let l i j := B2R (L i j).
  Lemma csum_R i j : (j <= 3)%nat -> is_finite (csum (A := F) L i j) = true ->
    Rabs (B2R (csum (A := F) L i j : f32) - Rsum j (fun k => l i k * l j k)) <= gam (S j) * (Rsum j (fun k => amp (l i k) * amp (l j k)) + INR j * least) /\
    0 <= gam (S j) <= 241 / 1000000000 /\ 0 <= Rsum j (fun k => amp (l i k) * amp (l j k)) /\ 0 <= INR j <= 3.
  Proof.
    intros Hj Fs. pose proof (gam_pos (S j)) as G. split; [|split; [|split]].
    - eapply Rle_trans; [apply (csum_err lm (L i) (L j) j Fs)|]. apply Rmult_le_compat_l; [exact G|]. apply Rplus_le_compat_r, Rsum_le. intros k _. apply amp_mul.
    - split; [exact G|]. eapply Rle_trans; [apply (gam_mono _ 4); lia|]. exact gam_4.
    - apply Rsum_nonneg. intros k _. apply Rmult_le_pos; left; apply amp_pos.
    - split; [apply pos_INR|]. replace 3 with (INR 3) by (cbn; lra). apply le_INR, Hj.
  Qed.
  Lemma diag_cell j : (j < n)%nat -> 0 <= l j j <= bpow radix2 66 /\
    Rabs (B2R (a j j) - (Rsum j (fun k => l j k * l j k) + l j j * l j j)) <= 3 / 10000000 * (Rsum j (fun k => amp (l j k) * amp (l j k)) + amp (l j j) * amp (l j j) + 4 * least).
  Proof.
    intros Hj. pose proof (proj1 HC j j Hj Hj) as E. unfold ccell in E. rewrite Nat.eqb_refl in E.
    change (L j j = Bsqrt mode_NE (Bminus mode_NE (a j j) (csum (A := F) L j j))) in E.
    pose proof (FL j j Hj Hj) as FJ. rewrite E in FJ. destruct (sqrt_fin _ FJ) as (Fw & W0 & V & D). destruct (fin_minus _ _ Fw) as (_ & Fs & Ew).
    rewrite <- E in V, D. fold (l j j) in V, D. split; [exact V|].
    destruct (csum_R j j ltac:(lia) Fs) as (C1 & C2 & C3 & C4). pose proof (rnd_back (B2R (a j j) - B2R (csum (A := F) L j j : f32))) as B.
    apply (cell_err _ _ (B2R (Bminus mode_NE (a j j) (csum (A := F) L j j))) _ _ _ _ _ _ C1 C2 C3 C4); [rewrite Ew; exact B| |apply amp_mul].
    eapply Rle_trans; [exact D|]. apply Rmult_le_compat_l; [unfold ulp1; lra|]. apply Rmult_le_compat; try lra; (rewrite <- (Rabs_pos_eq (l j j)) at 1 by lra; apply amp_abs).
  Qed.
  Lemma low_cell i j : (j < i)%nat -> (i < n)%nat -> l j j <> 0 /\
    Rabs (B2R (a i j) - (Rsum j (fun k => l i k * l j k) + l i j * l j j)) <= 3 / 10000000 * (Rsum j (fun k => amp (l i k) * amp (l j k)) + amp (l i j) * amp (l j j) + 4 * least).
  Proof.
    intros Hji Hi. pose proof (proj1 HC i j Hi ltac:(lia)) as E. unfold ccell in E. rewrite (proj2 (Nat.eqb_neq i j)) in E by lia.
    destruct (Nat.ltb_spec i j); [lia|].
    change (L i j = Bmult mode_NE (Bdiv mode_NE (f1 (A := F)) (L j j)) (Bminus mode_NE (a i j) (csum (A := F) L i j))) in E.
    pose proof (FL i j Hi ltac:(lia)) as FJ. rewrite E in FJ.
    destruct (recip_err lm _ _ (FL j j ltac:(lia) ltac:(lia)) (proj1 (diag_cell j ltac:(lia))) FJ) as (Nz & Fw & D). destruct (fin_minus _ _ Fw) as (_ & Fs & Ew).
    rewrite <- E in D. fold (l i j) (l j j) in D, Nz. split; [exact Nz|].
    destruct (csum_R i j ltac:(lia) Fs) as (C1 & C2 & C3 & C4). pose proof (rnd_back (B2R (a i j) - B2R (csum (A := F) L i j : f32))) as B.
    apply (cell_err _ _ (B2R (Bminus mode_NE (a i j) (csum (A := F) L i j))) _ _ _ _ _ _ C1 C2 C3 C4); [rewrite Ew; exact B| |apply amp_mul].
    eapply Rle_trans; [exact D|]. apply Rmult_le_compat_l; [unfold ulp1; lra|]. apply Rmult_le_compat_l; [left; apply amp_pos|].
    rewrite <- (Rabs_pos_eq (l j j)) at 1; [apply amp_abs|]. apply (diag_cell j). lia.
  Qed.
End Factor.
Lemma low_sum n (l : nat -> nat -> R) (h : R -> R -> R) i j : (j <= i)%nat -> (j < n)%nat ->
  Rsum n (fun k => h (low l i k) (low l j k)) = Rsum j (fun k => h (l i k) (l j k)) + h (l i j) (l j j) + Rsum n (fun k => if (j <? k)%nat then h (low l i k) 0 else 0).
Proof.
  intros Hji Hj. rewrite (Rsum_split n j) by auto. f_equal.
  - f_equal.
    + apply Rsum_ext. intros k Hk. unfold low. destruct (Nat.leb_spec k i), (Nat.leb_spec k j); try lia. reflexivity.
    + unfold low. rewrite Nat.leb_refl. destruct (Nat.leb_spec j i); [reflexivity|lia].
  - apply Rsum_ext. intros k Hk. unfold low. destruct (Nat.ltb_spec j k), (Nat.leb_spec k j); try lia; reflexivity.
Qed.

(*@ C71_factor *)
(** C71: whenever [chol] of an n x n f32 matrix succeeds, the diagonal of the result is not negative, and not zero except
    for the last element; the lower triangle times its transpose is the lower triangle of A up to 3e-7 times the product
    of the magnitudes *)
Lemma l_chol32 :
  forall (lm : Libm) (m ml : Mat (T (Arith := F32 lm))) (n : nat) (a : nat -> nat -> R), mat_f m n n a -> m_chol m = Ok ml ->
  exists l, mat_f ml n n l /\ (forall i, (i < n)%nat -> 0 <= l i i) /\ (forall i, (S i < n)%nat -> 0 < l i i) /\
    forall i j, (j <= i)%nat -> (i < n)%nat ->
    Rabs (a i j - rmul n (low l) (rtr (low l)) i j) <=
      3 / 10000000 * (Rsum n (fun k => amp (low l i k) * amp (low l j k)) + 4 * least).
Proof.
  intros lm m ml n a (F0 & Hm & Ea) E. destruct (chol_ok (A := F32 lm) m ml n F0 Hm E) as (L & HL & HC).
  destruct (mat_is_dim _ _ _ _ Hm) as [Dn _].
  assert (FL : forall i j, (i < n)%nat -> (j < n)%nat -> is_finite (L i j : f32) = true) by (intros i j Hi Hj; apply (valid_finite lm); eapply mat_is_valid; eauto).
  exists (fun i j => B2R (L i j : f32)). split; [exists L; split; [exact HL|reflexivity]|].
  assert (D := fun j Hj => proj1 (diag_cell lm n F0 L Dn FL HC j Hj)). cbv beta in D.
  split; [intros i Hi; apply D, Hi|]. split.
  - intros i Hi. pose proof (proj1 (low_cell lm n F0 L Dn FL HC (S i) i ltac:(lia) Hi)) as Nz. cbv beta in Nz. pose proof (D i ltac:(lia)). lra.
  - intros i j Hji Hi. set (l := fun i j => B2R (L i j : f32)) in *.
    assert (C : Rabs (a i j - (Rsum j (fun k => l i k * l j k) + l i j * l j j)) <= 3 / 10000000 * (Rsum j (fun k => amp (l i k) * amp (l j k)) + amp (l i j) * amp (l j j) + 4 * least)).
    { rewrite <- Ea by lia. destruct (Nat.eq_dec i j) as [->|Ne]; [apply (diag_cell lm n F0 L Dn FL HC j Hi)|]. apply (low_cell lm n F0 L Dn FL HC i j ltac:(lia) Hi). }
    unfold rmul, rtr. rewrite (low_sum n l Rmult i j) by lia. rewrite (Rsum_0 n (fun k => if (j <? k)%nat then _ else 0)) by (intros k Hk; destruct (j <? k)%nat; lra). rewrite Rplus_0_r.
    eapply Rle_trans; [exact C|]. apply Rmult_le_compat_l; [lra|]. rewrite (low_sum n l (fun x y => amp x * amp y) i j) by lia.
    assert (0 <= Rsum n (fun k => if (j <? k)%nat then amp (low l i k) * amp 0 else 0)).
    { apply Rsum_nonneg. intros k _. destruct (j <? k)%nat; [|lra]. apply Rmult_le_pos; left; apply amp_pos. }
    lra.
Qed.

Lemma piv0_eps lm : (piv0 (A := F32 lm) : f32) = (EPSILON (A := F32 lm) : f32).
Proof. apply B2SF_inj. vm_compute. reflexivity. Qed.

(*@ C71_upper_2 *)
(** C71: for an exactly symmetric 2 x 2 matrix the element above the diagonal, which should be zero, is at most half a
    percent of the product of the first column *)
Lemma l_chol32_upper :
  forall (lm : Libm) (m ml : Mat (T (Arith := F32 lm))) (a : nat -> nat -> R), mat_f m 2 2 a -> a 0%nat 1%nat = a 1%nat 0%nat -> m_chol m = Ok ml ->
  exists l, mat_f ml 2 2 l /\ Rabs (l 0%nat 1%nat) <= 5 / 1000 * (amp (l 0%nat 0%nat) * amp (l 1%nat 0%nat) + 4 * least).
Proof.
  intros lm m ml a (F0 & Hm & Ea) Sy E. destruct (chol_ok (A := F32 lm) m ml 2 F0 Hm E) as (L & HL & HC).
  assert (FL : forall i j, (i < 2)%nat -> (j < 2)%nat -> is_finite (L i j : f32) = true) by (intros i j Hi Hj; apply (valid_finite lm); eapply mat_is_valid; eauto).
  exists (fun i j => B2R (L i j : f32)). split; [exists L; split; [exact HL|reflexivity]|].
  destruct (low_cell lm 2 F0 L ltac:(lia) FL HC 1 0 ltac:(lia) ltac:(lia)) as [_ C]. cbv beta in C. cbn [Rsum] in C.
  pose proof (proj1 HC 0%nat 1%nat ltac:(lia) ltac:(lia)) as V. unfold ccell in V. cbn [Nat.eqb Nat.ltb Nat.leb] in V.
  set (p := (piv0 (A := F32 lm)) : f32) in V.
  destruct (eps32 lm) as [FE [E1 E2]].
  assert (Ep : p = (EPSILON (A := F32 lm) : f32)) by apply piv0_eps.
  rewrite Ep in V. set (ep := (EPSILON (A := F32 lm)) : f32) in *. clearbody ep. clear p Ep.
  change (L 0%nat 1%nat = Bmult mode_NE (Bdiv mode_NE (f1 (A := F32 lm)) ep) (Bminus mode_NE (F0 0%nat 1%nat) (csum (A := F32 lm) L 0 1))) in V.
  pose proof (FL 0%nat 1%nat ltac:(lia) ltac:(lia)) as FJ. rewrite V in FJ.
  assert (B66 : 1 <= bpow radix2 66) by (apply (bpow_le radix2 0 66); lia).
  destruct (recip_err lm ep _ FE ltac:(unfold eps in *; lra) FJ) as (Nz & Fw & D). destruct (fin_minus _ _ Fw) as (_ & Fs & Ew). rewrite <- V in D. cbv zeta in D.
  destruct (csum_R lm 2 L ltac:(lia) 0 1 ltac:(lia) Fs) as (C1 & C2 & C3 & C4). cbn [Rsum INR] in C1. clear C2 C3 C4.
  pose proof (rnd_back (B2R (F0 0%nat 1%nat : f32) - B2R (csum (A := F32 lm) L 0 1 : f32))) as B. rewrite <- Ew in B.
  assert (E01 : B2R (F0 0%nat 1%nat : f32) = B2R (F0 1%nat 0%nat : f32)) by (rewrite !Ea by lia; exact Sy). rewrite E01 in B.
  set (w := B2R (Bminus mode_NE (F0 0%nat 1%nat) (csum (A := F32 lm) L 0 1))) in *.
  set (s := B2R (csum (A := F32 lm) L 0 1 : f32)) in *. set (a10 := B2R (F0 1%nat 0%nat : f32)) in *.
  set (l00 := B2R (L 0%nat 0%nat : f32)) in *. set (l10 := B2R (L 1%nat 0%nat : f32)) in *. set (v := B2R (L 0%nat 1%nat : f32)) in *. set (e := B2R ep) in *.
  clearbody w s a10 l00 l10 v e. clear - C C1 B D E1 E2.
  rewrite (Rmult_comm (amp l10)) in C. set (M := amp l00 * amp l10) in *.
  assert (M0 : 0 < M) by (apply Rmult_lt_0_compat; apply amp_pos). clearbody M.
  pose proof least_eta as LE. pose proof least_pos as LP. pose proof eta_pos as EP.
  assert (G2 : gam 2 <= 121 / 1000000000) by (unfold gam, ulp1; lra).
  rewrite Rplus_0_l, (Rmult_comm l10), Rplus_0_l in C. rewrite !Rplus_0_l, Rmult_1_l in C1. pose proof (gam_pos 2) as GP.
  assert (C1' : Rabs (s - l00 * l10) <= 121 / 1000000000 * (M + least)) by (eapply Rle_trans; [exact C1|]; apply Rmult_le_compat_r; lra). clear C1 G2 GP.
  assert (D1 : Rabs (a10 - s) <= 425 / 1000000000 * (M + 4 * least)).
  { replace (a10 - s) with ((a10 - l00 * l10) + - (s - l00 * l10)) by ring. eapply Rle_trans; [apply Rabs_triang|]. rewrite Rabs_Ropp. lra. }
  assert (D2 : Rabs w <= 435 / 1000000000 * (M + 4 * least)).
  { pose proof (Rabs_triang (w - (a10 - s)) (a10 - s)) as Tr. replace (w - (a10 - s) + (a10 - s)) with w in Tr by ring. unfold ulp1 in *. lra. }
  unfold amp, eps in *. assert (Ee : 99 / 1000000 <= e <= 11 / 100000) by lra.
  assert (D3 : Rabs v * e <= Rabs w + 2 * ulp1 * ((Rabs v + least) * e)).
  { replace (Rabs v * e) with (Rabs (v * e)) by (rewrite Rabs_mult, (Rabs_pos_eq e) by lra; reflexivity).
    replace (v * e) with (w - (w - v * e)) by ring. eapply Rle_trans; [apply Rabs_triang|]. rewrite Rabs_Ropp. lra. }
  pose proof (Rabs_pos v) as V0. unfold ulp1 in *.
  assert (X1 : least * e <= least) by (rewrite <- (Rmult_1_r least) at 2; apply Rmult_le_compat_l; lra).
  assert (X2 : Rabs v * (99 / 1000000) <= Rabs v * e) by (apply Rmult_le_compat_l; lra).
  lra.
Qed.

Lemma get_nth_m {A : Arith} (v : Mat T) i j x d : m_get v i j = Ok x -> (i < m_rows v)%nat /\ (j < m_cols v)%nat /\ nth (i * m_cols v + j) (m_elems v) d = x.
Proof.
  unfold m_get, is_valid_row, is_valid_col. destruct (m_initialized v); cbn [negb]; [|discriminate]. destruct (Nat.leb_spec (m_rows v) i); cbn; [discriminate|].
  destruct (Nat.leb_spec (m_cols v) j); cbn; [discriminate|].
  unfold arr_get. destruct (nth_error (m_elems v) (i * m_cols v + j)) eqn:N; cbn; [|discriminate]. intros G. injection G as <-.
  split; [assumption|]. split; [assumption|apply nth_error_nth, N].
Qed.
Lemma show_nth_m lm v r c (f : nat -> nat -> f32) l : mat_is (A := F32 lm) v r c f -> show_m v = (r, c, true, l) ->
  forall i j, (i < r)%nat -> (j < c)%nat -> B2R (f i j) = SF2R radix2 (nth (i * c + j) l S754_nan).
Proof.
  intros Hv E i j Hi Hj. unfold show_m in E. injection E as E1 E2 E3 E4.
  destruct (get_nth_m (A := F32 lm) v i j _ (B754_nan : f32) (mi_get _ _ _ _ Hv i j Hi Hj)) as (K1 & K2 & K3). rewrite <- E4.
  change S754_nan with (B2SF (B754_nan : f32)). rewrite map_nth, SF2R_B2SF. f_equal.
  assert (K4 : nth (i * c + j) (m_elems v) (B754_nan : f32) = f i j) by (rewrite <- E2; exact K3).
  etransitivity; [symmetry; exact K4|]. symmetry. apply nth_firstn_lt. rewrite <- E1, <- E2 in *. nia.
Qed.
Definition garb : list Z := [8; 6; 0; 6; 8; 5; 0; 5; 8]%Z.
(*@ C71_triangular_refuted *)
(** C71, violation for every libm: [[8,6,0],[6,8,5],[0,5,8]] is symmetric and positive definite, but the factor that
    [chol] returns has an element below -127 in the top right corner, which should be zero, and the first diagonal element
    of L L' is above 16000 instead of 8 *)
Lemma l_chol32_w :
  exists m : Mat f32, forall lm : Libm, mat_f (lm := lm) m 3 3 (fun i j => IZR (nth (i * 3 + j) garb 0%Z)) /\
  (forall x, (exists i, (i < 3)%nat /\ x i <> 0) -> 0 < rdot 3 x (rmv 3 (fun i j => IZR (nth (i * 3 + j) garb 0%Z)) x)) /\
  exists ml l, m_chol (A := F32 lm) m = Ok ml /\ mat_f (lm := lm) ml 3 3 l /\ l 0%nat 2%nat <= -127 /\ 16000 <= rmul 3 l (rtr l) 0 0.
Proof.
  exists (mk_mat (A := F32 lm_id) 3 3 (map z32 garb)). intros lm.
  assert (Hm : mat_f (lm := lm) (mk_mat (A := F32 lm_id) 3 3 (map z32 garb)) 3 3 (fun i j => IZR (nth (i * 3 + j) garb 0%Z))) by (apply (mat_z lm); try lia; [reflexivity|repeat constructor; cbn; lia]).
  split; [exact Hm|]. split.
  { intros x (i & Hi & Nx). unfold rdot, rmv. cbn -[IZR].
    set (x0 := x 0%nat) in *. set (x1 := x 1%nat) in *. set (x2 := x 2%nat) in *.
    match goal with |- 0 < ?e => replace e with (8 * ((x0 + 3 / 4 * x1) * (x0 + 3 / 4 * x1)) + 7 / 2 * ((x1 + 10 / 7 * x2) * (x1 + 10 / 7 * x2)) + 6 / 7 * (x2 * x2)) by field end.
    pose proof (Rle_0_sqr (x0 + 3 / 4 * x1)) as Q0. pose proof (Rle_0_sqr (x1 + 10 / 7 * x2)) as Q1. pose proof (Rle_0_sqr x2) as Q2. unfold Rsqr in *.
    destruct (Req_dec x2 0) as [Z2|N2]; [|pose proof (Rsqr_pos_lt _ N2); unfold Rsqr in *; lra].
    destruct (Req_dec (x1 + 10 / 7 * x2) 0) as [Z1|N1]; [|pose proof (Rsqr_pos_lt _ N1); unfold Rsqr in *; lra].
    destruct (Req_dec (x0 + 3 / 4 * x1) 0) as [Z0|N0]; [|pose proof (Rsqr_pos_lt _ N0); unfold Rsqr in *; lra].
    exfalso. assert (x1 = 0) by lra. assert (x0 = 0) by lra. destruct i as [|[|[|i]]]; [| | |lia]; fold x0 x1 x2 in Nx; auto. }
  assert (C : rmap show_m (m_chol (A := F32 lm) (mk_mat (A := F32 lm_id) 3 3 (map z32 garb))) = Ok (3%nat, 3%nat, true,
    [S754_finite false 11863283 (-22); S754_finite false 10240000 (-31); S754_finite true 16703826 (-17); S754_finite false 8897462 (-22); S754_finite false 15693650 (-23); sf 0; sf 0; S754_finite false 11209748 (-22); S754_finite false 15532693 (-24)])) by (vm_compute; reflexivity).
  destruct (m_chol (A := F32 lm) (mk_mat (A := F32 lm_id) 3 3 (map z32 garb))) as [ml|e|] eqn:E; [|discriminate|discriminate].
  unfold rmap in C. cbn [rbind] in C. apply (f_equal (fun r => match r with Ok x => x | _ => (O, O, false, []) end)) in C. cbv beta iota in C.
  destruct (l_chol32 lm _ ml 3 _ Hm E) as (l & (L & HL & El) & _). exists ml, l. split; [reflexivity|]. split; [exists L; split; [exact HL|exact El]|].
  assert (S := show_nth_m lm ml 3 3 L _ HL C). unfold rmul, rtr. cbn [Rsum]. rewrite <- !El by lia. rewrite !S by lia.
  cbn [nth Nat.add Nat.mul SF2R]. unfold F2R. cbn [Fnum Fexp cond_Zopp].
  change (bpow radix2 (-17)) with (/ 131072). change (bpow radix2 (-22)) with (/ 4194304). change (bpow radix2 (-31)) with (/ 2147483648). rewrite opp_IZR. lra.
Qed.

Lemma ex_chol :
  let A := F32 lm_id in let m := mk_mat (A := A) 2 2 (map z32 [3; 1; 1; 3]%Z) in
  mat_f (lm := lm_id) m 2 2 (fun i j => IZR (nth (i * 2 + j) [3; 1; 1; 3]%Z 0%Z)) /\
  rmap show_m (m_chol m) = Ok (2%nat, 2%nat, true, [S754_finite false 14529495 (-23); S754_finite false 10240000 (-34); S754_finite false 9686330 (-24); S754_finite false 13698540 (-23)]).
Proof.
  cbv zeta. split; [apply (mat_z lm_id 2 2 [3; 1; 1; 3]%Z); try lia; [reflexivity|repeat constructor; cbn; lia]|]. vm_compute. reflexivity.
Qed.

(*@ example *)
(** test: [chol] succeeds on the symmetric matrix [[3,1],[1,3]], and even there the element above the diagonal is not zero *)
Example C71_example :
  let A := F32 lm_id in let m := mk_mat (A := A) 2 2 (map z32 [3; 1; 1; 3]%Z) in
  mat_f (lm := lm_id) m 2 2 (fun i j => IZR (nth (i * 2 + j) [3; 1; 1; 3]%Z 0%Z)) /\
  rmap show_m (m_chol m) = Ok (2%nat, 2%nat, true, [S754_finite false 14529495 (-23); S754_finite false 10240000 (-34); S754_finite false 9686330 (-24); S754_finite false 13698540 (-23)]).
Proof. exact ex_chol. Qed.
