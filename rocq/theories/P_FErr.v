(** Rounding-error bounds for binary32 operations and for the computed norm. *)
From Coq Require Import ZArith Reals Lia Lra Bool Psatz Arith.
From Flocq Require Import Core BinarySingleNaN Relative.
From Verif Require Import M_Base M_Arith M_Utils M_F32 M_Vector S_Spec S_Linalg S_Norm P_Inst P_Float P_Product P_Norm.
Local Open Scope R_scope.

Definition u : R := 1 / 16777216.
Definition eta : R := bpow radix2 (-150).
Lemma u_val : bpow radix2 (-24) = u.
Proof. cbn. unfold u. lra. Qed.
Lemma eta_pos : 0 < eta. Proof. apply bpow_gt_0. Qed.
Lemma eta_small : eta <= u * u / 1000000000000000000000000000000.
Proof.
  unfold eta. apply Rle_trans with (bpow radix2 (-148)); [apply bpow_le; lia|].
  replace (bpow radix2 (-148)) with (bpow radix2 (-24) * bpow radix2 (-24) * bpow radix2 (-100)).
  2:{ rewrite <- !bpow_plus. reflexivity. }
  rewrite u_val. assert (bpow radix2 (-100) <= / 1000000000000000000000000000000).
  { cbn. apply Rinv_le; [lra|]. apply IZR_le. cbn. lia. }
  unfold Rdiv. apply Rmult_le_compat_l; auto. unfold u. lra.
Qed.

Lemma rnd32_err x : exists e h, Rabs e <= u /\ Rabs h <= eta /\ rnd32 x = x * (1 + e) + h.
Proof.
  destruct (error_N_FLT radix2 (3 - emax - prec) prec ltac:(reflexivity) (fun x => negb (Z.even x)) x)
    as (e & h & He & Hh & _ & E).
  exists e, h. split; [|split]; auto.
  - eapply Rle_trans; [exact He|]. unfold prec. cbn. unfold u. lra.
  - eapply Rle_trans; [exact Hh|]. unfold eta.
    replace (bpow radix2 (-150)) with (bpow radix2 (-1) * bpow radix2 (-149)) by (rewrite <- bpow_plus; reflexivity).
    cbn [Z.sub]. replace (bpow radix2 (-1)) with (/ 2) by (cbn; lra). apply Rle_refl.
Qed.
Lemma fmt_bpow k : (-149 <= k < 128)%Z -> generic_format radix2 fexp32 (bpow radix2 k).
Proof.
  intros H. apply generic_format_bpow. unfold SpecFloat.fexp, SpecFloat.emin, prec, emax. lia.
Qed.
Lemma rnd32_bound x k : (-149 <= k < 128)%Z -> Rabs x <= bpow radix2 k -> Rabs (rnd32 x) <= bpow radix2 k.
Proof. intros Hk H. apply abs_round_le_generic; [apply fexp_correct; reflexivity|auto with typeclass_instances|apply fmt_bpow; auto|auto]. Qed.
Lemma rnd32_lt x : Rabs x <= bpow radix2 127 -> Rlt_bool (Rabs (rnd32 x)) (bpow radix2 emax) = true.
Proof.
  intros H. apply Rlt_bool_true. eapply Rle_lt_trans; [apply (rnd32_bound x 127); [lia|exact H]|].
  apply bpow_lt. unfold emax. lia.
Qed.

Section Ops.
  Implicit Types x y : f32.
  Lemma plus_ok x y : is_finite x = true -> is_finite y = true -> Rabs (B2R x + B2R y) <= bpow radix2 127 ->
    is_finite (Bplus mode_NE x y) = true /\ B2R (Bplus mode_NE x y) = rnd32 (B2R x + B2R y).
  Proof.
    intros Fx Fy H. pose proof (Bplus_correct prec emax _ _ mode_NE x y Fx Fy) as C. cbn [round_mode] in C.
    rewrite (rnd32_lt _ H) in C. tauto.
  Qed.
  Lemma minus_ok x y : is_finite x = true -> is_finite y = true -> Rabs (B2R x - B2R y) <= bpow radix2 127 ->
    is_finite (Bminus mode_NE x y) = true /\ B2R (Bminus mode_NE x y) = rnd32 (B2R x - B2R y).
  Proof.
    intros Fx Fy H. pose proof (Bminus_correct prec emax _ _ mode_NE x y Fx Fy) as C. cbn [round_mode] in C.
    rewrite (rnd32_lt _ H) in C. tauto.
  Qed.
  Lemma mult_ok x y : is_finite x = true -> is_finite y = true -> Rabs (B2R x * B2R y) <= bpow radix2 127 ->
    is_finite (Bmult mode_NE x y) = true /\ B2R (Bmult mode_NE x y) = rnd32 (B2R x * B2R y).
  Proof.
    intros Fx Fy H. pose proof (Bmult_correct prec emax _ _ mode_NE x y) as C. cbn [round_mode] in C.
    rewrite (rnd32_lt _ H) in C. rewrite Fx, Fy in C. tauto.
  Qed.
  Lemma div_ok x y : is_finite x = true -> B2R y <> 0 -> Rabs (B2R x / B2R y) <= bpow radix2 127 ->
    is_finite (Bdiv mode_NE x y) = true /\ B2R (Bdiv mode_NE x y) = rnd32 (B2R x / B2R y).
  Proof.
    intros Fx Fy H. pose proof (Bdiv_correct prec emax _ _ mode_NE x y Fy) as C. cbn [round_mode] in C.
    rewrite (rnd32_lt _ H) in C. rewrite Fx in C. tauto.
  Qed.
  Lemma sqrt_ok x : is_finite x = true -> 0 < B2R x ->
    is_finite (Bsqrt mode_NE x) = true /\ B2R (Bsqrt mode_NE x) = rnd32 (sqrt (B2R x)).
  Proof.
    intros Fx Hx. pose proof (Bsqrt_correct prec emax _ _ mode_NE x) as C. cbn [round_mode] in C.
    destruct C as (C1 & C2 & _). split; auto. rewrite C2.
    destruct x as [| | |[] m e H]; try discriminate; auto.
    exfalso. cbn in Hx. unfold F2R in Hx. cbn in Hx. pose proof (bpow_gt_0 radix2 e).
    assert (IZR (Z.neg m) < 0) by (apply IZR_lt; lia). nra.
  Qed.
  Lemma Bltb_ok x y : is_finite x = true -> is_finite y = true -> Bltb x y = Rlt_bool (B2R x) (B2R y).
  Proof. apply Bltb_correct. Qed.
  Lemma Bleb_ok x y : is_finite x = true -> is_finite y = true -> Bleb x y = Rle_bool (B2R x) (B2R y).
  Proof. apply Bleb_correct. Qed.
End Ops.

(** sum of squares *)
Lemma big_60 : bpow radix2 60 * bpow radix2 60 = bpow radix2 120.
Proof. rewrite <- bpow_plus. reflexivity. Qed.

Lemma sumsq_err lm n (f : nat -> f32) : (n <= 4)%nat ->
  (forall i, (i < n)%nat -> is_finite (f i) = true) ->
  rdot n (fun i => B2R (f i)) (fun i => B2R (f i)) <= bpow radix2 120 ->
  let N2 := rdot n (fun i => B2R (f i)) (fun i => B2R (f i)) in
  let s := fsum (A := F32 lm) n (fun i => Bmult mode_NE (f i) (f i)) in
  is_finite s = true /\
  Rabs (B2R s - N2) <= INR (S n) * (1001 / 1000) * u * N2 + 3 * INR n * eta.
Proof.
  intros Hn. cbv zeta. induction n as [|n IH]; intros F HN.
  - cbn. split; auto. rewrite Rminus_0_r, Rabs_R0. unfold u. lra.
  - unfold rdot in *. cbn [Rsum] in *.
    set (N2 := Rsum n _) in *. set (x := B2R (f n)) in *.
    assert (PN : 0 <= N2) by apply rdot_pos.
    assert (Px : 0 <= x * x) by (apply Rle_0_sqr).
    destruct IH as [Fs Es]; [lia|intros; apply F; lia|lra|].
    set (s := fsum n _) in *. cbn [fsum fadd F32]. fold s.
    set (B := bpow radix2 120) in *.
    assert (B127 : bpow radix2 127 = 128 * B).
    { unfold B. change 127%Z with (7 + 120)%Z. rewrite bpow_plus. cbn. lra. }
    assert (BB : 1 <= B). { unfold B. change 1 with (bpow radix2 0). apply bpow_le. lia. }
    pose proof eta_pos as E0. pose proof eta_small as E1.
    assert (E2 : eta <= u) by (unfold u in *; lra).
    assert (Hin : 0 <= INR n <= 3).
    { split; [apply pos_INR|]. replace 3 with (INR 3) by (cbn; lra). apply le_INR. lia. }
    rewrite !S_INR in *. set (k := INR n) in *. clearbody k.
    destruct (mult_ok (f n) (f n)) as [Fp Ep]; auto.
    { fold x. rewrite Rabs_pos_eq by auto. lra. }
    fold x in Ep. set (p := Bmult mode_NE (f n) (f n)) in *.
    destruct (rnd32_err (x * x)) as (e & h & He & Hh & Er). rewrite Er in Ep. clear Er.
    apply Rabs_le_inv in He. apply Rabs_le_inv in Hh.
    (* |p - x²| *)
    assert (Hp : Rabs (B2R p - x * x) <= u * (x * x) + eta).
    { rewrite Ep. replace (x * x * (1 + e) + h - x * x) with (e * (x * x) + h) by ring.
      apply Rabs_le. nra. }
    assert (Hsp : Rabs (B2R s + B2R p - (N2 + x * x)) <=
        ((k + 1) * (1001 / 1000) * u) * (N2 + x * x) + (3 * k + 1) * eta).
    { replace (B2R s + B2R p - (N2 + x * x)) with ((B2R s - N2) + (B2R p - x * x)) by ring.
      eapply Rle_trans; [apply Rabs_triang|].
      assert (u * (x * x) <= (k + 1) * (1001 / 1000) * u * (x * x)).
      { apply Rmult_le_compat_r; auto. unfold u. lra. }
      lra. }
    set (M := N2 + x * x) in *.
    assert (PM : 0 <= M) by (unfold M; lra).
    set (a := (k + 1) * (1001 / 1000) * u) in *.
    assert (Ha : 0 <= a <= / 1000000).
    { unfold a, u. split; lra. }
    assert (Hq : Rabs (B2R s + B2R p) <= bpow radix2 127).
    { apply Rabs_le_inv in Hsp. apply Rabs_le. rewrite B127.
      assert (a * M <= 1 * B) by (apply Rmult_le_compat; lra).
      assert ((3 * k + 1) * eta <= 10 * 1) by (apply Rmult_le_compat; unfold u in *; lra).
      lra. }
    destruct (plus_ok s p Fs Fp Hq) as [Ft Et]. split; [exact Ft|].
    rewrite Et. destruct (rnd32_err (B2R s + B2R p)) as (e2 & h2 & He2 & Hh2 & Er2). rewrite Er2.
    set (q := B2R s + B2R p) in *.
    replace (q * (1 + e2) + h2 - M) with ((q - M) * (1 + e2) + (e2 * M + h2)) by ring.
    eapply Rle_trans; [apply Rabs_triang|].
    assert (Rabs ((q - M) * (1 + e2)) <= (a * M + (3 * k + 1) * eta) * (1 + u)).
    { rewrite Rabs_mult. apply Rmult_le_compat; auto using Rabs_pos.
      apply Rabs_le_inv in He2. apply Rabs_le. unfold u in *; lra. }
    assert (Rabs (e2 * M + h2) <= u * M + eta).
    { eapply Rle_trans; [apply Rabs_triang|]. apply Rplus_le_compat; auto.
      rewrite Rabs_mult, (Rabs_pos_eq M) by auto. apply Rmult_le_compat_r; auto. }
    assert (a * M * (1 + u) + u * M <= (k + 1 + 1) * (1001 / 1000) * u * M).
    { replace (a * M * (1 + u) + u * M) with ((a * (1 + u) + u) * M) by ring.
      apply Rmult_le_compat_r; auto. unfold a, u. nra. }
    assert ((3 * k + 1) * eta * (1 + u) + eta <= 3 * (k + 1) * eta).
    { replace ((3 * k + 1) * eta * (1 + u) + eta) with (((3 * k + 1) * (1 + u) + 1) * eta) by ring.
      apply Rmult_le_compat_r; [lra|]. unfold u. lra. }
    lra.
Qed.

Lemma sqrt_close s N : 0 <= s -> 0 < N -> Rabs (sqrt s - N) <= Rabs (s - N * N) / N.
Proof.
  intros Hs HN. pose proof (sqrt_pos s) as P. pose proof (sqrt_sqrt s Hs) as E.
  set (r := sqrt s) in *. rewrite <- E.
  replace (r * r - N * N) with ((r - N) * (r + N)) by ring. rewrite Rabs_mult, (Rabs_pos_eq (r + N)) by lra.
  apply Rmult_le_reg_r with N; auto. unfold Rdiv. rewrite Rmult_assoc, Rinv_l, Rmult_1_r by lra.
  apply Rmult_le_compat_l; [apply Rabs_pos|lra].
Qed.

Lemma norm_err lm n (f : nat -> f32) : (n <= 4)%nat ->
  (forall i, (i < n)%nat -> is_finite (f i) = true) ->
  let N := rnorm n (fun i => B2R (f i)) in
  / 100000 <= N <= bpow radix2 60 ->
  let r := Bsqrt mode_NE (fsum (A := F32 lm) n (fun i => Bmult mode_NE (f i) (f i))) in
  is_finite r = true /\ Rabs (B2R r - N) <= 7 * u * N.
Proof.
  intros Hn F N [HN1 HN2] r.
  pose proof (rnorm_sqr n (fun i => B2R (f i))) as EN. fold N in EN.
  destruct (sumsq_err lm n f Hn F) as [Fs Es].
  { rewrite <- EN, <- big_60. apply Rmult_le_compat; lra. }
  fold r. set (s := fsum n _) in *. cbv zeta in Es. rewrite <- EN in Es.
  pose proof eta_pos as E0. pose proof eta_small as E1.
  assert (Hin : 0 <= INR n <= 4).
  { split; [apply pos_INR|]. replace 4 with (INR 4) by (cbn; lra). apply le_INR. lia. }
  rewrite S_INR in Es. set (k := INR n) in *. clearbody k.
  assert (PN : / 10000000000 <= N * N).
  { apply Rle_trans with (/ 100000 * / 100000); [lra|]. apply Rmult_le_compat; lra. }
  assert (Es' : Rabs (B2R s - N * N) <= 501 / 100 * u * (N * N)).
  { eapply Rle_trans; [exact Es|].
    assert ((k + 1) * (1001 / 1000) * u * (N * N) <= 5005 / 1000 * u * (N * N)).
    { apply Rmult_le_compat_r; [lra|]. unfold u. lra. }
    assert (3 * k * eta <= 12 * eta) by (apply Rmult_le_compat_r; lra).
    assert (12 * eta <= 5 / 1000 * u * (N * N)) by (unfold u in *; lra).
    lra. }
  assert (Ps : 0 < B2R s). { apply Rabs_le_inv in Es'. unfold u in *. lra. }
  destruct (sqrt_ok s Fs Ps) as [Fr Er]. split; [exact Fr|]. fold r in Er.
  assert (Hq : Rabs (sqrt (B2R s) - N) <= 501 / 100 * u * N).
  { eapply Rle_trans; [apply sqrt_close; lra|].
    apply Rmult_le_reg_r with N; [lra|]. unfold Rdiv. rewrite Rmult_assoc, Rinv_l, Rmult_1_r by lra. lra. }
  destruct (rnd32_err (sqrt (B2R s))) as (e & h & He & Hh & Ee). rewrite Er, Ee.
  set (q := sqrt (B2R s)) in *.
  replace (q * (1 + e) + h - N) with ((q - N) + (e * q + h)) by ring.
  eapply Rle_trans; [apply Rabs_triang|].
  assert (Rabs (e * q + h) <= u * (2 * N) + eta).
  { eapply Rle_trans; [apply Rabs_triang|]. apply Rplus_le_compat; auto.
    rewrite Rabs_mult. apply Rmult_le_compat; auto using Rabs_pos.
    apply Rabs_le_inv in Hq. apply Rabs_le. unfold u in *. lra. }
  assert (eta <= u * u * N) by (unfold u in *; lra).
  assert (u * u * N <= / 100 * u * N).
  { apply Rmult_le_compat_r; [lra|]. unfold u. lra. }
  assert (501 / 100 * u * N + (u * (2 * N) + / 100 * u * N) <= 703 / 100 * u * N) by lra.
  assert (Rabs (e * q + h) <= 12 / 10 * u * N + eta).
  { eapply Rle_trans; [apply Rabs_triang|]. apply Rplus_le_compat; auto.
    rewrite Rabs_mult. replace (12 / 10 * u * N) with (u * (12 / 10 * N)) by ring.
    apply Rmult_le_compat; auto using Rabs_pos.
    apply Rabs_le_inv in Hq. apply Rabs_le. unfold u in *. lra. }
  lra.
Qed.

Lemma eps32_val : is_finite (EPSILON (A := F32 lm_id)) = true /\
  / 20000 <= B2R (lit32 1 10000) <= / 9999.
Proof. split; [reflexivity|]. cbn. unfold F2R. cbn. lra. Qed.
Lemma eps32 lm : is_finite (EPSILON (A := F32 lm)) = true /\
  99 / 1000000 <= B2R (EPSILON (A := F32 lm) : f32) <= 101 / 1000000.
Proof. split; [reflexivity|]. cbn. unfold F2R. cbn. lra. Qed.

(** normalisation *)
Lemma rdot_bound n x i : (i < n)%nat -> x i * x i <= rdot n x x.
Proof.
  unfold rdot. induction n as [|n IH]; intros H; [lia|]. cbn.
  pose proof (rdot_pos n x) as P. unfold rdot in P. pose proof (Rle_0_sqr (x n)) as Q. unfold Rsqr in Q.
  destruct (Nat.eq_dec i n) as [->|]; [lra|]. assert (x i * x i <= Rsum n (fun t => x t * x t)) by (apply IH; lia). lra.
Qed.
Lemma rnorm_bound n x i : (i < n)%nat -> Rabs (x i) <= rnorm n x.
Proof.
  intros H. rewrite <- (sqrt_Rsqr_abs (x i)). apply sqrt_le_1_alt. apply rdot_bound; auto.
Qed.
Lemma Rsum_abs_le n g h a b : (forall i, (i < n)%nat -> Rabs (g i - h i) <= a * h i + b) ->
  Rabs (Rsum n g - Rsum n h) <= a * Rsum n h + INR n * b.
Proof.
  induction n as [|n IH]; intros H.
  - cbn. rewrite Rminus_0_r, Rabs_R0. lra.
  - cbn [Rsum]. rewrite S_INR.
    replace (Rsum n g + g n - (Rsum n h + h n)) with ((Rsum n g - Rsum n h) + (g n - h n)) by ring.
    eapply Rle_trans; [apply Rabs_triang|].
    pose proof (IH ltac:(intros; apply H; lia)). pose proof (H n ltac:(lia)). lra.
Qed.

Lemma normalize_core lm n (f : nat -> f32) : (n <= 4)%nat ->
  let N := rnorm n (fun i => B2R (f i)) in
  let A := F32 lm in
  let r := fsqrt (fsum n (fun i => f i * f i)%F) in
  (forall i, (i < n)%nat -> is_finite (f i) = true) ->
  / 100000 <= N -> is_finite (r : f32) = true -> Rabs (B2R (r : f32) - N) <= 7 * u * N ->
  (forall i, (i < n)%nat -> is_finite (f i / r : T)%F = true) /\
  Rabs (rnorm n (fun i => B2R (f i / r : T)%F) - 1) < / 1000000 /\
  (forall i, (i < n)%nat -> Rabs (B2R (f i / r : T)%F - B2R (f i) / N) <= / 1000000).
Proof.
  intros Hn N A r F HN Fr Er.
  set (R := B2R (r : f32)) in *.
  apply Rabs_le_inv in Er.
  assert (HRN : 99 / 100 * N <= R <= 101 / 100 * N).
  { unfold u in Er. lra. }
  assert (Er2 : Rabs (R - N) <= 7 * u * N) by (apply Rabs_le; lra).
  pose proof eta_pos as E0. pose proof eta_small as E1.
  assert (D : forall i, (i < n)%nat -> is_finite (f i / r : T)%F = true /\
     Rabs (B2R (f i / r : T)%F - B2R (f i) / N) <= 81 / 10 * u * Rabs (B2R (f i) / N) + eta).
  { intros i Hi. change (@fdiv A (f i) r) with (Bdiv mode_NE (f i) (r : f32)).
    pose proof (rnorm_bound n (fun i => B2R (f i)) i Hi) as B. cbv beta in B. fold N in B.
    set (x := B2R (f i)) in *.
    assert (Hxr : Rabs (x / R) <= 2).
    { unfold Rdiv. rewrite Rabs_mult, Rabs_inv, (Rabs_pos_eq R) by lra.
      apply Rmult_le_reg_r with R; [lra|]. rewrite Rmult_assoc, Rinv_l, Rmult_1_r by lra. lra. }
    destruct (div_ok (f i) r) as [Fd Ed]; auto; fold R x.
    { lra. }
    { eapply Rle_trans; [exact Hxr|]. change 2 with (bpow radix2 1). apply bpow_le. lia. }
    split; [exact Fd|]. rewrite Ed. fold R x.
    destruct (rnd32_err (x / R)) as (e & h & He & Hh & ->).
    set (t := x / N). assert (Et : x = t * N) by (unfold t; field; lra).
    (* x/R = t * (N/R) *)
    assert (Exr : x / R - t = t * ((N - R) / R)) by (rewrite Et; field; lra).
    assert (HNR : Rabs ((N - R) / R) <= 708 / 100 * u).
    { unfold Rdiv. rewrite Rabs_mult, Rabs_inv, (Rabs_pos_eq R) by lra.
      rewrite Rabs_minus_sym. apply Rmult_le_reg_r with R; [lra|]. rewrite Rmult_assoc, Rinv_l, Rmult_1_r by lra.
      assert (708 / 100 * u * (989 / 1000 * N) <= 708 / 100 * u * R) by (apply Rmult_le_compat_l; unfold u; lra).
      assert (7 * u * N <= 708 / 100 * u * (989 / 1000 * N)).
      { unfold u. lra. }
      lra. }
    replace (x / R * (1 + e) + h - t) with ((x / R - t) * (1 + e) + (e * t + h)) by ring.
    eapply Rle_trans; [apply Rabs_triang|].
    assert (Rabs ((x / R - t) * (1 + e)) <= 709 / 100 * u * Rabs t).
    { rewrite Exr, !Rabs_mult.
      assert (Rabs (1 + e) <= 1 + u). { apply Rabs_le_inv in He. apply Rabs_le. unfold u in *. lra. }
      pose proof (Rabs_pos t) as Pt.
      assert (Rabs ((N - R) / R) * Rabs (1 + e) <= 708 / 100 * u * (1 + u)).
      { apply Rmult_le_compat; auto using Rabs_pos. }
      rewrite Rmult_assoc. rewrite (Rmult_comm (Rabs t)). apply Rmult_le_compat_r; auto.
      eapply Rle_trans; [eassumption|]. unfold u. lra. }
    assert (Rabs (e * t + h) <= u * Rabs t + eta).
    { eapply Rle_trans; [apply Rabs_triang|]. apply Rplus_le_compat; auto.
      rewrite Rabs_mult. apply Rmult_le_compat_r; auto using Rabs_pos. }
    pose proof (Rabs_pos t) as Pt.
    assert (0 <= u * Rabs t) by (apply Rmult_le_pos; [unfold u; lra|auto]). lra. }
  assert (Bt : forall i, (i < n)%nat -> Rabs (B2R (f i) / N) <= 1).
  { intros i Hi. pose proof (rnorm_bound n (fun i => B2R (f i)) i Hi) as B. cbv beta in B. fold N in B.
    unfold Rdiv. rewrite Rabs_mult, Rabs_inv, (Rabs_pos_eq N) by lra.
    apply Rmult_le_reg_r with N; [lra|]. rewrite Rmult_assoc, Rinv_l, Rmult_1_r by lra. lra. }
  split; [intros i Hi; apply (D i Hi)|]. split.
  2:{ intros i Hi. destruct (D i Hi) as [_ Di]. specialize (Bt i Hi).
      eapply Rle_trans; [exact Di|]. unfold u in *. lra. }
  set (y := fun i => B2R (@fdiv A (f i) r : f32)). set (t := fun i => B2R (f i) / N).
  assert (St : rdot n t t = 1).
  { unfold t, rdot. rewrite (Rsum_ext n _ (fun i => / (N * N) * (B2R (f i) * B2R (f i)))).
    - rewrite Rsum_scal. pose proof (rnorm_sqr n (fun i => B2R (f i))) as EN. fold N in EN. unfold rdot in EN.
      rewrite <- EN. field. lra.
    - intros. field. lra. }
  assert (Sy : Rabs (rdot n y y - 1) <= 163 / 10 * u + INR n * (4 * eta)).
  { rewrite <- St. unfold rdot.
    eapply Rle_trans; [apply (Rsum_abs_le n _ (fun i => t i * t i) (163 / 10 * u) (4 * eta))|].
    - intros i Hi. destruct (D i Hi) as [_ Di]. specialize (Bt i Hi). fold (y i) (t i) in Di, Bt.
      change (B2R (f i) / N) with (t i) in *.
      replace (y i * y i - t i * t i) with ((y i - t i) * ((y i - t i) + 2 * t i)) by ring.
      rewrite Rabs_mult. pose proof (Rabs_pos (t i)) as Pt. pose proof (Rabs_pos (y i - t i)) as Pd.
      set (d := Rabs (y i - t i)) in *. set (w := Rabs (t i)) in *.
      assert (Hw : t i * t i = w * w). { unfold w. rewrite <- Rabs_mult. symmetry. apply Rabs_pos_eq. apply Rle_0_sqr. }
      rewrite Hw.
      assert (Rabs (y i - t i + 2 * t i) <= d + 2 * w).
      { eapply Rle_trans; [apply Rabs_triang|]. rewrite Rabs_mult, (Rabs_pos_eq 2) by lra. unfold d, w. lra. }
      apply Rle_trans with (d * (d + 2 * w)); [apply Rmult_le_compat_l; auto|].
      assert (d * (d + 2 * w) <= (81 / 10 * u * w + eta) * (81 / 10 * u * w + eta + 2 * w)).
      { apply Rmult_le_compat; lra. }
      assert (Hww : 0 <= w * w) by (apply Rle_0_sqr).
      assert (HU : 0 <= u <= / 10000000) by (unfold u; lra).
      assert ((81 / 10 * u * w + eta) * (81 / 10 * u * w + eta + 2 * w) =
        (81 / 10 * u) * (81 / 10 * u + 2) * (w * w) + eta * (2 * (81 / 10 * u) * w + eta + 2 * w)) as EQ by ring.
      assert ((81 / 10 * u) * (81 / 10 * u + 2) * (w * w) <= 163 / 10 * u * (w * w)).
      { apply Rmult_le_compat_r; auto. unfold u. lra. }
      assert (2 * (81 / 10 * u) * w + eta + 2 * w <= 4).
      { assert (u * w <= / 10000000 * 1) by (apply Rmult_le_compat; lra). unfold u in *. lra. }
      assert (eta * (2 * (81 / 10 * u) * w + eta + 2 * w) <= eta * 4) by (apply Rmult_le_compat_l; lra).
      lra.
    - fold (rdot n t t). rewrite St. lra. }
  assert (Hin : 0 <= INR n <= 4).
  { split; [apply pos_INR|]. replace 4 with (INR 4) by (cbn; lra). apply le_INR. lia. }
  assert (INR n * (4 * eta) <= 4 * (4 * eta)) by (apply Rmult_le_compat_r; lra).
  pose proof (sqrt_close (rdot n y y) 1 (rdot_pos n y) Rlt_0_1) as C.
  rewrite Rmult_1_l in C. unfold Rdiv in C. rewrite Rinv_1, Rmult_1_r in C. fold (rnorm n y) in C.
  eapply Rle_lt_trans; [exact C|]. eapply Rle_lt_trans; [exact Sy|]. unfold u in *. lra.
Qed.

Lemma normalize_err lm n (f : nat -> f32) : (n <= 4)%nat ->
  (forall i, (i < n)%nat -> is_finite (f i) = true) ->
  let N := rnorm n (fun i => B2R (f i)) in
  2 * eps <= N <= bpow radix2 60 ->
  let A := F32 lm in
  let r := fsqrt (fsum n (fun i => f i * f i)%F) in
  let nn := flush r in
  (nn >? EPSILON)%F = true /\
  (forall i, (i < n)%nat -> is_finite (f i / nn : T)%F = true) /\
  Rabs (rnorm n (fun i => B2R (f i / nn : T)%F) - 1) < / 1000000 /\
  (forall i, (i < n)%nat -> Rabs (B2R (f i / nn : T)%F - B2R (f i) / N) <= / 1000000).
Proof.
  intros Hn F N HN A r nn. unfold eps in HN.
  destruct (norm_err lm n f Hn F ltac:(fold N; lra)) as [Fr Er]. fold N in Er.
  change (is_finite (r : f32) = true) in Fr.
  change (Rabs (B2R (r : f32) - N) <= 7 * u * N) in Er.
  destruct (eps32 lm) as [Fe Ee].
  destruct (normalize_core lm n f Hn F ltac:(fold N; lra) Fr Er) as (D1 & D2 & D3). fold A in D1, D2, D3. fold r in D1, D2, D3.
  set (R := B2R (r : f32)) in *. apply Rabs_le_inv in Er.
  assert (HRN : 99 / 100 * N <= R <= 101 / 100 * N).
  { unfold u in Er. lra. }
  assert (Enn : nn = r).
  { unfold nn, flush. change (@fleb A r EPSILON) with (Bleb (r : f32) (EPSILON (A := A))).
    rewrite Bleb_ok by auto. fold R. rewrite Rle_bool_false by (unfold A in *; lra). reflexivity. }
  rewrite Enn. split; [|split; [exact D1|split; [exact D2|exact D3]]].
  change (@fltb A EPSILON r) with (Bltb (EPSILON (A := A) : f32) r).
  rewrite Bltb_ok by auto. fold R. apply Rlt_bool_true. unfold A in *; lra.
Qed.
