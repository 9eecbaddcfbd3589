(** C28: normalisation in f32. *)
(*@+*)
From Coq Require Import List Arith ZArith Reals Lia Bool Lra.
From Flocq Require Import Core BinarySingleNaN.
From Verif Require Import M_Base M_Arith M_Utils M_Vector M_Matrix M_Quaternion M_F32 M_RX S_Spec S_Linalg S_Norm P_Inst.
Import ListNotations.
Local Open Scope R_scope.
(*@-*)
From Verif Require Import P_Hoare P_Cont P_Loops P_Access P_Pointwise P_Trans P_Float P_Product P_Dot P_Norm P_FErr.

Lemma q_guard_is {A : Arith} (q : Vec T) n f : vec_is q n f ->
  q_guard q = if (n =? 4)%nat then Ok tt else Err InvalidSize.
Proof.
  intros H. unfold q_guard, q_is_quaternion. rewrite (v_get_rows_is _ _ _ H). cbn [rbind].
  destruct (n =? 4)%nat; reflexivity.
Qed.

(*@ C28_normalize_f32 *)
(** C28: for every finite f32 vector whose true norm is between 2*EPSILON and 2^60,
    [normalize] succeeds, the true norm of the result is within 1e-6 of 1 and every
    component is within 1e-6 of the true one. *)
Lemma l_normalize32 :
  forall (lm : Libm), let A := F32 lm in
  forall (v : Vec T) (n : nat) (f : nat -> T), vec_is v n f ->
  let N := rnorm n (fun i => B2R (f i : f32)) in
  2 * eps <= N <= bpow radix2 60 ->
  exists v' g, v_normalize v = (v', Ok tt) /\ vec_is v' n g /\
    Rabs (rnorm n (fun i => B2R (g i : f32)) - 1) < / 1000000 /\
    forall i, (i < n)%nat -> Rabs (B2R (g i : f32) - B2R (f i : f32) / N) <= / 1000000.
Proof.
  intros lm A v n f Hv N HN.
  assert (F : forall i, (i < n)%nat -> is_finite (f i : f32) = true).
  { intros i Hi. apply (valid_finite lm). eapply vec_is_valid; eauto. }
  destruct (vec_is_dim _ _ _ Hv) as [D1 D2].
  destruct (normalize_err lm n f D2 F HN) as (H1 & H2 & H3 & H4).
  pose proof (v_normalize_pw v n f Hv) as P. cbv zeta in P. cbv zeta in H1, H2, H3, H4. fold A in H1, H2, H3, H4.
  rewrite H1 in P. apply pointwise_v_ok in P.
  - destruct P as (v' & E & Hv'). exists v'. eexists. split; [exact E|]. split; [exact Hv'|]. split; [exact H3|exact H4].
  - intros i Hi. apply (valid_finite lm). apply H2, Hi.
Qed.

Lemma B2R_f1 lm : B2R (f1 (A := F32 lm) : f32) = 1.
Proof. apply B2R_one. Qed.

(*@ C28_versor *)
(** C28: every quaternion whose true norm is within 1e-6 of 1 passes [is_versor]; in particular
    every normalised one *)
Lemma l_versor32 :
  forall (lm : Libm), let A := F32 lm in
  forall (q : Vec T) (f : nat -> T), vec_is q 4 f ->
  Rabs (rnorm 4 (fun i => B2R (f i : f32)) - 1) < / 1000000 ->
  q_is_versor q = Ok true.
Proof.
  intros lm A q f Hq HN. subst A. apply Rabs_def2 in HN.
  assert (F : forall i, (i < 4)%nat -> is_finite (f i : f32) = true).
  { intros i Hi. apply (valid_finite lm). eapply vec_is_valid; eauto. }
  assert (HB : 2 <= bpow radix2 60). { change 2 with (bpow radix2 1). apply bpow_le. lia. }
  destruct (norm_err lm 4 f ltac:(lia) F ltac:(cbv zeta; lra)) as [Fr Er]. cbv zeta in Er.
  set (N := rnorm 4 _) in *.
  unfold q_is_versor. rewrite (q_guard_is _ _ _ Hq). cbn [Nat.eqb rbind].
  rewrite (v_norm_is _ _ _ Hq). cbn [rbind].
  set (r := fsqrt (fsum 4 (fun i => (f i * f i)%F))).
  change (is_finite (r : f32) = true) in Fr.
  change (Rabs (B2R (r : f32) - N) <= 7 * u * N) in Er.
  destruct (eps32 lm) as [Fe Ee].
  assert (HR : Rabs (B2R (r : f32) - 1) <= 3 / 1000000).
  { apply Rabs_le_inv in Er. apply Rabs_le. unfold u in Er. lra. }
  apply Rabs_le_inv in HR.
  assert (Enn : flush r = r).
  { unfold flush. change (@fleb (F32 lm) r EPSILON) with (Bleb (r : f32) (EPSILON (A := F32 lm))).
    rewrite Bleb_ok by auto. rewrite Rle_bool_false by (lra). reflexivity. }
  rewrite Enn. unfold allclose_l, allclose.
  rewrite is_valid_value_ok by (apply (valid_finite lm); auto).
  rewrite is_valid_value_ok by (apply (ok_f1 (A := F32 lm))). cbn [rbind map_err]. f_equal.
  destruct (minus_ok (r : f32) (f1 (A := F32 lm))) as [Fm Em]; auto.
  { rewrite (B2R_f1 lm). apply Rabs_le.
    assert (1 <= bpow radix2 127) by (change 1 with (bpow radix2 0); apply bpow_le; lia). lra. }
  change (@fleb (F32 lm) (@fabs (F32 lm) (@fsub (F32 lm) r f1)) EPSILON) with (Bleb (Babs (Bminus mode_NE (r : f32) (f1 (A := F32 lm)))) (EPSILON (A := F32 lm))).
  rewrite Bleb_ok; [|rewrite is_finite_Babs; auto|auto].
  rewrite B2R_Babs, Em, (B2R_f1 lm). apply Rle_bool_true.
  destruct (rnd32_err (B2R (r : f32) - 1)) as (e & h & He & Hh & ->).
  apply Rabs_le_inv in He. apply Rabs_le_inv in Hh.
  pose proof eta_small as E1. pose proof eta_pos as E0.
  apply Rle_trans with (9 / 1000000); [|lra].
  assert (Rabs ((B2R (r : f32) - 1) * (1 + e)) <= 3 / 1000000 * 2).
  { rewrite Rabs_mult. apply Rmult_le_compat; auto using Rabs_pos; apply Rabs_le; unfold u in *; lra. }
  eapply Rle_trans; [apply Rabs_triang|]. assert (Rabs h <= / 1000000) by (apply Rabs_le; unfold u in *; lra). lra.
Qed.

(*@ C28_normalized_is_versor *)
(** C28: after [normalize] a quaternion passes [is_versor] *)
Lemma l_normalized_versor :
  forall (lm : Libm), let A := F32 lm in
  forall (q : Vec T) (f : nat -> T), vec_is q 4 f ->
  2 * eps <= rnorm 4 (fun i => B2R (f i : f32)) <= bpow radix2 60 ->
  exists q', v_normalize q = (q', Ok tt) /\ q_is_versor q' = Ok true.
Proof.
  intros lm A q f Hq HN. destruct (l_normalize32 lm q 4 f Hq HN) as (q' & g & E & H & N & _).
  exists q'. split; [exact E|]. eapply l_versor32; eauto.
Qed.

(** ** overflow of the squared norm *)
Definition nonneg (s : f32) : Prop := s = B754_infinity false \/ (is_finite s = true /\ 0 <= B2R s).
Lemma sign_pos (x : f32) : is_finite x = true -> 0 < B2R x -> Bsign x = false.
Proof.
  destruct x as [| | |[] m e H]; cbn; try discriminate; try lra; auto.
  intros _ Hx. exfalso. unfold F2R in Hx. cbn in Hx. pose proof (bpow_gt_0 radix2 e).
  assert (IZR (Z.neg m) < 0) by (apply IZR_lt; lia). nra.
Qed.
Lemma B2SF_inf (x : f32) s : B2SF x = SpecFloat.S754_infinity s -> x = B754_infinity s.
Proof. destruct x; cbn; congruence. Qed.
Lemma nonneg_plus x y : nonneg x -> nonneg y -> nonneg (Bplus mode_NE x y) /\
  (x = B754_infinity false \/ y = B754_infinity false -> Bplus mode_NE x y = B754_infinity false).
Proof.
  intros [->|[Fx Hx]] [->|[Fy Hy]].
  - split; [left|]; reflexivity.
  - destruct y; try discriminate; (split; [left|]; reflexivity).
  - destruct x; try discriminate; (split; [left|]; reflexivity).
  - split; [|intros [->| ->]; discriminate].
    pose proof (Bplus_correct prec emax _ _ mode_NE x y Fx Fy) as C. cbn [round_mode] in C.
    destruct (Rlt_bool_spec (Rabs (rnd32 (B2R x + B2R y))) (bpow radix2 emax)) as [L|L].
    + right. destruct C as (C1 & C2 & _). split; auto. rewrite C1.
      apply round_ge_generic; [apply fexp_correct; reflexivity|auto with typeclass_instances|apply generic_format_0|lra].
    + left. destruct C as [C1 C2]. apply B2SF_inf. rewrite C1.
      assert (Bsign x = false) as ->; [|reflexivity].
      destruct (Rle_lt_or_eq_dec _ _ Hx) as [P|P]; [apply sign_pos; auto|].
      destruct (Rle_lt_or_eq_dec _ _ Hy) as [P'|P']; [rewrite C2; apply sign_pos; auto|].
      exfalso. rewrite <- P, <- P', Rplus_0_r in L. rewrite round_0 in L by auto with typeclass_instances.
      rewrite Rabs_R0 in L. pose proof (bpow_gt_0 radix2 emax). lra.
Qed.
Lemma Bsqr x : is_finite x = true -> nonneg (Bmult mode_NE x x) /\
  (bpow radix2 64 <= Rabs (B2R x) -> Bmult mode_NE x x = B754_infinity false).
Proof.
  intros Fx. pose proof (Bmult_correct prec emax _ _ mode_NE x x) as C. cbn [round_mode] in C.
  rewrite xorb_nilpotent in C.
  destruct (Rlt_bool_spec (Rabs (rnd32 (B2R x * B2R x))) (bpow radix2 emax)) as [L|L].
  - destruct C as (C1 & C2 & _). rewrite Fx in C2. split.
    + right. split; auto. rewrite C1.
      apply round_ge_generic; [apply fexp_correct; reflexivity|auto with typeclass_instances|apply generic_format_0|].
      apply Rle_0_sqr.
    + intros H. exfalso. apply Rlt_not_le in L. apply L.
      change emax with (128)%Z. rewrite <- round_NE_abs by (apply fexp_correct; reflexivity).
      apply Rle_trans with (rnd32 (bpow radix2 128)).
      * rewrite round_generic; [apply Rle_refl|auto with typeclass_instances|].
        apply generic_format_bpow. unfold SpecFloat.fexp, SpecFloat.emin, prec, emax. lia.
      * apply round_le; [apply fexp_correct; reflexivity|auto with typeclass_instances|].
        rewrite Rabs_mult. change 128%Z with (64 + 64)%Z. rewrite bpow_plus.
        apply Rmult_le_compat; auto using bpow_ge_0.
  - split; [left|intros _]; apply B2SF_inf; exact C.
Qed.

(*@ C28_overflow *)
(** C28, violation: every finite vector with a component of magnitude 2^64 (about 1.8e19) or more
    is silently replaced by zeros, with the outcome Ok. *)
Lemma l_norm_overflow :
  forall (lm : Libm), let A := F32 lm in
  forall (v : Vec T) (n : nat) (f : nat -> T) (k : nat), vec_is v n f -> (k < n)%nat ->
  bpow radix2 64 <= Rabs (B2R (f k : f32)) ->
  exists v' g, v_normalize v = (v', Ok tt) /\ vec_is v' n g /\
    forall i, (i < n)%nat -> B2R (g i : f32) = 0.
Proof.
  intros lm A v n f k Hv Hk Hbig.
  assert (F : forall i, (i < n)%nat -> is_finite (f i : f32) = true).
  { intros i Hi. apply (valid_finite lm). eapply vec_is_valid; eauto. }
  assert (S : forall m, (m <= n)%nat -> nonneg (fsum m (fun i => f i * f i)%F) /\
     ((k < m)%nat -> fsum m (fun i => f i * f i)%F = B754_infinity false)).
  { induction m as [|m IH]; intros Hm.
    - split; [|lia]. right. split; [reflexivity|]. cbn. lra.
    - destruct (IH ltac:(lia)) as [I1 I2]. destruct (Bsqr (f m) (F m ltac:(lia))) as [Q1 Q2].
      destruct (nonneg_plus _ _ I1 Q1) as [P1 P2]. split; [exact P1|]. intros Hkm. apply P2.
      destruct (Nat.eq_dec k m) as [<-|]; [right; auto|left; apply I2; lia]. }
  destruct (S n (Nat.le_refl n)) as [_ Sn]. specialize (Sn Hk).
  pose proof (v_normalize_pw v n f Hv) as P. cbv zeta in P. rewrite Sn in P.
  assert (E : flush (A := A) (fsqrt (B754_infinity false : T)) = (B754_infinity false : T)) by reflexivity.
  rewrite E in P.
  assert (E2 : (@fltb A EPSILON (B754_infinity false)) = true) by reflexivity. rewrite E2 in P.
  assert (Z : forall i, (i < n)%nat -> exists s, (@fdiv A (f i) (B754_infinity false)) = B754_zero s).
  { intros i Hi. specialize (F i Hi). change (@fdiv A) with (Bdiv (prec := prec) (emax := emax) mode_NE).
    destruct (f i) as [| | |]; try discriminate; cbn; eauto. }
  apply pointwise_v_ok in P.
  - destruct P as (v' & Ev & Hv'). exists v'. eexists. split; [exact Ev|]. split; [exact Hv'|].
    intros i Hi. destruct (Z i Hi) as [s ->]. reflexivity.
  - intros i Hi. destruct (Z i Hi) as [s ->]. split; reflexivity.
Qed.

(** ** every finite vector *)
Lemma plus_fin x y : is_finite x = true -> is_finite y = true -> is_finite (Bplus mode_NE x y) = true ->
  B2R (Bplus mode_NE x y) = rnd32 (B2R x + B2R y).
Proof.
  intros Fx Fy H. pose proof (Bplus_correct prec emax _ _ mode_NE x y Fx Fy) as C. cbn [round_mode] in C.
  destruct (Rlt_bool (Rabs (rnd32 (B2R x + B2R y))) (bpow radix2 emax)); [tauto|].
  destruct C as [C _]. rewrite <- is_finite_SF_B2SF, C in H. discriminate.
Qed.
Lemma mult_fin x y : is_finite (Bmult mode_NE x y) = true ->
  B2R (Bmult mode_NE x y) = rnd32 (B2R x * B2R y).
Proof.
  intros H. pose proof (Bmult_correct prec emax _ _ mode_NE x y) as C. cbn [round_mode] in C.
  destruct (Rlt_bool (Rabs (rnd32 (B2R x * B2R y))) (bpow radix2 emax)); [tauto|].
  rewrite <- is_finite_SF_B2SF, C in H. discriminate.
Qed.
Lemma plus_fin_inv x y : is_finite (Bplus mode_NE x y) = true -> is_finite x = true /\ is_finite y = true.
Proof. destruct x as [| [] | |], y as [| [] | |]; cbn; auto; discriminate. Qed.

Lemma sumsq_fin lm n (f : nat -> f32) : (n <= 4)%nat ->
  let N2 := rdot n (fun i => B2R (f i)) (fun i => B2R (f i)) in
  let s := fsum (A := F32 lm) n (fun i => Bmult mode_NE (f i) (f i)) in
  is_finite s = true ->
  Rabs (B2R s - N2) <= INR (S n) * (1001 / 1000) * u * N2 + 3 * INR n * eta.
Proof.
  intros Hn. cbv zeta. induction n as [|n IH]; intros HF.
  - cbn. rewrite Rminus_0_r, Rabs_R0. unfold u. lra.
  - unfold rdot in *. cbn [Rsum] in *.
    set (N2 := Rsum n _) in *. set (x := B2R (f n)) in *.
    assert (PN : 0 <= N2) by apply rdot_pos.
    assert (Px : 0 <= x * x) by (apply Rle_0_sqr).
    cbn [fsum fadd F32] in *. set (s := fsum n _) in *.
    destruct (plus_fin_inv _ _ HF) as [Fs Fp].
    specialize (IH ltac:(lia) Fs). rename IH into Es.
    pose proof eta_pos as E0. pose proof eta_small as E1.
    assert (E2 : eta <= u) by (unfold u in *; lra).
    assert (Hin : 0 <= INR n <= 3).
    { split; [apply pos_INR|]. replace 3 with (INR 3) by (cbn; lra). apply le_INR. lia. }
    rewrite !S_INR in *. set (k := INR n) in *. clearbody k.
    pose proof (mult_fin _ _ Fp) as Ep.
    fold x in Ep. set (p := Bmult mode_NE (f n) (f n)) in *.
    destruct (rnd32_err (x * x)) as (e & h & He & Hh & Er). rewrite Er in Ep. clear Er.
    apply Rabs_le_inv in He. apply Rabs_le_inv in Hh.
    assert (Hp : Rabs (B2R p - x * x) <= u * (x * x) + eta).
    { rewrite Ep. replace (x * x * (1 + e) + h - x * x) with (e * (x * x) + h) by ring.
      apply Rabs_le. nra. }
    assert (Hsp : Rabs (B2R s + B2R p - (N2 + x * x)) <=
        ((k + 1) * (1001 / 1000) * u) * (N2 + x * x) + (3 * k + 1) * eta).
    { replace (B2R s + B2R p - (N2 + x * x)) with ((B2R s - N2) + (B2R p - x * x)) by ring.
      eapply Rle_trans; [apply Rabs_triang|].
      assert (u * (x * x) <= (k + 1) * (1001 / 1000) * u * (x * x)).
      { apply Rmult_le_compat_r; auto. unfold u. lra. }
      lra. }
    set (M := N2 + x * x) in *.
    assert (PM : 0 <= M) by (unfold M; lra).
    set (a := (k + 1) * (1001 / 1000) * u) in *.
    assert (Ha : 0 <= a <= / 1000000).
    { unfold a, u. split; lra. }
    rewrite (plus_fin s p Fs Fp HF).
    destruct (rnd32_err (B2R s + B2R p)) as (e2 & h2 & He2 & Hh2 & Er2). rewrite Er2.
    set (q := B2R s + B2R p) in *.
    replace (q * (1 + e2) + h2 - M) with ((q - M) * (1 + e2) + (e2 * M + h2)) by ring.
    eapply Rle_trans; [apply Rabs_triang|].
    assert (Rabs ((q - M) * (1 + e2)) <= (a * M + (3 * k + 1) * eta) * (1 + u)).
    { rewrite Rabs_mult. apply Rmult_le_compat; auto using Rabs_pos.
      apply Rabs_le_inv in He2. apply Rabs_le. unfold u in *; lra. }
    assert (Rabs (e2 * M + h2) <= u * M + eta).
    { eapply Rle_trans; [apply Rabs_triang|]. apply Rplus_le_compat; auto.
      rewrite Rabs_mult, (Rabs_pos_eq M) by auto. apply Rmult_le_compat_r; auto. }
    assert (a * M * (1 + u) + u * M <= (k + 1 + 1) * (1001 / 1000) * u * M).
    { replace (a * M * (1 + u) + u * M) with ((a * (1 + u) + u) * M) by ring.
      apply Rmult_le_compat_r; auto. unfold a, u. nra. }
    assert ((3 * k + 1) * eta * (1 + u) + eta <= 3 * (k + 1) * eta).
    { replace ((3 * k + 1) * eta * (1 + u) + eta) with (((3 * k + 1) * (1 + u) + 1) * eta) by ring.
      apply Rmult_le_compat_r; [lra|]. unfold u. lra. }
    lra.
Qed.

(** a computed norm that is finite and exceeds 9e-5 is accurate *)
Lemma norm_fin lm n (f : nat -> f32) : (n <= 4)%nat ->
  let N := rnorm n (fun i => B2R (f i)) in
  let s := fsum (A := F32 lm) n (fun i => Bmult mode_NE (f i) (f i)) in
  is_finite s = true -> 9 / 100000 <= B2R (Bsqrt mode_NE s) ->
  / 100000 <= N /\ is_finite (Bsqrt mode_NE s) = true /\ Rabs (B2R (Bsqrt mode_NE s) - N) <= 7 * u * N.
Proof.
  intros Hn N s Fs Hr.
  pose proof (rnorm_sqr n (fun i => B2R (f i))) as EN. fold N in EN.
  assert (N0 : 0 <= N) by apply sqrt_pos.
  pose proof (sumsq_fin lm n f Hn Fs) as Es. fold s in Es. rewrite <- EN in Es.
  pose proof eta_pos as E0. pose proof eta_small as E1.
  assert (Hin : 0 <= INR n <= 4).
  { split; [apply pos_INR|]. replace 4 with (INR 4) by (cbn; lra). apply le_INR. lia. }
  rewrite S_INR in Es. set (k := INR n) in *. clearbody k.
  assert (NN : 0 <= N * N) by (apply Rmult_le_pos; auto).
  assert (Es1 : Rabs (B2R s - N * N) <= 5005 / 1000 * u * (N * N) + 12 * eta).
  { eapply Rle_trans; [exact Es|]. apply Rplus_le_compat.
    - apply Rmult_le_compat_r; [lra|]. unfold u. lra.
    - apply Rmult_le_compat_r; lra. }
  assert (Ps : 0 < B2R s).
  { destruct (Rlt_dec 0 (B2R s)) as [|Z]; [assumption|exfalso]. apply Rnot_lt_le in Z.
    assert (B2R (Bsqrt mode_NE s) = 0); [|lra].
    pose proof (Bsqrt_correct prec emax _ _ mode_NE s) as (C & _). rewrite C. rewrite (sqrt_neg_0 _ Z).
    apply round_0. auto with typeclass_instances. }
  destruct (sqrt_ok s Fs Ps) as [Fr Er].
  destruct (rnd32_err (sqrt (B2R s))) as (e & h & He & Hh & Ee). rewrite Ee in Er.
  assert (Hq0 : 8 / 100000 <= sqrt (B2R s)).
  { pose proof (sqrt_pos (B2R s)). set (q := sqrt (B2R s)) in *. apply Rabs_le_inv in He. apply Rabs_le_inv in Hh. rewrite Er in Hr.
    assert (q * (1 + e) <= q * (1 + u)) by (apply Rmult_le_compat_l; lra). unfold u in *. lra. }
  assert (Hs0 : 64 / 10000000000 <= B2R s).
  { rewrite <- (sqrt_sqrt (B2R s)) by lra. apply Rle_trans with (8 / 100000 * (8 / 100000)); [lra|]. apply Rmult_le_compat; lra. }
  assert (HN : / 100000 <= N).
  { destruct (Rle_dec (/ 100000) N) as [|Z]; [assumption|exfalso]. apply Rnot_le_lt in Z.
    assert (N * N <= / 100000 * / 100000) by (apply Rmult_le_compat; lra).
    apply Rabs_le_inv in Es1. unfold u in *. lra. }
  split; [exact HN|]. split; [exact Fr|]. rewrite Er.
  assert (PN : / 10000000000 <= N * N).
  { apply Rle_trans with (/ 100000 * / 100000); [lra|]. apply Rmult_le_compat; lra. }
  assert (Es' : Rabs (B2R s - N * N) <= 501 / 100 * u * (N * N)).
  { eapply Rle_trans; [exact Es1|]. assert (12 * eta <= 5 / 1000 * u * (N * N)) by (unfold u in *; lra). lra. }
  assert (Hq : Rabs (sqrt (B2R s) - N) <= 501 / 100 * u * N).
  { eapply Rle_trans; [apply sqrt_close; lra|].
    apply Rmult_le_reg_r with N; [lra|]. unfold Rdiv. rewrite Rmult_assoc, Rinv_l, Rmult_1_r by lra. lra. }
  set (q := sqrt (B2R s)) in *.
  replace (q * (1 + e) + h - N) with ((q - N) + (e * q + h)) by ring.
  eapply Rle_trans; [apply Rabs_triang|].
  assert (Rabs (e * q + h) <= 12 / 10 * u * N + eta).
  { eapply Rle_trans; [apply Rabs_triang|]. apply Rplus_le_compat; auto.
    rewrite Rabs_mult. replace (12 / 10 * u * N) with (u * (12 / 10 * N)) by ring.
    apply Rmult_le_compat; auto using Rabs_pos.
    apply Rabs_le_inv in Hq. apply Rabs_le. unfold u in *. lra. }
  assert (eta <= u * u * N) by (unfold u in *; lra).
  assert (u * u * N <= / 100 * u * N).
  { apply Rmult_le_compat_r; [lra|]. unfold u. lra. }
  lra.
Qed.

Lemma nonneg_fsum lm n (f : nat -> f32) : (forall i, (i < n)%nat -> is_finite (f i) = true) ->
  nonneg (fsum (A := F32 lm) n (fun i => Bmult mode_NE (f i) (f i))).
Proof.
  induction n as [|n IH]; intros F.
  - right. split; [reflexivity|]. cbn. lra.
  - apply nonneg_plus; [apply IH; intros; apply F; lia|]. apply Bsqr, F. lia.
Qed.

(*@ C28_normalize_total *)
(** C28: for EVERY finite f32 vector, however large or small, [normalize] succeeds and the result
    has a true norm within 1e-6 of 1 or is exactly zero *)
Lemma l_normalize_total :
  forall (lm : Libm), let A := F32 lm in
  forall (v : Vec T) (n : nat) (f : nat -> T), vec_is v n f ->
  exists v' g, v_normalize v = (v', Ok tt) /\ vec_is v' n g /\
    (Rabs (rnorm n (fun i => B2R (g i : f32)) - 1) < / 1000000 \/ forall i, (i < n)%nat -> B2R (g i : f32) = 0).
Proof.
  intros lm A v n f Hv.
  assert (F : forall i, (i < n)%nat -> is_finite (f i : f32) = true).
  { intros i Hi. apply (valid_finite lm). eapply vec_is_valid; eauto. }
  destruct (vec_is_dim _ _ _ Hv) as [D1 D2].
  pose proof (v_normalize_pw v n f Hv) as P. cbv zeta in P.
  set (s := fsum n (fun i => (f i * f i)%F)) in P.
  destruct (nonneg_fsum lm n (fun i => f i : f32) F) as [E|[Fs Ps]]; [fold A in E|fold A in Fs, Ps].
  - (* overflow *)
    change (s = B754_infinity false) in E. rewrite E in P.
    assert (E1 : flush (A := A) (fsqrt (B754_infinity false : T)) = (B754_infinity false : T)) by reflexivity.
    rewrite E1 in P.
    assert (E2 : (@fltb A EPSILON (B754_infinity false)) = true) by reflexivity. rewrite E2 in P.
    assert (Z : forall i, (i < n)%nat -> exists s, (@fdiv A (f i) (B754_infinity false)) = B754_zero s).
    { intros i Hi. specialize (F i Hi). change (@fdiv A) with (Bdiv (prec := prec) (emax := emax) mode_NE).
      destruct (f i) as [| | |]; try discriminate; cbn; eauto. }
    apply pointwise_v_ok in P.
    + destruct P as (v' & Ev & Hv'). exists v'. eexists. split; [exact Ev|]. split; [exact Hv'|].
      right. intros i Hi. destruct (Z i Hi) as [s' ->]. reflexivity.
    + intros i Hi. destruct (Z i Hi) as [s' ->]. split; reflexivity.
  - change (is_finite (s : f32) = true) in Fs. change (0 <= B2R (s : f32)) in Ps.
    destruct (eps32 lm) as [Fe Ee].
    assert (Fr : is_finite (Bsqrt mode_NE (s : f32)) = true).
    { destruct (Rle_lt_or_eq_dec _ _ Ps) as [P1|P1]; [apply sqrt_ok; auto|].
      destruct (s : f32) as [[]| | |[] m e He] eqn:Es; cbn in P1; try discriminate; try reflexivity.
      - exfalso. unfold F2R in P1. cbn in P1. pose proof (bpow_gt_0 radix2 e). assert (IZR (Z.neg m) < 0) by (apply IZR_lt; lia). nra.
      - exfalso. unfold F2R in P1. cbn in P1. pose proof (bpow_gt_0 radix2 e). assert (0 < IZR (Z.pos m)) by (apply IZR_lt; lia). nra. }
    destruct (@fltb A EPSILON (flush (A := A) (fsqrt s))) eqn:Eb.
    + assert (Er : flush (A := A) (fsqrt s) = fsqrt s).
      { unfold flush in *. destruct (@fleb A (fsqrt s) EPSILON); [|reflexivity]. vm_compute in Eb. discriminate. }
      rewrite Er in P, Eb.
      change (@fltb A EPSILON (fsqrt s)) with (Bltb (EPSILON (A := A) : f32) (Bsqrt mode_NE (s : f32))) in Eb.
      rewrite Bltb_ok in Eb by auto.
      destruct (Rlt_bool_spec (B2R (EPSILON (A := A) : f32)) (B2R (Bsqrt mode_NE (s : f32)))) as [L|]; [|discriminate].
      destruct (norm_fin lm n (fun i => f i : f32) D2 Fs) as (N1 & N2 & N3).
      { fold A. change (9 / 100000 <= B2R (Bsqrt mode_NE (s : f32))). unfold A in L. lra. }
      destruct (normalize_core lm n (fun i => f i : f32) D2 F N1 N2 N3) as (C1 & C2 & _). fold A in C1, C2.
      apply pointwise_v_ok in P.
      * destruct P as (v' & E & Hv'). exists v'. eexists. split; [exact E|]. split; [exact Hv'|]. left. exact C2.
      * intros i Hi. apply (valid_finite lm). apply (C1 i Hi).
    + apply pointwise_v_ok in P; [|intros; apply (ok_f0 (A := A))].
      destruct P as (v' & E & Hv'). exists v', (fun _ => f0 (A := A)). split; [exact E|]. split; [exact Hv'|]. right. reflexivity.
Qed.

(*@ C28_overflow_refuted *)
(** ... for instance 2^100 in one component *)
Lemma l_norm_overflow_w :
  forall (lm : Libm), exists (v v' : Vec (T (Arith := F32 lm))),
  wfv v /\ obs (v_get v 0) = Ok (sf (2 ^ 100)) /\ v_normalize v = (v', Ok tt) /\
  obs (v_get v' 0) = Ok (sf 0) /\ obs (v_get v' 1) = Ok (sf 0).
Proof.
  intros lm. exists (mk_vec (A := F32 lm) [z32 (2 ^ 100); z32 0]). eexists.
  split; [apply wfv_b_ok; vm_compute; reflexivity|]. split; [reflexivity|].
  split; [vm_compute; reflexivity|]. split; reflexivity.
Qed.

(*@ example *)
Example C28_example :
  let A := F32 lm_id in
  let v := mk_vec (map z32 [3; 4]%Z) in
  wfv v /\ shown show_v (v_normalize v) = ((2, true, [B2SF (lit32 3 5); B2SF (lit32 4 5)])%nat, Ok tt).
Proof. cbv zeta. split; [apply wfv_b_ok; vm_compute; reflexivity|]. vm_compute; reflexivity. Qed.
