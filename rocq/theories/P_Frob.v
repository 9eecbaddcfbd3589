(** C81: the Frobenius norm. *)
(*@+*)
From Coq Require Import List Arith ZArith Reals Lia Bool Lra.
From Flocq Require Import Core BinarySingleNaN.
From Verif Require Import M_Base M_Arith M_Utils M_Vector M_Matrix M_F32 M_RX S_Spec S_Linalg S_Norm S_F32 S_Frob P_Inst P_InstF.
Import ListNotations.
Local Open Scope R_scope.
(*@-*)
From Verif Require Import P_Hoare P_Cont P_Loops P_Access P_Pointwise P_Trans P_Float P_Product P_Norm P_Dot P_FErr P_FAcc P_Rot P_Norm32 P_Sara32 P_Lup32.

Lemma rwp_ok {E B} (x : res E B) (v : B) : rwp x (fun y => y = v) (fun _ => False) False -> x = Ok v.
Proof. destruct x; cbn; intros H; [rewrite H; reflexivity|tauto|tauto]. Qed.

Section G.
  Context {A : Arith}.
  Lemma frob_is m r c f : mat_is m r c f ->
    m_calculate_frobenius_norm m = Ok (fsqrt (fsum (r * c) (fun k => f (k / c)%nat (k mod c)%nat * f (k / c)%nat (k mod c)%nat)%F)).
  Proof.
    intros Hm. unfold m_calculate_frobenius_norm. rewrite (mi_rows _ _ _ _ Hm), (mi_cols _ _ _ _ Hm).
    set (g := fun k : nat => (f (k / c)%nat (k mod c)%nat * f (k / c)%nat (k mod c)%nat)%F). destruct (mat_is_dim _ _ _ _ Hm) as [Dr Dc].
    erewrite (rwp_ok (rfold (range 0 r) _ f0) (fsum (r * c) g)); [reflexivity|].
    apply rwp_fold with (I := fun i x => x = fsum (i * c) g); [reflexivity| |intros x Hx; rewrite Nat.max_r in Hx by lia; exact Hx].
    intros i x Hi ->. apply rwp_fold with (I := fun j x => x = fsum (i * c + j) g); [rewrite Nat.add_0_r; reflexivity| |].
    - intros j x Hj ->. rewrite (mi_get _ _ _ _ Hm) by lia. cbn. rewrite Nat.add_succ_r. cbn [fsum]. f_equal. unfold g.
      rewrite (Nat.add_comm (i * c)), Nat.div_add, Nat.mod_add, Nat.div_small, Nat.mod_small by lia. reflexivity.
    - intros x ->. rewrite Nat.max_r by lia. f_equal. cbn. lia.
  Qed.
End G.
Lemma Rsum_app n k g : Rsum (n + k) g = Rsum n g + Rsum k (fun j => g (n + j)%nat).
Proof. induction k as [|k IH]; [rewrite Nat.add_0_r; cbn; ring|]. rewrite Nat.add_succ_r. cbn [Rsum]. rewrite IH. ring. Qed.
Lemma Rsum_flat r c (h : nat -> nat -> R) : (1 <= c)%nat -> Rsum (r * c) (fun k => h (k / c)%nat (k mod c)%nat) = Rsum r (fun i => Rsum c (h i)).
Proof.
  intros Hc. induction r as [|r IH]; [reflexivity|]. cbn [Rsum]. rewrite <- IH. replace (S r * c)%nat with (r * c + c)%nat by (cbn; lia).
  rewrite Rsum_app. f_equal. apply Rsum_ext. intros j Hj. rewrite (Nat.add_comm (r * c)), Nat.div_add, Nat.mod_add, Nat.div_small, Nat.mod_small by lia. reflexivity.
Qed.

(*@ C81_real *)
(** C81 (exact): [calculate_frobenius_norm] is the square root of the sum of the squares of all cells *)
Lemma l_frob :
  forall (m : Mat (T (Arith := RX))) (r c : nat) (a : nat -> nat -> R), mat_r m r c a ->
  m_calculate_frobenius_norm m = Ok (Some (rfrob r c a)).
Proof.
  intros m r c a Hm. destruct (mat_is_dim _ _ _ _ Hm) as [_ Dc]. rewrite (frob_is _ _ _ _ Hm).
  change (fun k => fmul (Arith := RX) (Some (a (k / c)%nat (k mod c)%nat)) (Some (a (k / c)%nat (k mod c)%nat))) with (fun k => Some (a (k / c)%nat (k mod c)%nat * a (k / c)%nat (k mod c)%nat)).
  rewrite fsum_RX, (Rsum_flat r c (fun i j => a i j * a i j)) by lia. cbn. rewrite Rlt_bool_false; [reflexivity|].
  apply Rsum_nonneg. intros. apply Rsum_nonneg. intros. apply Rle_0_sqr.
Qed.

(*@ C81_vector *)
(** C81 (every arithmetic): a vector turned into a one-column matrix has a Frobenius norm from which [calculate_norm]
    differs only in replacing norms up to EPSILON by zero *)
Lemma l_frob_vec :
  forall (A : Arith) (OK : ArithOk A) (v : Vec T) (n : nat) (f : nat -> T), vec_is v n f ->
  exists m x, v_convert_to_matrix v = Ok m /\ m_calculate_frobenius_norm m = Ok x /\
    v_calculate_norm v = Ok (if (x <=? EPSILON)%F then f0 else x).
Proof.
  intros A OK v n f Hv. destruct (v_convert_ok v n f Hv) as (m & E & Hm). exists m. eexists. split; [exact E|]. split; [exact (frob_is _ _ _ _ Hm)|].
  rewrite (v_norm_is _ _ _ Hv). unfold flush. rewrite Nat.mul_1_r.
  assert (S : forall k g h, (forall i, (i < k)%nat -> g i = h i) -> fsum k g = fsum k h).
  { induction k as [|k IH]; intros g h H; [reflexivity|]. cbn [fsum]. rewrite (IH g h) by auto. rewrite H by auto. reflexivity. }
  rewrite (S n (fun i => f i * f i)%F (fun k => f (k / 1)%nat * f (k / 1)%nat)%F) by (intros; rewrite Nat.div_1_r; reflexivity). reflexivity.
Qed.

(** ** f32: sixteen terms *)
Lemma acc_bound16 k s N M : 1 <= k <= 20 -> acc k s N M -> Rabs (B2R s) <= 2 * huge.
Proof.
  intros Hk (F & HN & HM & E). pose proof huge_1. pose proof eta_1.
  apply Rabs_le_inv in E. apply Rabs_le_inv in HN. apply Rabs_le.
  assert (0 <= M) by lra. unfold u in *.
  assert (k * (1001 / 1000) * (1 / 16777216) * M <= (20 * (1001 / 1000) * (1 / 16777216)) * M) by (apply Rmult_le_compat_r; lra).
  assert (3 * k * eta <= 60 * eta) by (apply Rmult_le_compat_r; lra).
  lra.
Qed.
Lemma acc_step16 k s N M (x y : f32) : 1 <= k <= 20 -> acc k s N M ->
  is_finite x = true -> is_finite y = true -> M + Rabs (B2R x * B2R y) <= huge ->
  acc (k + 1) (Bplus mode_NE s (Bmult mode_NE x y)) (N + B2R x * B2R y) (M + Rabs (B2R x * B2R y)).
Proof.
  intros Hk Hs Fx Fy. set (xy := B2R x * B2R y). intros HM. pose proof (acc_bound16 _ _ _ _ Hk Hs) as Bs.
  destruct Hs as (Fs & HN & HMs & Es). pose proof huge_1 as H1. pose proof eta_1 as E1.
  pose proof (Rabs_pos N) as PN. pose proof (Rabs_pos xy) as Pxy.
  destruct (prod_err x y Fx Fy) as [Fp Ep]; [fold xy; lra|]. fold xy in Ep.
  set (p := Bmult mode_NE x y) in *.
  assert (Bp : Rabs (B2R p) <= 2 * huge).
  { assert (T : Rabs (B2R p) <= Rabs (B2R p - xy) + Rabs xy).
    { replace (B2R p) with ((B2R p - xy) + xy) at 1 by ring. apply Rabs_triang. }
    unfold u in *. lra. }
  set (d := k * (1001 / 1000) * u * (M + Rabs xy) + (3 * k + 1) * eta).
  assert (D0 : 0 <= d). { unfold d, u. apply Rplus_le_le_0_compat; apply Rmult_le_pos; lra. }
  assert (K : u * Rabs xy <= k * (1001 / 1000) * u * Rabs xy).
  { apply Rmult_le_compat_r; auto. unfold u. lra. }
  assert (Q1 : Rabs (B2R s + B2R p - (N + xy)) <= d /\ Rabs (N + xy) <= M + Rabs xy /\ Rabs (B2R s + B2R p) <= bpow radix2 127).
  { rewrite huge_127. apply Rabs_le_inv in Bp, Bs, Es, Ep.
    assert (HN2 : - M <= N <= M) by (apply Rabs_le_inv; lra).
    assert (Hxy : - Rabs xy <= xy <= Rabs xy) by (apply Rabs_le_inv; lra).
    (split; [|split]); apply Rabs_le; unfold d; lra. }
  assert (HR : d * (1 + u) + u * (M + Rabs xy) + eta <= (k + 1) * (1001 / 1000) * u * (M + Rabs xy) + 3 * (k + 1) * eta).
  { unfold d. set (W := M + Rabs xy) in *. assert (0 <= W) by (unfold W; lra).
    assert ((k * (1001 / 1000) * u * (1 + u) + u) * W <= ((k + 1) * (1001 / 1000) * u) * W).
    { apply Rmult_le_compat_r; auto. unfold u. lra. }
    assert (((3 * k + 1) * (1 + u) + 1) * eta <= (3 * (k + 1)) * eta).
    { apply Rmult_le_compat_r; [lra|]. unfold u. lra. }
    lra. }
  destruct Q1 as (Q1 & Q2 & Q3). destruct (plus_ok s p Fs Fp Q3) as [Ft Et]. split; [exact Ft|]. split; [exact Q2|]. split; [lra|].
  rewrite Et. eapply Rle_trans; [apply (rnd_acc _ _ _ _ Q1 Q2 D0)|exact HR].
Qed.
Lemma fsum_acc16 lm n (f : nat -> f32) : (n <= 16)%nat -> (forall i, (i < n)%nat -> is_finite (f i) = true) ->
  Rsum n (fun i => B2R (f i) * B2R (f i)) <= huge ->
  acc (INR n + 1) (fsum (A := F32 lm) n (fun i => Bmult mode_NE (f i) (f i))) (Rsum n (fun i => B2R (f i) * B2R (f i))) (Rsum n (fun i => B2R (f i) * B2R (f i))).
Proof.
  induction n as [|n IH]; intros Hn F H.
  - cbn. apply acc_zero. lra.
  - cbn [Rsum fsum] in *. rewrite S_INR. pose proof (Rle_0_sqr (B2R (f n))) as P. unfold Rsqr in P.
    assert (INR n <= 15). { replace 15 with (INR 15) by (cbn; lra). apply le_INR. lia. }
    pose proof (pos_INR n).
    pose proof (acc_step16 (INR n + 1) _ _ _ (f n) (f n) ltac:(lra) (IH ltac:(lia) ltac:(auto) ltac:(lra)) (F n ltac:(lia)) (F n ltac:(lia))) as S.
    rewrite (Rabs_pos_eq _ P) in S. replace (INR n + 1 + 1) with (INR n + 1 + 1) by ring. apply S. lra.
Qed.

Lemma cells_finite lm (m : Mat (T (Arith := F32 lm))) r c f : mat_is m r c f -> forall k, (k < r * c)%nat -> is_finite (f (k / c)%nat (k mod c)%nat : f32) = true.
Proof.
  intros Hm k Hk. destruct (mat_is_dim _ _ _ _ Hm) as [_ Dc]. apply (valid_finite lm). eapply mat_is_valid; [exact Hm| |].
  - apply Nat.div_lt_upper_bound; lia.
  - apply Nat.mod_upper_bound. lia.
Qed.
Lemma rfrob_sqr r c a : rfrob r c a * rfrob r c a = Rsum r (fun i => Rsum c (fun j => a i j * a i j)).
Proof. apply sqrt_sqrt. apply Rsum_nonneg. intros. apply Rsum_nonneg. intros. apply Rle_0_sqr. Qed.

(*@ C81_float *)
(** C81 (f32, every libm): for norms up to 2^60 the relative error is at most 1.2e-6, apart from an absolute error of
    2^-70 *)
Lemma l_frob32 :
  forall (lm : Libm) (m : Mat (T (Arith := F32 lm))) (r c : nat) (a : nat -> nat -> R), mat_f m r c a ->
  rfrob r c a <= bpow radix2 60 ->
  exists x : T (Arith := F32 lm), m_calculate_frobenius_norm m = Ok x /\ is_finite (x : f32) = true /\ 0 <= B2R (x : f32) /\
    Rabs (B2R (x : f32) - rfrob r c a) <= 12 / 10000000 * rfrob r c a + bpow radix2 (-70).
Proof.
  intros lm m r c a (f & Hm & Ea) HB. pose proof (frob_is _ _ _ _ Hm) as E. destruct (mat_is_dim _ _ _ _ Hm) as [Dr Dc].
  set (g := fun k => f (k / c)%nat (k mod c)%nat) in *.
  assert (F : forall k, (k < r * c)%nat -> is_finite (g k : f32) = true) by (intros; apply (cells_finite lm m r c f Hm); auto).
  assert (V : Rsum (r * c) (fun k => B2R (g k : f32) * B2R (g k : f32)) = rfrob r c a * rfrob r c a).
  { rewrite rfrob_sqr. unfold g. rewrite (Rsum_flat r c (fun i j => B2R (f i j : f32) * B2R (f i j : f32))) by lia.
    apply Rsum_ext. intros i Hi. apply Rsum_ext. intros j Hj. rewrite Ea by auto. reflexivity. }
  assert (P0 : 0 <= rfrob r c a) by apply sqrt_pos. set (N := rfrob r c a) in *.
  assert (Hh : N * N <= huge).
  { unfold huge. change 120%Z with (60 + 60)%Z. rewrite bpow_plus. apply Rmult_le_compat; assumption. }
  assert (H16 : (r * c <= 16)%nat) by (change 16%nat with (4 * 4)%nat; apply Nat.mul_le_mono; lia).
  destruct (fsum_acc16 lm (r * c) g H16 F ltac:(rewrite V; exact Hh)) as (Fs & _ & _ & Es). rewrite V in Es.
  exists (fsqrt (fsum (r * c) (fun k => g k * g k)%F)). split; [exact E|].
  change (fsum (r * c) (fun k => g k * g k)%F) with (fsum (A := F32 lm) (r * c) (fun i => Bmult mode_NE (g i : f32) (g i : f32))).
  assert (NN : nonneg (fsum (A := F32 lm) (r * c) (fun i => Bmult mode_NE (g i : f32) (g i : f32)))).
  { assert (G : forall k, (k <= r * c)%nat -> nonneg (fsum (A := F32 lm) k (fun i => Bmult mode_NE (g i : f32) (g i : f32)))); [|apply G; lia].
    induction k as [|k IH]; intros Hk; [right; split; [reflexivity|cbn; lra]|]. apply (proj1 (nonneg_plus _ _ (IH ltac:(lia)) (proj1 (Bsqr (g k) (F k ltac:(lia)))))). }
  set (s := fsum (A := F32 lm) (r * c) _) in *.
  assert (S0 : 0 <= B2R (s : f32)) by (destruct NN as [->|[_ ?]]; [discriminate|assumption]).
  destruct (sqrt_ok0 (s : f32) Fs S0) as [Fq Eq]. split; [exact Fq|]. change (fsqrt (s : T (Arith := F32 lm))) with (Bsqrt mode_NE (s : f32)). rewrite Eq.
  split; [apply rnd_nonneg, sqrt_pos|].
  set (b := bpow radix2 (-71)).
  assert (Hb : b * b = 256 * eta) by (unfold b, eta; rewrite <- bpow_plus; change (-71 + -71)%Z with (8 + -150)%Z; rewrite bpow_plus; f_equal).
  assert (HI : 0 <= INR (r * c) <= 16) by (split; [apply pos_INR|replace 16 with (INR 16) by (cbn; lra); apply le_INR; exact H16]).
  pose proof eta_1 as E1. assert (N2 : 0 <= N * N) by (apply Rmult_le_pos; assumption).
  assert (B0 : 0 < b) by apply bpow_gt_0.
  assert (R1 : Rabs (sqrt (B2R (s : f32)) - sqrt (N * N)) <= 1702 / 100 * u * sqrt (N * N) + b).
  { apply root_rel; [exact S0|exact N2|unfold u; lra|lra|]. eapply Rle_trans; [exact Es|]. rewrite Hb.
    assert ((INR (r * c) + 1) * (1001 / 1000) * u * (N * N) <= 1702 / 100 * u * (N * N)) by (apply Rmult_le_compat_r; [exact N2|unfold u; lra]).
    assert (3 * (INR (r * c) + 1) * eta <= 256 * eta) by (apply Rmult_le_compat_r; lra). lra. }
  rewrite (sqrt_square N P0) in R1.
  assert (D0 : 0 <= 1702 / 100 * u * N + b) by (apply Rplus_le_le_0_compat; [apply Rmult_le_pos; [unfold u; lra|exact P0]|lra]).
  eapply Rle_trans; [apply (rnd_acc _ N N _ R1 ltac:(rewrite Rabs_pos_eq by exact P0; lra) D0)|].
  assert (Hb2 : bpow radix2 (-70) = 2 * b) by (unfold b; change (-70)%Z with (1 + -71)%Z; rewrite bpow_plus; f_equal).
  rewrite Hb2. assert (eta <= b / 2) by (unfold eta, b; apply Rle_trans with (bpow radix2 (-72)); [apply bpow_le; lia|change (-71)%Z with (1 + -72)%Z; rewrite bpow_plus; cbn [bpow]; pose proof (bpow_gt_0 radix2 (-72)); change (IZR (Z.pow_pos radix2 1)) with 2; lra]).
  assert (U : u = 1 / 16777216) by reflexivity. rewrite U in *. lra.
Qed.

Lemma sum_nonneg lm n (g : nat -> f32) : (forall i, (i < n)%nat -> is_finite (g i) = true) ->
  forall k, (k <= n)%nat -> nonneg (fsum (A := F32 lm) k (fun i => Bmult mode_NE (g i) (g i))) /\
  forall j, (j < k)%nat -> bpow radix2 64 <= Rabs (B2R (g j)) -> fsum (A := F32 lm) k (fun i => Bmult mode_NE (g i) (g i)) = B754_infinity false.
Proof.
  intros F. induction k as [|k IH]; intros Hk; [split; [right; split; [reflexivity|cbn; lra]|lia]|].
  destruct (IH ltac:(lia)) as [I1 I2]. destruct (Bsqr (g k) (F k ltac:(lia))) as [Q1 Q2]. destruct (nonneg_plus _ _ I1 Q1) as [P1 P2]. split; [exact P1|].
  intros j Hj B. apply P2. destruct (Nat.eq_dec j k) as [->|]; [right; auto|left; apply (I2 j); [lia|exact B]].
Qed.

(*@ C81_overflow *)
(** C81, violation: a finite matrix with a cell of magnitude 2^64 or more gets the norm +infinity, with the outcome Ok *)
Lemma l_frob_inf :
  forall (lm : Libm) (m : Mat (T (Arith := F32 lm))) (r c : nat) (a : nat -> nat -> R) (i j : nat), mat_f m r c a ->
  (i < r)%nat -> (j < c)%nat -> bpow radix2 64 <= Rabs (a i j) ->
  m_calculate_frobenius_norm m = Ok (B754_infinity false : T (Arith := F32 lm)).
Proof.
  intros lm m r c a i j (f & Hm & Ea) Hi Hj B. rewrite (frob_is _ _ _ _ Hm). set (g := fun k => f (k / c)%nat (k mod c)%nat).
  pose proof (cells_finite lm m r c f Hm) as F.
  destruct (sum_nonneg lm (r * c) g F (r * c) (Nat.le_refl _)) as [_ S].
  assert (K : (i * c + j < r * c)%nat) by (apply idx_lt'; assumption).
  assert (G : g (i * c + j)%nat = f i j) by (unfold g; rewrite (Nat.add_comm (i * c)), Nat.div_add, Nat.mod_add, Nat.div_small, Nat.mod_small by lia; reflexivity).
  specialize (S (i * c + j)%nat K). rewrite G, Ea in S by assumption. specialize (S B).
  change (fsum (r * c) (fun k => f (k / c)%nat (k mod c)%nat * f (k / c)%nat (k mod c)%nat)%F) with (fsum (A := F32 lm) (r * c) (fun i => Bmult mode_NE (g i : f32) (g i : f32))).
  rewrite S. reflexivity.
Qed.

Lemma rnd_vanish x : 0 <= x <= bpow radix2 (-152) -> rnd32 x = 0.
Proof.
  intros [H0 H1]. apply Rle_antisym; [|apply rnd_nonneg; exact H0].
  apply Rle_trans with (rnd32 (bpow radix2 (-152))); [apply round_le; [apply fexp_correct; reflexivity|apply valid_rnd_N|exact H1]|].
  rewrite (round_N_small_pos radix2 (SpecFloat.fexp prec emax) _ (bpow radix2 (-152)) (-151)); [lra|split; [apply bpow_le; lia|apply bpow_lt; lia]|].
  unfold SpecFloat.fexp, SpecFloat.emin, prec, emax. lia.
Qed.

(*@ C81_underflow *)
(** C81, violation: a matrix whose cells are at most 2^-76 in magnitude gets the norm zero, even if it is not zero *)
Lemma l_frob_zero :
  forall (lm : Libm) (m : Mat (T (Arith := F32 lm))) (r c : nat) (a : nat -> nat -> R), mat_f m r c a ->
  (forall i j, (i < r)%nat -> (j < c)%nat -> Rabs (a i j) <= bpow radix2 (-76)) ->
  exists x : T (Arith := F32 lm), m_calculate_frobenius_norm m = Ok x /\ is_finite (x : f32) = true /\ B2R (x : f32) = 0.
Proof.
  intros lm m r c a (f & Hm & Ea) B. rewrite (frob_is _ _ _ _ Hm). set (g := fun k => f (k / c)%nat (k mod c)%nat).
  destruct (mat_is_dim _ _ _ _ Hm) as [_ Dc]. pose proof (cells_finite lm m r c f Hm) as F. fold g in F.
  eexists. split; [reflexivity|].
  change (fsum (r * c) (fun k => f (k / c)%nat (k mod c)%nat * f (k / c)%nat (k mod c)%nat)%F) with (fsum (A := F32 lm) (r * c) (fun i => Bmult mode_NE (g i : f32) (g i : f32))).
  assert (Z : forall k, (k <= r * c)%nat -> is_finite (fsum (A := F32 lm) k (fun i => Bmult mode_NE (g i : f32) (g i : f32)) : f32) = true /\
     B2R (fsum (A := F32 lm) k (fun i => Bmult mode_NE (g i : f32) (g i : f32)) : f32) = 0).
  { induction k as [|k IH]; intros Hk; [split; reflexivity|]. destruct (IH ltac:(lia)) as [I1 I2].
    assert (Bk : Rabs (B2R (g k : f32)) <= bpow radix2 (-76)).
    { unfold g. assert (k / c < r)%nat by (apply Nat.div_lt_upper_bound; lia). assert (k mod c < c)%nat by (apply Nat.mod_upper_bound; lia). rewrite Ea by assumption. apply B; assumption. }
    assert (Sq : 0 <= B2R (g k : f32) * B2R (g k : f32) <= bpow radix2 (-152)).
    { split; [apply Rle_0_sqr|]. change (-152)%Z with (-76 + -76)%Z. rewrite bpow_plus. eapply Rle_trans; [apply Rle_abs|]. rewrite Rabs_mult. apply Rmult_le_compat; auto using Rabs_pos. }
    destruct (mult_ok (g k) (g k) (F k ltac:(lia)) (F k ltac:(lia))) as [Fp Ep].
    { rewrite Rabs_pos_eq by apply Sq. eapply Rle_trans; [apply Sq|apply bpow_le; lia]. }
    rewrite (rnd_vanish _ Sq) in Ep. destruct (plus_ok _ _ I1 Fp) as [Ft Et]; [rewrite I2, Ep, Rplus_0_r, Rabs_R0; apply bpow_ge_0|].
    split; [exact Ft|]. cbn [fsum]. eapply eq_trans; [exact Et|]. rewrite I2, Ep, Rplus_0_r. apply round_0, valid_rnd_N. }
  destruct (Z (r * c)%nat (Nat.le_refl _)) as [F1 Z1]. destruct (sqrt_ok0 _ F1 ltac:(rewrite Z1; lra)) as [Fq Eq].
  split; [exact Fq|]. eapply eq_trans; [exact Eq|]. rewrite Z1, sqrt_0. apply round_0, valid_rnd_N.
Qed.

(*@ C81_total *)
(** C81: an initialised matrix of finite cells always gets a norm, which is not NaN and not negative *)
Lemma l_frob_total :
  forall (lm : Libm) (m : Mat (T (Arith := F32 lm))) (r c : nat) (a : nat -> nat -> R), mat_f m r c a ->
  exists x : T (Arith := F32 lm), m_calculate_frobenius_norm m = Ok x /\ (x = (B754_infinity false : f32) \/ is_finite (x : f32) = true /\ 0 <= B2R (x : f32)).
Proof.
  intros lm m r c a (f & Hm & _). rewrite (frob_is _ _ _ _ Hm). set (g := fun k => f (k / c)%nat (k mod c)%nat).
  eexists. split; [reflexivity|].
  change (fsum (r * c) (fun k => f (k / c)%nat (k mod c)%nat * f (k / c)%nat (k mod c)%nat)%F) with (fsum (A := F32 lm) (r * c) (fun i => Bmult mode_NE (g i : f32) (g i : f32))).
  destruct (sum_nonneg lm (r * c) g (cells_finite lm m r c f Hm) (r * c) (Nat.le_refl _)) as [[->|[F1 P1]] _]; [left; reflexivity|right].
  destruct (sqrt_ok0 _ F1 P1) as [Fq Eq]. split; [exact Fq|]. eapply Rle_trans; [|right; symmetry; exact Eq]. apply rnd_nonneg, sqrt_pos.
Qed.

Lemma ex_frob :
  mat_r (rmat 2 2 [3; 0; 0; 4]) 2 2 (fun i j => nth (i * 2 + j) [3; 0; 0; 4] 0) /\ rfrob 2 2 (fun i j => nth (i * 2 + j) [3; 0; 0; 4] 0) = 5 /\
  (forall lm, mat_f (lm := lm) (mk_mat (A := F32 lm) 2 2 (map z32 [3; 0; 0; 4]%Z)) 2 2 (fun i j => IZR (nth (i * 2 + j) [3; 0; 0; 4]%Z 0%Z))) /\ 5 <= bpow radix2 60.
Proof.
  split; [apply (rmat_is 2 2 [3; 0; 0; 4]); cbn; lia|]. split; [unfold rfrob; cbn [Rsum nth Nat.mul Nat.add]; replace (0 + (0 + 3 * 3 + 0 * 0) + (0 + 0 * 0 + 4 * 4)) with (5 * 5) by ring; apply sqrt_square; lra|]. split; [|apply Rle_trans with (bpow radix2 3); [cbn; lra|apply bpow_le; lia]].
  intros lm. apply (mat_z lm 2 2 [3; 0; 0; 4]%Z); try (cbn; lia). repeat constructor; cbn; lia.
Qed.
(*@ example *)
Example C81_example :
  mat_r (rmat 2 2 [3; 0; 0; 4]) 2 2 (fun i j => nth (i * 2 + j) [3; 0; 0; 4] 0) /\ rfrob 2 2 (fun i j => nth (i * 2 + j) [3; 0; 0; 4] 0) = 5 /\
  (forall lm, mat_f (lm := lm) (mk_mat (A := F32 lm) 2 2 (map z32 [3; 0; 0; 4]%Z)) 2 2 (fun i j => IZR (nth (i * 2 + j) [3; 0; 0; 4]%Z 0%Z))) /\ 5 <= bpow radix2 60.
Proof. exact ex_frob. Qed.
