(** Rounding errors of sums of products in binary32, one operation at a time. *)
From Coq Require Import ZArith Reals Lia Lra Bool Psatz Arith.
From Flocq Require Import Core BinarySingleNaN Relative.
From Verif Require Import M_Base M_Arith M_Utils M_F32 M_Vector S_Spec S_Linalg S_Norm P_Inst P_Float P_Product P_Norm P_FErr.
Local Open Scope R_scope.

Definition huge : R := bpow radix2 120.
Lemma huge_127 : bpow radix2 127 = 128 * huge.
Proof. unfold huge. change 127%Z with (7 + 120)%Z. rewrite bpow_plus. cbn [bpow]. f_equal. Qed.
Lemma huge_1 : 1000000 <= huge.
Proof.
  apply Rle_trans with (bpow radix2 20); [cbn; lra|]. apply bpow_le. lia.
Qed.
Lemma eta_1 : 0 < eta <= u / 1000000.
Proof. split; [apply eta_pos|]. pose proof eta_small. unfold u in *. lra. Qed.

(** [s] is the sum [N] of products of total magnitude [M], computed with [k] roundings *)
Definition acc (k : R) (s : f32) (N M : R) : Prop :=
  is_finite s = true /\ Rabs N <= M /\ M <= huge /\ Rabs (B2R s - N) <= k * (1001 / 1000) * u * M + 3 * k * eta.

Lemma acc_zero k : 0 <= k -> acc k (B754_zero false) 0 0.
Proof.
  intros Hk. pose proof huge_1. pose proof eta_1. split; [reflexivity|]. rewrite Rabs_R0. split; [lra|]. split; [lra|].
  cbn. rewrite Rminus_0_r, Rabs_R0. nra.
Qed.
Lemma prod_err (x y : f32) : is_finite x = true -> is_finite y = true -> Rabs (B2R x * B2R y) <= huge ->
  is_finite (Bmult mode_NE x y) = true /\
  Rabs (B2R (Bmult mode_NE x y) - B2R x * B2R y) <= u * Rabs (B2R x * B2R y) + eta.
Proof.
  intros Fx Fy H. pose proof huge_1. destruct (mult_ok x y Fx Fy) as [Fp Ep]; [rewrite huge_127; lra|]. split; auto.
  rewrite Ep. destruct (rnd32_err (B2R x * B2R y)) as (e & h & He & Hh & Er). rewrite Er.
  set (p := B2R x * B2R y) in *. replace (p * (1 + e) + h - p) with (e * p + h) by ring.
  eapply Rle_trans; [apply Rabs_triang|]. rewrite Rabs_mult. pose proof (Rabs_pos p).
  apply Rplus_le_compat; auto. apply Rmult_le_compat_r; auto.
Qed.
Lemma acc_prod (x y : f32) : is_finite x = true -> is_finite y = true -> Rabs (B2R x * B2R y) <= huge ->
  acc 1 (Bmult mode_NE x y) (B2R x * B2R y) (Rabs (B2R x * B2R y)).
Proof.
  intros Fx Fy H. destruct (prod_err x y Fx Fy H) as [Fp Ep]. split; auto. split; [lra|]. split; auto.
  pose proof (Rabs_pos (B2R x * B2R y)). pose proof eta_1.
  eapply Rle_trans; [exact Ep|]. unfold u in *. lra.
Qed.
Lemma rnd_acc (q N M d : R) : Rabs (q - N) <= d -> Rabs N <= M -> 0 <= d ->
  Rabs (rnd32 q - N) <= d * (1 + u) + u * M + eta.
Proof.
  intros H HN Hd. destruct (rnd32_err q) as (e & h & He & Hh & Er). rewrite Er.
  replace (q * (1 + e) + h - N) with ((q - N) * (1 + e) + (e * N + h)) by ring.
  eapply Rle_trans; [apply Rabs_triang|]. rewrite Rplus_assoc. apply Rplus_le_compat.
  - rewrite Rabs_mult. apply Rmult_le_compat; auto using Rabs_pos.
    apply Rabs_le_inv in He. apply Rabs_le. unfold u in *; lra.
  - eapply Rle_trans; [apply Rabs_triang|]. apply Rplus_le_compat; auto.
    rewrite Rabs_mult. apply Rmult_le_compat; auto using Rabs_pos.
Qed.
Lemma acc_bound k s N M : 1 <= k <= 8 -> acc k s N M -> Rabs (B2R s) <= 2 * huge.
Proof.
  intros Hk (F & HN & HM & E). pose proof huge_1. pose proof eta_1.
  apply Rabs_le_inv in E. apply Rabs_le_inv in HN. apply Rabs_le.
  assert (0 <= M) by lra. unfold u in *.
  assert (k * (1001 / 1000) * (1 / 16777216) * M <= (8 * (1001 / 1000) * (1 / 16777216)) * M) by (apply Rmult_le_compat_r; lra).
  assert (3 * k * eta <= 24 * eta) by (apply Rmult_le_compat_r; lra).
  lra.
Qed.
(** adding or subtracting one more product *)
Lemma acc_step (add : bool) k s N M (x y : f32) : 1 <= k <= 8 -> acc k s N M ->
  is_finite x = true -> is_finite y = true -> M + Rabs (B2R x * B2R y) <= huge ->
  let xy := B2R x * B2R y in
  acc (k + 1) (if add then Bplus mode_NE s (Bmult mode_NE x y) else Bminus mode_NE s (Bmult mode_NE x y))
    (if add then N + xy else N - xy) (M + Rabs xy).
Proof.
  intros Hk Hs Fx Fy HM xy. pose proof (acc_bound _ _ _ _ Hk Hs) as Bs.
  destruct Hs as (Fs & HN & HMs & Es). pose proof huge_1 as H1. pose proof eta_1 as E1.
  pose proof (Rabs_pos N) as PN. pose proof (Rabs_pos xy) as Pxy.
  destruct (prod_err x y Fx Fy) as [Fp Ep]; [lra|]. fold xy in Ep, HM.
  set (p := Bmult mode_NE x y) in *.
  assert (Bp : Rabs (B2R p) <= 2 * huge).
  { assert (T : Rabs (B2R p) <= Rabs (B2R p - xy) + Rabs xy).
    { replace (B2R p) with ((B2R p - xy) + xy) at 1 by ring. apply Rabs_triang. }
    unfold u in *. lra. }
  set (d := k * (1001 / 1000) * u * (M + Rabs xy) + (3 * k + 1) * eta).
  assert (D0 : 0 <= d). { unfold d, u. nra. }
  assert (K : u * Rabs xy <= k * (1001 / 1000) * u * Rabs xy).
  { apply Rmult_le_compat_r; auto. unfold u. lra. }
  assert (Q : forall q N', (q = B2R s + B2R p /\ N' = N + xy) \/ (q = B2R s - B2R p /\ N' = N - xy) ->
     Rabs (q - N') <= d /\ Rabs N' <= M + Rabs xy /\ Rabs q <= bpow radix2 127).
  { intros q N' HQ. rewrite huge_127. apply Rabs_le_inv in Bp, Bs, Es, Ep. 
    assert (HN2 : - M <= N <= M) by (apply Rabs_le_inv; lra).
    assert (Hxy : - Rabs xy <= xy <= Rabs xy) by (apply Rabs_le_inv; lra).
    destruct HQ as [[-> ->]|[-> ->]]; (split; [|split]); apply Rabs_le; unfold d; lra. }
  assert (HR : d * (1 + u) + u * (M + Rabs xy) + eta <= (k + 1) * (1001 / 1000) * u * (M + Rabs xy) + 3 * (k + 1) * eta).
  { unfold d. set (W := M + Rabs xy) in *. assert (0 <= W) by (unfold W; lra).
    assert ((k * (1001 / 1000) * u * (1 + u) + u) * W <= ((k + 1) * (1001 / 1000) * u) * W).
    { apply Rmult_le_compat_r; auto. unfold u. lra. }
    assert (((3 * k + 1) * (1 + u) + 1) * eta <= (3 * (k + 1)) * eta).
    { apply Rmult_le_compat_r; [lra|]. unfold u. lra. }
    lra. }
  destruct add.
  - destruct (Q (B2R s + B2R p) (N + xy)) as (Q1 & Q2 & Q3); [auto|].
    destruct (plus_ok s p Fs Fp Q3) as [Ft Et]. split; [exact Ft|]. split; [exact Q2|]. split; [lra|].
    rewrite Et. eapply Rle_trans; [apply (rnd_acc _ _ _ _ Q1 Q2 D0)|exact HR].
  - destruct (Q (B2R s - B2R p) (N - xy)) as (Q1 & Q2 & Q3); [auto|].
    destruct (minus_ok s p Fs Fp Q3) as [Ft Et]. split; [exact Ft|]. split; [exact Q2|]. split; [lra|].
    rewrite Et. eapply Rle_trans; [apply (rnd_acc _ _ _ _ Q1 Q2 D0)|exact HR].
Qed.

Lemma Rsum_abs n g : Rabs (Rsum n g) <= Rsum n (fun i => Rabs (g i)).
Proof.
  induction n as [|n IH]; cbn [Rsum]; [rewrite Rabs_R0; lra|]. eapply Rle_trans; [apply Rabs_triang|]. lra.
Qed.
Lemma Rsum_nonneg n g : (forall i, (i < n)%nat -> 0 <= g i) -> 0 <= Rsum n g.
Proof. induction n as [|n IH]; cbn [Rsum]; intros H; [lra|]. pose proof (H n ltac:(lia)). specialize (IH ltac:(auto)). lra. Qed.
Lemma Rsum_le n g h : (forall i, (i < n)%nat -> g i <= h i) -> Rsum n g <= Rsum n h.
Proof. induction n as [|n IH]; cbn [Rsum]; intros H; [lra|]. pose proof (H n ltac:(lia)). specialize (IH ltac:(auto)). lra. Qed.

Lemma fsum_acc lm n (f g : nat -> f32) : (n <= 4)%nat ->
  (forall i, (i < n)%nat -> is_finite (f i) = true /\ is_finite (g i) = true) ->
  Rsum n (fun i => Rabs (B2R (f i) * B2R (g i))) <= huge ->
  acc (INR n + 1) (fsum (A := F32 lm) n (fun i => Bmult mode_NE (f i) (g i)))
    (Rsum n (fun i => B2R (f i) * B2R (g i))) (Rsum n (fun i => Rabs (B2R (f i) * B2R (g i)))).
Proof.
  induction n as [|n IH]; intros Hn F H.
  - cbn. apply acc_zero. lra.
  - cbn [Rsum fsum] in *. rewrite S_INR. pose proof (Rabs_pos (B2R (f n) * B2R (g n))).
    assert (INR n <= 3). { replace 3 with (INR 3) by (cbn; lra). apply le_INR. lia. }
    pose proof (pos_INR n).
    apply (acc_step true (INR n + 1)); try apply F; try lia; auto; [lra|].
    apply IH; [lia|intros; apply F; lia|lra].
Qed.
