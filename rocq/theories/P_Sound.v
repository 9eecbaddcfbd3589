(** C74, C25: what the answer "yes" of the recognition of rotations means in f32, and the adjugate of a recognised rotation. *)
(*@+*)
From Coq Require Import List Arith ZArith Reals Lia Bool Lra SpecFloat.
From Flocq Require Import Core BinarySingleNaN.
From Verif Require Import M_Base M_Arith M_Utils M_Vector M_Matrix M_F32 M_RX
  S_Spec S_Linalg S_Norm S_Lu S_F32 P_Inst P_InstF.
Import ListNotations.
Local Open Scope R_scope.
(*@-*)
From Coq Require Import Psatz.
From Verif Require Import S_Compare P_Compare P_Hoare P_Cont P_Loops P_Access P_Pointwise P_Trans P_Float P_Product P_Norm P_Dot P_FErr P_Norm32 P_FAcc P_F32App P_Lup P_Lup32 P_Det P_So P_Chol32 P_Qr32 P_Eig P_Recog.

Lemma within32_inv lm (x y : f32) c : B2R y = c -> within (A := F32 lm) EPSILON x y ->
  is_finite x = true /\ Rabs (B2R x - c) <= 10001 / 100000000.
Proof.
  intros Ey W. destruct (eps32 lm) as [FE _]. destruct eta_tau as [T0 T1]. unfold within in W.
  assert (EU : B2R (EPSILON (A := F32 lm) : f32) <= 1000001 / 10000000000) by (cbn; unfold F2R; cbn; lra).
  change (Bleb (Babs (Bminus mode_NE x y)) (EPSILON (A := F32 lm) : f32) = true) in W.
  assert (FM : is_finite (Bminus mode_NE x y) = true).
  { rewrite <- is_finite_Babs. assert (SA : Bsign (Babs (Bminus mode_NE x y)) = true -> Babs (Bminus mode_NE x y) = B754_nan) by (destruct (Bminus mode_NE x y); cbn; auto; discriminate).
    destruct (Babs (Bminus mode_NE x y)) as [s|s| |s mm ee B]; [reflexivity| | |reflexivity].
    - destruct s; [discriminate (SA eq_refl)|]. exfalso. destruct (EPSILON (A := F32 lm) : f32) as [s'|s'| |s' m' e' B']; cbn in FE; try discriminate; cbn in W; try destruct s'; discriminate.
    - exfalso. destruct (EPSILON (A := F32 lm) : f32); discriminate W. }
  destruct (fin_minus x y FM) as (Fx & Fy & E). split; [exact Fx|].
  rewrite Bleb_ok in W by (try exact FE; rewrite is_finite_Babs; exact FM). rewrite B2R_Babs, E, Ey in W.
  destruct (Rle_bool_spec (Rabs (rnd32 (B2R x - c))) (B2R (EPSILON (A := F32 lm) : f32))) as [K|K]; [|discriminate].
  destruct (rnd32_err (B2R x - c)) as (e & h & He & Hh & R). rewrite R in K. set (z := B2R x - c) in *. clearbody z.
  assert (z * (1 + e) = (z * (1 + e) + h) - h) as K2 by ring. assert (K3 : Rabs (z * (1 + e)) <= 100001 / 1000000000).
  { rewrite K2. eapply Rle_trans; [apply Rabs_triang|]. rewrite Rabs_Ropp. unfold tau in *. lra. }
  rewrite Rabs_mult in K3. assert (L : 999999 / 1000000 <= Rabs (1 + e)) by (apply Rabs_le_inv in He; unfold u in He; rewrite Rabs_pos_eq; lra).
  assert (Rabs z * (999999 / 1000000) <= Rabs z * Rabs (1 + e)) by (apply Rmult_le_compat_l; [apply Rabs_pos|exact L]). lra.
Qed.

(*@ C74_sound *)
(** C74: conversely, whatever the elements of an f32 matrix, if [is_so_n] or [is_orthogonal] answers yes then the matrix is square
    and every element of R R', computed exactly, is within 1.01e-4 of the identity *)
Lemma l_sound32 :
  forall (lm : Libm) (m : Mat (T (Arith := F32 lm))) (r c : nat) (a : nat -> nat -> R), mat_f m r c a ->
  m_is_so_n m = Ok true \/ m_is_orthogonal m = Ok true ->
  r = c /\ forall i j, (i < r)%nat -> (j < r)%nat -> Rabs (rmul r a (rtr a) i j - rid i j) <= 101 / 1000000.
Proof.
  intros lm m r c a (f & Hm & Ea) Y. destruct (mat_is_dim _ _ _ _ Hm) as [Dr _].
  destruct (l_recognise (F32 lm) _ m r c f Hm) as [Y1 Y2].
  assert (Z : r = c /\ forall i j, (i < r)%nat -> (j < r)%nat -> within (A := F32 lm) EPSILON (fsum (A := F32 lm) r (fun t => Bmult mode_NE (f i t : f32) (f j t : f32))) (if (i =? j)%nat then f1 else f0)).
  { destruct Y as [Y|Y]; [destruct (Y1 Y) as (K1 & _ & K2)|destruct (Y2 Y) as (K1 & _ & K2)]; split; assumption. }
  clear Y Y1 Y2. destruct Z as [<- W]. split; [reflexivity|].
  assert (FF : forall i j, (i < r)%nat -> (j < r)%nat -> is_finite (f i j : f32) = true) by (intros i j Hi Hj; apply (valid_finite lm); eapply mat_is_valid; eauto).
  assert (W' : forall i j, (i < r)%nat -> (j < r)%nat -> is_finite (fsum (A := F32 lm) r (fun t => Bmult mode_NE (f i t : f32) (f j t : f32))) = true /\
     Rabs (B2R (fsum (A := F32 lm) r (fun t => Bmult mode_NE (f i t : f32) (f j t : f32))) - rid i j) <= 10001 / 100000000).
  { intros i j Hi Hj. apply (within32_inv lm _ (if (i =? j)%nat then f1 (A := F32 lm) else f0 (A := F32 lm))); [|apply W; assumption].
    unfold rid. destruct (i =? j)%nat; [apply one32|reflexivity]. }
  destruct eta_tau as [T0 T1].
  assert (HN : forall i, (i < r)%nat -> 0 <= rnorm r (fun t => B2R (f i t : f32)) <= 1001 / 1000).
  { intros i Hi. split; [apply rnorm_pos|]. destruct (W' i i Hi Hi) as [F1 B1]. pose proof (sumsq_fin lm r (fun t => f i t : f32) ltac:(lia) F1) as SS. cbv zeta in SS.
    unfold rid in B1. rewrite Nat.eqb_refl in B1. set (s := B2R (fsum (A := F32 lm) r (fun t => Bmult mode_NE (f i t : f32) (f i t : f32)))) in *.
    set (N2 := rdot r (fun t => B2R (f i t : f32)) (fun t => B2R (f i t : f32))) in *.
    pose proof (rnorm_sqr r (fun t => B2R (f i t : f32))) as SQ. fold N2 in SQ. pose proof (rnorm_pos r (fun t => B2R (f i t : f32))) as P.
    assert (N0 : 0 <= N2) by nra. clearbody s N2.
    assert (I1 : INR (S r) <= 5) by (change 5 with (IZR (Z.of_nat 5)); rewrite <- INR_IZR_INZ; apply le_INR; lia).
    assert (I2 : INR r <= 4) by (change 4 with (IZR (Z.of_nat 4)); rewrite <- INR_IZR_INZ; apply le_INR; lia).
    assert (Q1 : INR (S r) * (1001 / 1000) * u * N2 <= 5 * (1001 / 1000) * u * N2) by (repeat apply Rmult_le_compat_r; try lra; unfold u; lra).
    assert (Q2 : 3 * INR r * eta <= 12 * eta) by (apply Rmult_le_compat_r; lra).
    apply Rabs_le_inv in SS, B1. unfold u, tau in *. nra. }
  intros i j Hi Hj. destruct (W' i j Hi Hj) as [_ B1]. pose proof (HN i Hi) as Ni. pose proof (HN j Hj) as Nj.
  assert (NN : rnorm r (fun t => B2R (f i t : f32)) * rnorm r (fun t => B2R (f j t : f32)) <= 1003 / 1000) by nra.
  destruct (prod_sum lm r (fun t => f i t : f32) (fun t => f j t : f32)) as [_ E1]; [lia|intros t Ht; split; apply FF; auto|unfold huge; apply Rle_trans with (bpow radix2 2); [cbn; lra|apply bpow_le; lia]|].
  assert (ED : rdot r (fun t => B2R (f i t : f32)) (fun t => B2R (f j t : f32)) = rmul r a (rtr a) i j).
  { unfold rdot, rmul, rtr. apply Rsum_ext. intros t Ht. rewrite !Ea by auto. reflexivity. }
  rewrite ED in E1. apply Rabs_le_inv in B1, E1. apply Rabs_le. unfold tau in *. split; lra.
Qed.

(** the determinant of the Gram matrix of three rows *)
Lemma gram3 (a : nat -> nat -> R) : let g := rmul 3 a (rtr a) in
  rdet 3 a * rdet 3 a = g 0%nat 0%nat * g 1%nat 1%nat * g 2%nat 2%nat + 2 * g 0%nat 1%nat * g 1%nat 2%nat * g 0%nat 2%nat
    - g 0%nat 0%nat * g 1%nat 2%nat * g 1%nat 2%nat - g 1%nat 1%nat * g 0%nat 2%nat * g 0%nat 2%nat - g 2%nat 2%nat * g 0%nat 1%nat * g 0%nat 1%nat.
Proof.
  intros g. rewrite P_Recog.det3. unfold g, rmul, rtr. cbn [Rsum]. ring.
Qed.

(*@ C74_sound_det *)
(** C74: and for 3 x 3 the magnitude of the determinant, computed exactly, is within 1.6e-4 of 1 *)
Lemma l_sound_det :
  forall (lm : Libm) (m : Mat (T (Arith := F32 lm))) (a : nat -> nat -> R), mat_f m 3 3 a ->
  m_is_so_n m = Ok true \/ m_is_orthogonal m = Ok true -> Rabs (Rabs (rdet 3 a) - 1) <= 16 / 100000.
Proof.
  intros lm m a Hm Y. destruct (l_sound32 lm m 3 3 a Hm Y) as [_ H]. pose proof (gram3 a) as G. cbv zeta in G.
  pose proof (H 0%nat 0%nat ltac:(lia) ltac:(lia)) as H00. pose proof (H 1%nat 1%nat ltac:(lia) ltac:(lia)) as H11. pose proof (H 2%nat 2%nat ltac:(lia) ltac:(lia)) as H22.
  pose proof (H 0%nat 1%nat ltac:(lia) ltac:(lia)) as H01. pose proof (H 1%nat 2%nat ltac:(lia) ltac:(lia)) as H12. pose proof (H 0%nat 2%nat ltac:(lia) ltac:(lia)) as H02. clear H.
  unfold rid in *. cbn [Nat.eqb] in *. set (g := rmul 3 a (rtr a)) in *.
  set (x := g 0%nat 0%nat) in *. set (y := g 1%nat 1%nat) in *. set (z := g 2%nat 2%nat) in *. set (p := g 0%nat 1%nat) in *. set (q := g 1%nat 2%nat) in *. set (r := g 0%nat 2%nat) in *.
  clearbody x y z p q r. set (d := Rabs (rdet 3 a)). assert (D0 : 0 <= d) by apply Rabs_pos. assert (DD : d * d = rdet 3 a * rdet 3 a) by (unfold d; rewrite <- Rabs_mult; apply Rabs_pos_eq, Rle_0_sqr).
  rewrite G in DD. clearbody d. clear G. rewrite Rminus_0_r in H01, H12, H02.
  apply Rabs_le_inv in H00, H11, H22. set (h := 101 / 1000000) in *.
  assert (SQ : forall v, Rabs v <= h -> 0 <= v * v <= h * h).
  { intros v Hv. split; [apply Rle_0_sqr|]. rewrite <- (Rabs_pos_eq (v * v)) by apply Rle_0_sqr. rewrite Rabs_mult. apply Rmult_le_compat; auto using Rabs_pos. }
  pose proof (SQ p H01) as S1. pose proof (SQ q H12) as S2. pose proof (SQ r H02) as S3.
  assert (XY : (1 - h) * (1 - h) <= x * y <= (1 + h) * (1 + h)) by (split; apply Rmult_le_compat; unfold h in *; lra).
  assert (XYZ : (1 - h) * (1 - h) * (1 - h) <= x * y * z <= (1 + h) * (1 + h) * (1 + h)) by (split; apply Rmult_le_compat; try (unfold h in *; lra)).
  assert (PQR : Rabs (2 * p * q * r) <= 2 * (h * h * h)).
  { replace (2 * p * q * r) with (2 * (p * q * r)) by ring. rewrite Rabs_mult, (Rabs_pos_eq 2), !Rabs_mult by lra. apply Rmult_le_compat_l; [lra|]. repeat (apply Rmult_le_compat; auto using Rabs_pos, Rmult_le_pos). }
  assert (K : forall w v, 1 - h <= w <= 1 + h -> 0 <= v * v <= h * h -> 0 <= w * v * v <= (1 + h) * (h * h)).
  { intros w v Hw Hv. rewrite Rmult_assoc. split; [apply Rmult_le_pos; unfold h in *; lra|apply Rmult_le_compat; unfold h in *; lra]. }
  pose proof (K x q ltac:(lra) S2) as K1. pose proof (K y r ltac:(lra) S3) as K2. pose proof (K z p ltac:(lra) S1) as K3.
  apply Rabs_le_inv in PQR. set (t := x * y * z) in *. set (t2 := 2 * p * q * r) in *. set (t3 := x * q * q) in *. set (t4 := y * r * r) in *. set (t5 := z * p * p) in *. clearbody t t2 t3 t4 t5.
  unfold h in *. apply Rabs_le. split; nra.
Qed.

(*@ C25_adjugate32 *)
(** C25 in f32: if [is_so_n] answers yes, [adjugate_in_place] succeeds, every element of the result is within 1.05e-4 of the transpose,
    and the product of the matrix and the result, computed exactly, is within 2.1e-4 of the identity *)
Lemma l_adjugate32 :
  forall (lm : Libm) (m : Mat (T (Arith := F32 lm))) (r c : nat) (a : nat -> nat -> R), mat_f m r c a -> m_is_so_n m = Ok true ->
  exists m' l, m_adjugate_in_place m = (m', Ok tt) /\ mat_f m' r r l /\
    forall i j, (i < r)%nat -> (j < r)%nat -> Rabs (l i j - a j i) <= 105 / 1000000 /\ Rabs (rmul r a l i j - rid i j) <= 21 / 100000.
Proof.
  intros lm m r c a HM Y. destruct (l_sound32 lm m r c a HM (or_introl Y)) as [<- HO]. destruct HM as (f & Hm & Ea). destruct (mat_is_dim _ _ _ _ Hm) as [Dr _].
  destruct (l_recognise (F32 lm) _ m r r f Hm) as [Y1 _]. destruct (Y1 Y) as (_ & (d & Ed & Wd) & _). clear Y1.
  destruct (within32_inv lm d (f1 (A := F32 lm)) 1) as [Fd Bd]; [apply one32|exact Wd|]. clear Wd.
  destruct (m_transpose_ok m r r _ Hm) as (t & Et & Ht).
  assert (FF : forall i j, (i < r)%nat -> (j < r)%nat -> is_finite (f i j : f32) = true) by (intros i j Hi Hj; apply (valid_finite lm); eapply mat_is_valid; eauto).
  assert (HB : forall i j, (i < r)%nat -> (j < r)%nat -> Rabs (a i j) <= 1001 / 1000).
  { intros i j Hi Hj. pose proof (HO i i Hi Hi) as K. unfold rid in K. rewrite Nat.eqb_refl in K. unfold rmul, rtr in K.
    pose proof (rnorm_sqr r (a i)) as SQ. unfold rdot in SQ. rewrite <- SQ in K. apply Rabs_le_inv in K. pose proof (rnorm_pos r (a i)). pose proof (rnorm_bound r (a i) j Hj). nra. }
  destruct eta_tau as [T0 T1]. assert (B127 : 1000000 <= bpow radix2 127) by (apply Rle_trans with (bpow radix2 20); [cbn; lra|apply bpow_le; lia]).
  assert (V : forall i j, (i < r)%nat -> (j < r)%nat -> is_finite (Bmult mode_NE (f j i : f32) (d : f32)) = true /\ Rabs (B2R (Bmult mode_NE (f j i : f32) (d : f32)) - a j i) <= 105 / 1000000 /\
      Rabs (B2R (Bmult mode_NE (f j i : f32) (d : f32)) - B2R (d : f32) * a j i) <= 61 / 1000000000).
  { intros i j Hi Hj. pose proof (HB j i Hj Hi) as B. set (D := B2R (d : f32)) in *.
    assert (BD : Rabs (D - 1) <= 10001 / 100000000) by exact Bd. assert (AD : Rabs D <= 1001 / 1000) by (apply Rabs_le_inv in BD; apply Rabs_le; split; lra).
    assert (P : Rabs (a j i * D) <= 1003 / 1000) by (rewrite Rabs_mult; apply Rle_trans with (1001 / 1000 * (1001 / 1000)); [apply Rmult_le_compat; auto using Rabs_pos|lra]).
    destruct (mult_ok (f j i) d (FF j i Hj Hi) Fd) as [F1 E1]; [rewrite Ea by assumption; fold D; lra|]. split; [exact F1|]. rewrite E1, Ea by assumption. fold D.
    destruct (rnd32_err (a j i * D)) as (e & h & He & Hh & ->). assert (Q2 : Rabs (a j i * D * e) <= 1003 / 1000 * u) by (rewrite Rabs_mult; apply Rmult_le_compat; auto using Rabs_pos).
    split.
    2:{ replace (a j i * D * (1 + e) + h - D * a j i) with (a j i * D * e + h) by ring. eapply Rle_trans; [apply Rabs_triang|]. unfold tau, u in *. lra. }
    replace (a j i * D * (1 + e) + h - a j i) with (a j i * (D - 1) + (a j i * D) * e + h) by ring.
    assert (Q1 : Rabs (a j i * (D - 1)) <= 1001 / 1000 * (10001 / 100000000)) by (rewrite Rabs_mult; apply Rmult_le_compat; auto using Rabs_pos).
    eapply Rle_trans; [apply Rabs_triang|]. eapply Rle_trans; [apply Rplus_le_compat_r, Rabs_triang|]. unfold tau, u in *. lra. }
  destruct (l_matrix_in_place (F32 lm) t t r r _ _ Ht Ht d) as (_ & _ & _ & _ & P & _).
  eapply pointwise_m_ok in P; [|intros i j Hi Hj; apply (valid_finite lm); apply (V i j Hi Hj)]. destruct P as (m' & E' & H').
  exists m', (fun i j => B2R (Bmult mode_NE (f j i : f32) (d : f32))). split; [|split].
  - unfold m_adjugate_in_place, sbind, reads. rewrite Y, Ed, Et. exact E'.
  - eexists. split; [exact H'|]. reflexivity.
  - intros i j Hi Hj. split; [apply V; assumption|].
    set (D := B2R (d : f32)) in *. set (l := fun i j => B2R (Bmult mode_NE (f j i : f32) (d : f32))).
    assert (G : forall n, Rsum n (fun t => a i t * l t j) = D * Rsum n (fun t => a i t * a j t) + Rsum n (fun t => a i t * (l t j - D * a j t))).
    { induction n as [|n IH]; cbn [Rsum]; [ring|]. rewrite IH. ring. }
    assert (S1 : Rabs (Rsum r (fun t => a i t * (l t j - D * a j t))) <= 4 * (1001 / 1000 * (61 / 1000000000))).
    { eapply Rle_trans; [apply Rsum_abs|]. eapply Rle_trans; [apply (Rsum_le r _ (fun _ => 1001 / 1000 * (61 / 1000000000)))|].
      - intros t0 Ht0. rewrite Rabs_mult. apply Rmult_le_compat; auto using Rabs_pos. apply (V t0 j Ht0 Hj).
      - rewrite Rsum_const. apply Rmult_le_compat_r; [lra|]. change 4 with (IZR (Z.of_nat 4)). rewrite <- INR_IZR_INZ. apply le_INR. lia. }
    pose proof (HO i j Hi Hj) as O1. unfold rmul, rtr in O1 |- *. rewrite G. set (S0 := Rsum r (fun t => a i t * a j t)) in *. set (S2 := Rsum r _) in *.
    assert (RI : 0 <= rid i j <= 1) by (unfold rid; destruct (i =? j)%nat; lra). set (z := rid i j) in *. clearbody z S0 S2.
    replace (D * S0 + S2 - z) with (D * (S0 - z) + (D - 1) * z + S2) by ring.
    assert (BD : Rabs (D - 1) <= 10001 / 100000000) by exact Bd. assert (AD : Rabs D <= 1001 / 1000) by (apply Rabs_le_inv in BD; apply Rabs_le; split; lra).
    assert (Q1 : Rabs (D * (S0 - z)) <= 1001 / 1000 * (101 / 1000000)) by (rewrite Rabs_mult; apply Rmult_le_compat; auto using Rabs_pos).
    assert (Q2 : Rabs ((D - 1) * z) <= 10001 / 100000000 * 1) by (rewrite Rabs_mult; apply Rmult_le_compat; auto using Rabs_pos; rewrite Rabs_pos_eq; lra).
    eapply Rle_trans; [apply Rabs_triang|]. eapply Rle_trans; [apply Rplus_le_compat_r, Rabs_triang|]. lra.
Qed.

Lemma sound_ex : forall lm : Libm, let m := mk_mat (A := F32 lm) 3 3 (map z32 [1; 0; 0; 0; 0; -1; 0; 1; 0]%Z) in
  mat_f (lm := lm) m 3 3 (fun i j => IZR (nth (i * 3 + j) [1; 0; 0; 0; 0; -1; 0; 1; 0]%Z 0%Z)) /\ m_is_so_n m = Ok true.
Proof.
  intros lm m. split; [apply (mat_z lm 3 3); [lia|lia|reflexivity|repeat constructor; cbn; lia]|]. vm_compute. reflexivity.
Qed.
(*@ example *)
(** test: a quarter turn about x is recognised *)
Example C74_example_sound : forall lm : Libm, let m := mk_mat (A := F32 lm) 3 3 (map z32 [1; 0; 0; 0; 0; -1; 0; 1; 0]%Z) in
  mat_f (lm := lm) m 3 3 (fun i j => IZR (nth (i * 3 + j) [1; 0; 0; 0; 0; -1; 0; 1; 0]%Z 0%Z)) /\ m_is_so_n m = Ok true.
Proof. exact sound_ex. Qed.
