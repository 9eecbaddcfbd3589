(** C61: rotation of vectors in f32. *)
(*@+*)
From Coq Require Import List Arith ZArith Reals Lia Bool Lra SpecFloat.
From Flocq Require Import Core BinarySingleNaN.
From Verif Require Import M_Base M_Arith M_Utils M_Vector M_Matrix M_Quaternion M_F32
  S_Spec S_Linalg S_Norm S_Quat S_F32 P_Inst P_InstF.
Import ListNotations.
Local Open Scope R_scope.
(*@-*)
From Coq Require Import Psatz.
From Verif Require Import P_Hoare P_Cont P_Loops P_Access P_Pointwise P_Trans P_Float P_Product
  P_Compare P_Dot P_Norm P_FErr P_Norm32 P_Quat P_Rot P_FAcc P_F32Mul.

Lemma tiny_small : tiny <= / 1000000000000.
Proof. unfold tiny. apply Rle_trans with (bpow radix2 (-40)); [apply bpow_le; lia|]. cbn. lra. Qed.
Lemma eta_small2 : eta <= / 1000000000000.
Proof. pose proof eta_1. pose proof eta_small. unfold u in *. lra. Qed.

Section Ent.
  (** entries: sums of two or four products of components of a quaternion of norm close to 1 *)
  Variable lm : Libm.
  Lemma twice (s : f32) N d : is_finite s = true -> Rabs (B2R s - N) <= d -> Rabs N <= 2 -> d <= 1 ->
    is_finite (Bmult mode_NE (f2 (A := F32 lm)) s) = true /\
    Rabs (B2R (Bmult mode_NE (f2 (A := F32 lm)) s) - 2 * N) <= 2 * d * (1 + u) + u * (2 * Rabs N) + eta.
  Proof.
    intros F H HN Hd. pose proof (z32_R 2 ltac:(lia)) as [F2 E2]. change (z32 2) with (f2 (A := F32 lm) : f32) in *.
    pose proof huge_1 as HH. assert (D0 : 0 <= d) by (eapply Rle_trans; [apply Rabs_pos|exact H]).
    assert (HS : Rabs (2 * B2R s) <= 6).
    { apply Rabs_le_inv in H. apply Rabs_le_inv in HN. apply Rabs_le. lra. }
    destruct (mult_ok (f2 (A := F32 lm)) s F2 F) as [Fm Em]. { rewrite E2, huge_127. lra. }
    split; [exact Fm|]. rewrite Em, E2. apply rnd_acc; [|rewrite Rabs_mult, Rabs_pos_eq; lra|lra].
    replace (2 * B2R s - 2 * N) with (2 * (B2R s - N)) by ring. rewrite Rabs_mult, Rabs_pos_eq; lra.
  Qed.
  Lemma one_minus (t : f32) N d : is_finite t = true -> Rabs (B2R t - N) <= d -> Rabs N <= 4 -> d <= 1 ->
    is_finite (Bminus mode_NE (f1 (A := F32 lm)) t) = true /\
    Rabs (B2R (Bminus mode_NE (f1 (A := F32 lm)) t) - (1 - N)) <= d * (1 + u) + u * Rabs (1 - N) + eta.
  Proof.
    intros F H HN Hd. pose proof (z32_R 1 ltac:(lia)) as [F1 E1]. change (z32 1) with (f1 (A := F32 lm) : f32) in *.
    pose proof huge_1 as HH. assert (D0 : 0 <= d) by (eapply Rle_trans; [apply Rabs_pos|exact H]).
    assert (HS : Rabs (1 - B2R t) <= 6).
    { apply Rabs_le_inv in H. apply Rabs_le_inv in HN. apply Rabs_le. lra. }
    destruct (minus_ok (f1 (A := F32 lm)) t F1 F) as [Fm Em]. { rewrite E1, huge_127. lra. }
    split; [exact Fm|]. rewrite Em, E1. apply rnd_acc; [|lra|lra].
    replace (1 - B2R t - (1 - N)) with (- (B2R t - N)) by ring. rewrite Rabs_Ropp. exact H.
  Qed.
  Definition two (b : bool) (x0 y0 x1 y1 : f32) : f32 :=
    if b then Bplus mode_NE (Bmult mode_NE x0 y0) (Bmult mode_NE x1 y1) else Bminus mode_NE (Bmult mode_NE x0 y0) (Bmult mode_NE x1 y1).
  Lemma two_err (b : bool) (x0 y0 x1 y1 : f32) : is_finite x0 = true -> is_finite y0 = true -> is_finite x1 = true -> is_finite y1 = true ->
    Rabs (B2R x0 * B2R y0) + Rabs (B2R x1 * B2R y1) <= 2 ->
    is_finite (two b x0 y0 x1 y1) = true /\
    Rabs (B2R (two b x0 y0 x1 y1) - (if b then B2R x0 * B2R y0 + B2R x1 * B2R y1 else B2R x0 * B2R y0 - B2R x1 * B2R y1))
      <= 2 / 16000000 * (Rabs (B2R x0 * B2R y0) + Rabs (B2R x1 * B2R y1)) + tiny.
  Proof.
    intros F1 F2 F3 F4 H. pose proof huge_1. pose proof (Rabs_pos (B2R x0 * B2R y0)). pose proof (Rabs_pos (B2R x1 * B2R y1)).
    assert (A : acc (1 + 1) (two b x0 y0 x1 y1) (if b then B2R x0 * B2R y0 + B2R x1 * B2R y1 else B2R x0 * B2R y0 - B2R x1 * B2R y1)
       (Rabs (B2R x0 * B2R y0) + Rabs (B2R x1 * B2R y1))).
    { apply (acc_step b 1); auto; [lra| |lra]. apply acc_prod; auto. lra. }
    split; [apply A|]. replace 2 with (1 + 1) at 1 by ring. apply acc_final; [lra|exact A].
  Qed.
  (** 2 (x0 y0 +- x1 y1), with the sum of the magnitudes at most 51/50 (twice it at most 1.02 for off-diagonal cells) *)
  Lemma two_two (b : bool) (x0 y0 x1 y1 : f32) : is_finite x0 = true -> is_finite y0 = true -> is_finite x1 = true -> is_finite y1 = true ->
    let N := if b then B2R x0 * B2R y0 + B2R x1 * B2R y1 else B2R x0 * B2R y0 - B2R x1 * B2R y1 in
    Rabs (B2R x0 * B2R y0) + Rabs (B2R x1 * B2R y1) <= 51 / 50 ->
    is_finite (Bmult mode_NE (f2 (A := F32 lm)) (two b x0 y0 x1 y1)) = true /\
    Rabs (B2R (Bmult mode_NE (f2 (A := F32 lm)) (two b x0 y0 x1 y1)) - 2 * N) <= 4 / 10000000.
  Proof.
    intros F1 F2 F3 F4 N H. pose proof tiny_small. pose proof tiny_pos. pose proof eta_small2.
    destruct (two_err b x0 y0 x1 y1 F1 F2 F3 F4 ltac:(lra)) as [F E]. fold N in E.
    assert (HN : Rabs N <= 51 / 50).
    { eapply Rle_trans; [|exact H]. unfold N. destruct b; [apply Rabs_triang|].
      unfold Rminus. eapply Rle_trans; [apply Rabs_triang|]. rewrite Rabs_Ropp. lra. }
    destruct (twice (two b x0 y0 x1 y1) N _ F E ltac:(lra) ltac:(lra)) as [Ft Et]. split; [exact Ft|].
    eapply Rle_trans; [exact Et|]. unfold u. lra.
  Qed.
End Ent.

Definition matq (q : quat) (i j : nat) : R :=
  let '(Quat w x y z) := q in
  nth (3 * i + j) [ w*w + x*x - y*y - z*z; 2 * (x*y - w*z); 2 * (x*z + w*y);
                    2 * (x*y + w*z); 1 - 2 * (x*x + z*z); 2 * (y*z - w*x);
                    2 * (x*z - w*y); 2 * (w*x + y*z); 1 - 2 * (x*x + y*y) ] 0.
Lemma qunit_unit q : 0 < qnorm q -> unitq (qunit q).
Proof.
  intros H. unfold unitq, qunit, qnorm2, qscale. cbn.
  replace (_ + _) with (/ qnorm q * / qnorm q * qnorm2 q) by (unfold qnorm2; ring).
  rewrite <- qnorm_sqr. field. lra.
Qed.
(** the polynomial matrix of a quaternion of norm 1 +- d is within 5 d of the rotation matrix of its direction *)
Lemma matq_unit q d i j : Rabs (qnorm q - 1) <= d -> d <= / 100 -> (i < 3)%nat -> (j < 3)%nat ->
  Rabs (matq q i j - rotmat (qunit q) i j) <= 5 * d.
Proof.
  intros H Hd Hi Hj. apply Rabs_le_inv in H. assert (N0 : 0 < qnorm q) by lra.
  pose proof (rotmat_list (qunit q) i j Hi Hj (qunit_unit q N0)) as RL.
  set (s := qnorm2 q). assert (Hs : - (21 / 10 * d) <= s - 1 <= 21 / 10 * d).
  { unfold s. rewrite <- qnorm_sqr. nra. }
  destruct q as [w x y z]. unfold qunit, qscale in *. cbn [Qw Qx Qy Qz] in *. rewrite RL. clear RL.
  assert (S0 : 0 < s) by lra.
  set (n := qnorm (Quat w x y z)) in *.
  assert (NN : / n * / n = / s). { unfold s. rewrite <- qnorm_sqr. fold n. field. lra. }
  assert (IS : / s * s = 1) by (field; lra).
  set (k := / s) in *. assert (K0 : 0 < k) by (apply Rinv_0_lt_compat; lra).
  assert (KS : Rabs (1 - k) * s <= 21 / 10 * d).
  { unfold Rabs. destruct (Rcase_abs (1 - k)); nra. }
  assert (G : forall c, Rabs c <= s -> Rabs (c - k * c) <= 21 / 10 * d).
  { intros c Hc. replace (c - k * c) with ((1 - k) * c) by ring. rewrite Rabs_mult.
    eapply Rle_trans; [|exact KS]. apply Rmult_le_compat_l; [apply Rabs_pos|exact Hc]. }
  assert (SE : s = w * w + x * x + y * y + z * z) by reflexivity. clearbody s.
  assert (SQ : forall a b, 0 <= (a - b) * (a - b) /\ 0 <= (a + b) * (a + b)) by (intros; split; apply Rle_0_sqr).
  assert (PP : forall a, 0 <= a * a) by (intros; apply Rle_0_sqr).
  destruct i as [|[|[|i]]]; [| | |lia]; (destruct j as [|[|[|j]]]; [| | |lia]); cbn [matq Nat.mul Nat.add nth].
  all: pose proof (PP w); pose proof (PP x); pose proof (PP y); pose proof (PP z).
  - replace (_ - _) with ((w * w + x * x - y * y - z * z) - k * (w * w + x * x - y * y - z * z)) by (rewrite <- NN; ring).
    eapply Rle_trans; [apply G|lra]. apply Rabs_le. lra.
  - replace (_ - _) with (2 * (x * y - w * z) - k * (2 * (x * y - w * z))) by (rewrite <- NN; ring).
    eapply Rle_trans; [apply G|lra]. pose proof (SQ x y). pose proof (SQ w z). apply Rabs_le. lra.
  - replace (_ - _) with (2 * (x * z + w * y) - k * (2 * (x * z + w * y))) by (rewrite <- NN; ring).
    eapply Rle_trans; [apply G|lra]. pose proof (SQ x z). pose proof (SQ w y). apply Rabs_le. lra.
  - replace (_ - _) with (2 * (x * y + w * z) - k * (2 * (x * y + w * z))) by (rewrite <- NN; ring).
    eapply Rle_trans; [apply G|lra]. pose proof (SQ x y). pose proof (SQ w z). apply Rabs_le. lra.
  - replace (_ - _) with (- (2 * ((x * x + z * z) - k * (x * x + z * z)))) by (rewrite <- NN; ring).
    rewrite Rabs_Ropp, Rabs_mult, Rabs_pos_eq by lra. specialize (G (x * x + z * z)). rewrite Rabs_pos_eq in G by lra. lra.
  - replace (_ - _) with (2 * (y * z - w * x) - k * (2 * (y * z - w * x))) by (rewrite <- NN; ring).
    eapply Rle_trans; [apply G|lra]. pose proof (SQ y z). pose proof (SQ w x). apply Rabs_le. lra.
  - replace (_ - _) with (2 * (x * z - w * y) - k * (2 * (x * z - w * y))) by (rewrite <- NN; ring).
    eapply Rle_trans; [apply G|lra]. pose proof (SQ x z). pose proof (SQ w y). apply Rabs_le. lra.
  - replace (_ - _) with (2 * (w * x + y * z) - k * (2 * (w * x + y * z))) by (rewrite <- NN; ring).
    eapply Rle_trans; [apply G|lra]. pose proof (SQ y z). pose proof (SQ w x). apply Rabs_le. lra.
  - replace (_ - _) with (- (2 * ((x * x + y * y) - k * (x * x + y * y)))) by (rewrite <- NN; ring).
    rewrite Rabs_Ropp, Rabs_mult, Rabs_pos_eq by lra. specialize (G (x * x + y * y)). rewrite Rabs_pos_eq in G by lra. lra.
Qed.

(** the machine matrix *)
Lemma dcm32 lm (v : Vec (T (Arith := F32 lm))) (p : quat) : quat_f v p -> Rabs (qnorm p - 1) <= / 100 ->
  exists m a, q_convert_to_dcm v = Ok m /\ mat_f m 3 3 a /\
    forall i j, (i < 3)%nat -> (j < 3)%nat -> Rabs (a i j - matq p i j) <= 9 / 10000000.
Proof.
  intros Hv HN. destruct (quat_f_inv _ _ _ Hv) as (f & Hf & Ff).
  destruct (Ff 0%nat ltac:(lia)) as [Fw Ew]. destruct (Ff 1%nat ltac:(lia)) as [Fx Ex].
  destruct (Ff 2%nat ltac:(lia)) as [Fy Ey]. destruct (Ff 3%nat ltac:(lia)) as [Fz Ez]. cbn [qf quad] in *.
  destruct p as [w x y z]. cbn [Qw Qx Qy Qz] in *.
  apply Rabs_le_inv in HN.
  assert (HS : w * w + x * x + y * y + z * z <= 51 / 50 + / 1000).
  { change (qnorm2 (Quat w x y z) <= 51 / 50 + / 1000). rewrite <- qnorm_sqr. nra. }
  assert (SQ : forall a b, 0 <= (a - b) * (a - b) /\ 0 <= (a + b) * (a + b)) by (intros; split; apply Rle_0_sqr).
  assert (PP : forall a, 0 <= a * a) by (intros; apply Rle_0_sqr).
  pose proof (PP w) as Pw. pose proof (PP x) as Px. pose proof (PP y) as Py. pose proof (PP z) as Pz.
  assert (AB : forall a b, Rabs (a * b) <= (a * a + b * b) / 2).
  { intros a b. destruct (SQ a b). apply Rabs_le. lra. }
  pose proof tiny_small as TS. pose proof tiny_pos as TP. pose proof eta_small2 as ES.
  (* off-diagonal cells *)
  assert (OFF : forall b x0 y0 x1 y1, is_finite x0 = true -> is_finite y0 = true -> is_finite x1 = true -> is_finite y1 = true ->
    (B2R x0 * B2R x0 + B2R y0 * B2R y0) + (B2R x1 * B2R x1 + B2R y1 * B2R y1) <= 51 / 50 + / 1000 ->
    let N := if b : bool then B2R x0 * B2R y0 + B2R x1 * B2R y1 else B2R x0 * B2R y0 - B2R x1 * B2R y1 in
    is_finite (Bmult mode_NE (f2 (A := F32 lm)) (two b x0 y0 x1 y1)) = true /\
    Rabs (B2R (Bmult mode_NE (f2 (A := F32 lm)) (two b x0 y0 x1 y1)) - 2 * N) <= 9 / 10000000).
  { intros b x0 y0 x1 y1 F1 F2 F3 F4 H. pose proof (AB (B2R x0) (B2R y0)). pose proof (AB (B2R x1) (B2R y1)).
    destruct (two_two lm b x0 y0 x1 y1 F1 F2 F3 F4 ltac:(lra)) as [Fm Em]. split; [exact Fm|]. cbv zeta. lra. }
  (* the last two diagonal cells *)
  assert (DIA : forall x0 x1, is_finite x0 = true -> is_finite x1 = true ->
    B2R x0 * B2R x0 + B2R x1 * B2R x1 <= 51 / 50 + / 1000 ->
    let t := Bminus mode_NE (f1 (A := F32 lm)) (Bmult mode_NE (f2 (A := F32 lm)) (two true x0 x0 x1 x1)) in
    is_finite t = true /\ Rabs (B2R t - (1 - 2 * (B2R x0 * B2R x0 + B2R x1 * B2R x1))) <= 9 / 10000000).
  { intros x0 x1 F1 F2 H t. pose proof (PP (B2R x0)) as P0. pose proof (PP (B2R x1)) as P1.
    assert (M : Rabs (B2R x0 * B2R x0) + Rabs (B2R x1 * B2R x1) = B2R x0 * B2R x0 + B2R x1 * B2R x1) by (rewrite !Rabs_pos_eq; auto).
    destruct (two_err true x0 x0 x1 x1 F1 F1 F2 F2) as [F E]; [rewrite M; lra|]. rewrite M in E. cbv iota in E.
    assert (H0 : 0 <= B2R x0 * B2R x0 + B2R x1 * B2R x1) by lra.
    set (N := B2R x0 * B2R x0 + B2R x1 * B2R x1) in *.
    destruct (twice lm (two true x0 x0 x1 x1) N _ F E) as [Ft Et]; [rewrite Rabs_pos_eq; lra|lra|].
    rewrite (Rabs_pos_eq N) in Et by lra.
    destruct (one_minus lm _ (2 * N) _ Ft Et) as [Fo Eo]; [rewrite Rabs_pos_eq; lra|unfold u; lra|].
    split; [exact Fo|]. eapply Rle_trans; [exact Eo|].
    assert (Rabs (1 - 2 * N) <= 11 / 10) by (apply Rabs_le; lra).
    unfold u. lra. }
  (* the first cell *)
  assert (FST : let t := Bminus mode_NE (Bminus mode_NE (Bplus mode_NE (Bmult mode_NE (f 0%nat) (f 0%nat)) (Bmult mode_NE (f 1%nat) (f 1%nat)))
       (Bmult mode_NE (f 2%nat) (f 2%nat))) (Bmult mode_NE (f 3%nat) (f 3%nat)) in
    is_finite t = true /\ Rabs (B2R t - (w * w + x * x - y * y - z * z)) <= 9 / 10000000).
  { intros t. pose proof huge_1.
    assert (A : acc (1 + 1 + 1 + 1) t (w * w + x * x - y * y - z * z)
       (Rabs (B2R (f 0%nat) * B2R (f 0%nat)) + Rabs (B2R (f 1%nat) * B2R (f 1%nat)) + Rabs (B2R (f 2%nat) * B2R (f 2%nat)) + Rabs (B2R (f 3%nat) * B2R (f 3%nat)))).
    { rewrite <- Ew, <- Ex, <- Ey, <- Ez.
      assert (S : Rabs (B2R (f 0%nat) * B2R (f 0%nat)) + Rabs (B2R (f 1%nat) * B2R (f 1%nat)) + Rabs (B2R (f 2%nat) * B2R (f 2%nat)) + Rabs (B2R (f 3%nat) * B2R (f 3%nat)) <= 2).
      { rewrite Ew, Ex, Ey, Ez, !Rabs_pos_eq by auto. lra. }
      pose proof (Rabs_pos (B2R (f 0%nat) * B2R (f 0%nat))). pose proof (Rabs_pos (B2R (f 1%nat) * B2R (f 1%nat))).
      pose proof (Rabs_pos (B2R (f 2%nat) * B2R (f 2%nat))). pose proof (Rabs_pos (B2R (f 3%nat) * B2R (f 3%nat))).
      apply (acc_step false (1 + 1 + 1)); auto; [lra| |lra]. apply (acc_step false (1 + 1)); auto; [lra| |lra].
      apply (acc_step true 1); auto; [lra| |lra]. apply acc_prod; auto. lra. }
    split; [apply A|]. eapply Rle_trans; [apply (acc_final (1 + 1 + 1 + 1) _ _ _ ltac:(lra) A)|].
    rewrite Ew, Ex, Ey, Ez, !Rabs_pos_eq by auto. lra. }
  pose proof (OFF false (f 1%nat) (f 2%nat) (f 0%nat) (f 3%nat)) as C01. pose proof (OFF true (f 1%nat) (f 3%nat) (f 0%nat) (f 2%nat)) as C02.
  pose proof (OFF true (f 1%nat) (f 2%nat) (f 0%nat) (f 3%nat)) as C10. pose proof (OFF false (f 2%nat) (f 3%nat) (f 0%nat) (f 1%nat)) as C12.
  pose proof (OFF false (f 1%nat) (f 3%nat) (f 0%nat) (f 2%nat)) as C20. pose proof (OFF true (f 0%nat) (f 1%nat) (f 2%nat) (f 3%nat)) as C21.
  pose proof (DIA (f 1%nat) (f 3%nat)) as C11. pose proof (DIA (f 1%nat) (f 2%nat)) as C22.
  cbv zeta iota in *. rewrite Ew, Ex, Ey, Ez in *.
  destruct C01 as [V01 B01]; auto; [lra|]. destruct C02 as [V02 B02]; auto; [lra|]. destruct C10 as [V10 B10]; auto; [lra|].
  destruct C12 as [V12 B12]; auto; [lra|]. destruct C20 as [V20 B20]; auto; [lra|]. destruct C21 as [V21 B21]; auto; [lra|].
  destruct C11 as [V11 B11]; auto; [lra|]. destruct C22 as [V22 B22]; auto; [lra|]. destruct FST as [V00 B00].
  destruct (dcm_ok (A := F32 lm) v f Hf) as (m & Em & Hm).
  { repeat constructor; apply (valid_finite lm); assumption. }
  eexists m, _. split; [exact Em|]. split; [eexists; split; [exact Hm|]; intros; reflexivity|].
  intros i j Hi Hj.
  destruct i as [|[|[|i]]]; [| | |lia]; (destruct j as [|[|[|j]]]; [| | |lia]); cbn [matq Nat.mul Nat.add nth grid]; assumption.
Qed.

(*@ C61_dcm *)
(** C61: for an f32 quaternion of norm 1 +- d (d up to 1/100) [convert_to_dcm] succeeds and every cell is within
    5 d + 1e-6 of the rotation matrix of the direction of the quaternion *)
Lemma l_dcm32 :
  forall (lm : Libm) (v : Vec (T (Arith := F32 lm))) (q : quat) (d : R),
  quat_f v q -> Rabs (qnorm q - 1) <= d -> d <= / 100 ->
  exists m a, q_convert_to_dcm v = Ok m /\ mat_f m 3 3 a /\ rotation (rotmat (qunit q)) /\
    forall i j, (i < 3)%nat -> (j < 3)%nat -> Rabs (a i j - rotmat (qunit q) i j) <= 5 * d + / 1000000.
Proof.
  intros lm v q d Hv HN Hd. destruct (dcm32 lm v q Hv ltac:(lra)) as (m & a & E & Hm & B).
  exists m, a. split; [exact E|]. split; [exact Hm|]. split.
  { apply rotmat_rotation, qunit_unit. apply Rabs_le_inv in HN. lra. }
  intros i j Hi Hj. replace (a i j - rotmat (qunit q) i j) with ((a i j - matq q i j) + (matq q i j - rotmat (qunit q) i j)) by ring.
  eapply Rle_trans; [apply Rabs_triang|]. pose proof (B i j Hi Hj). pose proof (matq_unit q d i j HN Hd Hi Hj). lra.
Qed.

Lemma rotation_le1 a i j : rotation a -> (i < 3)%nat -> (j < 3)%nat -> Rabs (a i j) <= 1.
Proof.
  intros (H & _ & _) Hi Hj. specialize (H i i Hi Hi). unfold rmul, rtr, rid in H. rewrite Nat.eqb_refl in H. cbn in H.
  assert (PP : forall t, 0 <= t * t) by (intros; apply Rle_0_sqr).
  pose proof (PP (a i 0%nat)). pose proof (PP (a i 1%nat)). pose proof (PP (a i 2%nat)).
  assert (a i j * a i j <= 1). { destruct j as [|[|[|j]]]; [| | |lia]; lra. }
  apply Rabs_le. nra.
Qed.
Lemma sum3 x : let S := Rabs (x 0%nat) + Rabs (x 1%nat) + Rabs (x 2%nat) in
  0 <= S /\ S * S <= 3 * (rnorm 3 x * rnorm 3 x) /\ S <= 2 * rnorm 3 x.
Proof.
  cbv zeta. rewrite rnorm_sqr. unfold rdot. cbn [Rsum].
  assert (E : forall t, t * t = Rabs t * Rabs t) by (intros; rewrite <- Rabs_mult, Rabs_pos_eq; [auto|apply Rle_0_sqr]).
  pose proof (Rabs_pos (x 0%nat)). pose proof (Rabs_pos (x 1%nat)). pose proof (Rabs_pos (x 2%nat)).
  assert (Q : (Rabs (x 0%nat) + Rabs (x 1%nat) + Rabs (x 2%nat)) * (Rabs (x 0%nat) + Rabs (x 1%nat) + Rabs (x 2%nat)) <=
    3 * (0 + x 0%nat * x 0%nat + x 1%nat * x 1%nat + x 2%nat * x 2%nat)).
  { rewrite (E (x 0%nat)), (E (x 1%nat)), (E (x 2%nat)).
    set (a := Rabs (x 0%nat)) in *. set (b := Rabs (x 1%nat)) in *. set (c := Rabs (x 2%nat)) in *.
    pose proof (Rle_0_sqr (a - b)). pose proof (Rle_0_sqr (a - c)). pose proof (Rle_0_sqr (b - c)). unfold Rsqr in *. lra. }
  split; [lra|]. split; [exact Q|]. apply sqr_le_abs; [pose proof (rnorm_pos 3 x); lra|].
  eapply Rle_trans; [exact Q|]. replace (2 * rnorm 3 x * (2 * rnorm 3 x)) with (4 * (rnorm 3 x * rnorm 3 x)) by ring.
  rewrite rnorm_sqr. unfold rdot. cbn [Rsum]. rewrite (E (x 0%nat)), (E (x 1%nat)), (E (x 2%nat)).
  assert (PP : forall t, 0 <= t * t) by (intros; apply Rle_0_sqr).
  pose proof (PP (Rabs (x 0%nat))). pose proof (PP (Rabs (x 1%nat))). pose proof (PP (Rabs (x 2%nat))). lra.
Qed.
Lemma norm3_bound c (x : nat -> R) K t : 0 <= K -> 0 <= t ->
  (forall i, (i < 3)%nat -> Rabs (c i) <= K * (Rabs (x 0%nat) + Rabs (x 1%nat) + Rabs (x 2%nat)) + t) ->
  rnorm 3 c <= 3 * K * rnorm 3 x + 2 * t.
Proof.
  intros HK Ht H. destruct (sum3 x) as (S0 & SS & S2). set (S := Rabs (x 0%nat) + _ + _) in *.
  pose proof (rnorm_pos 3 x) as X0. set (X := rnorm 3 x) in *. apply sqr_le_abs; [nra|].
  rewrite rnorm_sqr. unfold rdot. cbn [Rsum].
  assert (E : forall i, (i < 3)%nat -> c i * c i <= (K * S + t) * (K * S + t)).
  { intros i Hi. specialize (H i Hi). apply Rabs_le_inv in H. nra. }
  pose proof (E 0%nat ltac:(lia)). pose proof (E 1%nat ltac:(lia)). pose proof (E 2%nat ltac:(lia)).
  assert (K * K * (S * S) <= K * K * (3 * (X * X))) by (apply Rmult_le_compat_l; [apply Rle_0_sqr|auto]).
  assert (K * t * S <= K * t * (2 * X)) by (apply Rmult_le_compat_l; [apply Rmult_le_pos; auto|auto]).
  assert (0 <= t * t) by (apply Rle_0_sqr).
  replace ((3 * K * X + 2 * t) * (3 * K * X + 2 * t)) with (3 * (K * K * (3 * (X * X))) + 6 * (K * t * (2 * X)) + 4 * (t * t)) by ring.
  replace ((K * S + t) * (K * S + t)) with (K * K * (S * S) + 2 * (K * t * S) + t * t) in * by ring. lra.
Qed.

(** vectors as pure quaternions *)
Definition pq (x : nat -> R) : quat := Quat 0 (x 0%nat) (x 1%nat) (x 2%nat).
Lemma pq_norm x : rnorm 3 x = qnorm (pq x).
Proof. unfold rnorm, qnorm, rdot, qnorm2. cbn. f_equal. ring. Qed.
Lemma pq_dist x y : vdist 3 x y = qdist (pq x) (pq y).
Proof. unfold vdist, qdist. rewrite pq_norm. f_equal. apply quat_eta; cbn; ring. Qed.
Lemma vdist_norm x y : Rabs (rnorm 3 x - rnorm 3 y) <= vdist 3 x y.
Proof. rewrite pq_dist, !pq_norm. apply qdist_norm_abs. Qed.
Lemma vdist_tri x y z : vdist 3 x z <= vdist 3 x y + vdist 3 y z.
Proof. rewrite !pq_dist. apply qdist_tri. Qed.
Lemma qrot_len q x : unitq q -> rnorm 3 (qrot q x) = rnorm 3 x.
Proof. intros U. unfold rnorm. rewrite qrot_norm by auto. reflexivity. Qed.
Lemma pq_rot q x : pq (qrot q x) = qmul (qmul q (pq x)) (qconj q).
Proof. apply quat_eta; cbn; ring. Qed.

(*@ C61_rotate *)
(** C61: [rotate] and [rotate_in_place] with an f32 quaternion of norm 1 +- d succeed, agree, and the distance of the
    result from the true rotation is at most (15 d + 4e-6) times the length of the vector (plus 2^-139);
    for d = 1e-6, which [normalize] guarantees, 1.9e-5.  The length changes by no more than that. *)
Lemma l_rotate32 :
  forall (lm : Libm) (qv v : Vec (T (Arith := F32 lm))) (q : quat) (x : nat -> R) (d : R),
  quat_f qv q -> Rabs (qnorm q - 1) <= d -> d <= / 100 -> vec_f v 3 x -> rnorm 3 x <= bpow radix2 100 ->
  exists v1 v2 y, q_rotate qv v = Ok v1 /\ q_rotate_in_place qv v = (v2, Ok tt) /\ vec_f v1 3 y /\ vec_f v2 3 y /\
    vdist 3 y (qrot (qunit q) x) <= (15 * d + 4 / 1000000) * rnorm 3 x + 2 * tiny /\
    Rabs (rnorm 3 y - rnorm 3 x) <= (15 * d + 4 / 1000000) * rnorm 3 x + 2 * tiny.
Proof.
  intros lm qv v q x d Hq HN Hd Hv HX.
  destruct (l_dcm32 lm qv q d Hq HN Hd) as (m & a & Em & Hm & ROT & B).
  destruct Hv as (f & Hf & Ef).
  destruct (v_convert_ok v 3 _ Hf) as (vm & Evm & Hvm).
  assert (Hvf : mat_f vm 3 1 (fun i _ => x i)).
  { eexists. split; [exact Hvm|]. intros i j Hi _. apply Ef, Hi. }
  assert (AL : forall i j, (i < 3)%nat -> (j < 3)%nat -> Rabs (a i j) <= 106 / 100).
  { intros i j Hi Hj. pose proof (B i j Hi Hj) as Bij. pose proof (rotation_le1 _ i j ROT Hi Hj) as L.
    apply Rabs_le_inv in Bij. apply Rabs_le_inv in L. apply Rabs_le. lra. }
  assert (D0 : 0 <= d) by (eapply Rle_trans; [apply Rabs_pos|exact HN]).
  destruct (sum3 x) as (S0 & SS & S2). set (S := Rabs (x 0%nat) + _ + _) in *.
  assert (MS : forall i, (i < 3)%nat -> Rsum 3 (fun t => Rabs (a i t * x t)) <= 106 / 100 * S).
  { intros i Hi. unfold S. cbn [Rsum]. rewrite !Rabs_mult.
    pose proof (AL i 0%nat Hi ltac:(lia)). pose proof (AL i 1%nat Hi ltac:(lia)). pose proof (AL i 2%nat Hi ltac:(lia)).
    assert (forall t k, Rabs t <= 106 / 100 -> Rabs t * Rabs k <= 106 / 100 * Rabs k) as L
      by (intros; apply Rmult_le_compat_r; auto using Rabs_pos).
    pose proof (L _ (x 0%nat) H). pose proof (L _ (x 1%nat) H0). pose proof (L _ (x 2%nat) H1). lra. }
  assert (BIG : 4 * bpow radix2 100 <= bpow radix2 120).
  { change 4 with (bpow radix2 2). rewrite <- bpow_plus. apply bpow_le. lia. }
  destruct (l_mul32 lm m vm 3 3 1 a (fun i _ => x i) Hm Hvf) as (p & r & Ep & Hp & Bp).
  { intros i j Hi Hj. pose proof (MS i Hi). cbv beta. pose proof (rnorm_pos 3 x). lra. }
  destruct Hp as (g & Hg & Eg).
  pose proof (col_to_vector_spec _ _ p _ _ _ Hg 0%nat) as C. cbn [Nat.leb] in C. destruct C as (v1 & Ev1 & Hv1).
  destruct (wp_exact _ _ _ (m_get_col_wp p 3 1 _ v _ 0 Hg Hf ltac:(lia))) as (v2 & E2 & Hv2).
  assert (DIST : vdist 3 (fun i => r i 0%nat) (qrot (qunit q) x) <= (15 * d + 4 / 1000000) * rnorm 3 x + 2 * tiny).
  { eapply Rle_trans; [apply (norm3_bound _ x (5 * d + 13 / 10000000) tiny); [lra|left; apply tiny_pos|]|].
    2:{ assert (3 * (5 * d + 13 / 10000000) * rnorm 3 x <= (15 * d + 4 / 1000000) * rnorm 3 x).
        { apply Rmult_le_compat_r; [apply rnorm_pos|lra]. } lra. }
    intros i Hi. fold S. rewrite <- rotmat_apply by auto.
    replace (r i 0%nat - rmv 3 (rotmat (qunit q)) x i) with
      ((r i 0%nat - rmul 3 a (fun i _ => x i) i 0%nat) + ((a i 0%nat - rotmat (qunit q) i 0%nat) * x 0%nat
        + (a i 1%nat - rotmat (qunit q) i 1%nat) * x 1%nat + (a i 2%nat - rotmat (qunit q) i 2%nat) * x 2%nat)).
    2:{ unfold rmv, rmul. cbn [Rsum]. ring. }
    eapply Rle_trans; [apply Rabs_triang|].
    pose proof (Bp i 0%nat Hi ltac:(lia)) as B1. pose proof (MS i Hi) as M1. cbv beta in B1.
    replace (INR 3 + 1) with 4 in B1 by (cbn; ring).
    assert (L : forall j, (j < 3)%nat -> Rabs ((a i j - rotmat (qunit q) i j) * x j) <= (5 * d + / 1000000) * Rabs (x j)).
    { intros j Hj. rewrite Rabs_mult. apply Rmult_le_compat_r; auto using Rabs_pos. }
    pose proof (L 0%nat ltac:(lia)) as L0. pose proof (L 1%nat ltac:(lia)) as L1. pose proof (L 2%nat ltac:(lia)) as L2.
    assert (T3 : forall a b c, Rabs (a + b + c) <= Rabs a + Rabs b + Rabs c).
    { intros. eapply Rle_trans; [apply Rabs_triang|]. pose proof (Rabs_triang a0 b). lra. }
    eapply Rle_trans; [apply Rplus_le_compat; [exact B1|apply T3]|]. unfold S in *. lra. }
  exists v1, v2, (fun i => r i 0%nat). split.
  { unfold q_rotate, q_guard3. rewrite (v_get_rows_is _ _ _ Hf). cbn [rbind Nat.eqb negb].
    rewrite Em. cbn [rbind]. rewrite Evm. cbn [rbind]. rewrite Ep. cbn [rbind]. exact Ev1. }
  split.
  { unfold q_rotate_in_place.
    rewrite guard_bind by (unfold reads, q_guard3; rewrite (v_get_rows_is _ _ _ Hf); reflexivity).
    erewrite sbind_ok by (apply lift_ok; exact Em). erewrite sbind_ok by (unfold reads; rewrite Evm; reflexivity).
    erewrite sbind_ok by (apply lift_ok; exact Ep). exact E2. }
  split; [eexists; split; [exact Hv1|]; intros i Hi; apply Eg; [auto|lia]|].
  split; [eexists; split; [exact Hv2|]; intros i Hi; apply Eg; [auto|lia]|].
  split; [exact DIST|].
  rewrite <- (qrot_len (qunit q) x) at 1.
  - eapply Rle_trans; [apply vdist_norm|]. exact DIST.
  - apply qunit_unit. apply Rabs_le_inv in HN. lra.
Qed.

Lemma qunit_dist p : 0 < qnorm p -> qdist p (qunit p) = Rabs (qnorm p - 1).
Proof.
  intros H. unfold qdist. replace (qsub p (qunit p)) with (qscale ((qnorm p - 1) / qnorm p) p).
  - rewrite qnorm_scale. unfold Rdiv. rewrite Rabs_mult, (Rabs_pos_eq (/ qnorm p)) by (left; apply Rinv_0_lt_compat; auto). field. lra.
  - apply quat_eta; cbn; field; lra.
Qed.
Lemma qrot_close p q x : unitq p -> unitq q -> vdist 3 (qrot p x) (qrot q x) <= 2 * qdist p q * rnorm 3 x.
Proof.
  intros Up Uq. rewrite pq_dist, !pq_rot, pq_norm.
  eapply Rle_trans; [apply (qdist_tri _ (qmul (qmul q (pq x)) (qconj p)))|].
  rewrite qdist_mul_r, qdist_mul_l, qdist_mul_r, qnorm_mul, (unit_norm q Uq).
  assert (C : forall r, qnorm (qconj r) = qnorm r) by (intros; unfold qnorm, qnorm2, qconj; cbn; f_equal; ring).
  rewrite C, (unit_norm p Up). replace (qdist (qconj p) (qconj q)) with (qdist p q); [right; ring|].
  unfold qdist. rewrite <- (C (qsub p q)). f_equal. apply quat_eta; cbn; ring.
Qed.

(*@ C61_normalized *)
(** C61: normalising any f32 quaternion of norm between 2 EPSILON and 2^60 and rotating with it is the rotation by its
    direction, up to 3e-5 times the length of the vector (plus 2^-139) *)
Lemma l_norm_rotate32 :
  forall (lm : Libm) (qv v : Vec (T (Arith := F32 lm))) (q : quat) (x : nat -> R),
  quat_f qv q -> 2 * eps <= qnorm q <= bpow radix2 60 -> vec_f v 3 x -> rnorm 3 x <= bpow radix2 100 ->
  exists qn v' y, v_normalize qv = (qn, Ok tt) /\ q_rotate qn v = Ok v' /\ vec_f v' 3 y /\
    vdist 3 y (qrot (qunit q) x) <= 3 / 100000 * rnorm 3 x + 2 * tiny.
Proof.
  intros lm qv v q x (f & Hf & Ef) HN Hv HX.
  assert (EN : rnorm 4 (fun i => B2R (f i : f32)) = qnorm q).
  { rewrite <- rnorm_qnorm. apply rnorm_ext. exact Ef. }
  pose proof (l_normalize32 lm qv 4 f Hf) as L. cbv zeta in L. rewrite EN in L. destruct (L HN) as (qn & g & En & Hg & Ng & Bg). clear L.
  set (r := Quat (B2R (g 0%nat : f32)) (B2R (g 1%nat : f32)) (B2R (g 2%nat : f32)) (B2R (g 3%nat : f32))).
  assert (Hr : quat_f qn r) by (apply quat_f_of; exact Hg).
  assert (Nr : rnorm 4 (fun i => B2R (g i : f32)) = qnorm r).
  { rewrite <- rnorm_qnorm. apply rnorm_ext. apply below4; reflexivity. }
  rewrite Nr in Ng.
  destruct (l_rotate32 lm qn v r x (/ 1000000) Hr ltac:(lra) ltac:(lra) Hv HX) as (v1 & _ & y & E1 & _ & H1 & _ & D1 & _).
  exists qn, v1, y. split; [exact En|]. split; [exact E1|]. split; [exact H1|].
  assert (Q0 : 0 < qnorm q) by (unfold eps in HN; lra).
  assert (R0 : 0 < qnorm r) by (apply Rabs_def2 in Ng; lra).
  assert (D2 : qdist r (qunit q) <= 2 * / 1000000).
  { assert (CC : forall i, (i < 4)%nat -> Rabs (B2R (g i : f32) - qf (qunit q) i) <= / 1000000).
    { intros i Hi. specialize (Bg i Hi). rewrite (Ef i Hi) in Bg.
      replace (qf (qunit q) i) with (qf q i / qnorm q); [exact Bg|].
      clear Bg. destruct i as [|[|[|[|i]]]]; [| | | |lia]; unfold qunit, qscale; cbn; field; lra. }
    apply qdist_comp; [apply (CC 0%nat)|apply (CC 1%nat)|apply (CC 2%nat)|apply (CC 3%nat)]; lia. }
  assert (D3 : qdist (qunit r) (qunit q) <= 3 * / 1000000).
  { eapply Rle_trans; [apply (qdist_tri _ r)|]. rewrite (qdist_sym _ r), qunit_dist by auto. lra. }
  eapply Rle_trans; [apply (vdist_tri _ (qrot (qunit r) x))|].
  pose proof (qrot_close (qunit r) (qunit q) x (qunit_unit r R0) (qunit_unit q Q0)) as D4.
  pose proof (rnorm_pos 3 x) as X0.
  assert (2 * qdist (qunit r) (qunit q) * rnorm 3 x <= 6 / 1000000 * rnorm 3 x) by (apply Rmult_le_compat_r; lra).
  lra.
Qed.

Lemma conj_f lm (v : Vec (T (Arith := F32 lm))) q : quat_f v q -> exists v', q_conjugate v = (v', Ok tt) /\ quat_f v' (qconj q).
Proof.
  intros H. destruct (quat_f_inv _ _ _ H) as (f & Hf & Ff).
  destruct (q_conjugate_ok v f Hf) as (v' & E & Hv').
  { intros i Hi. apply (valid_finite lm). cbn. rewrite is_finite_Bopp. apply Ff. lia. }
  exists v'. split; [exact E|]. eexists. split; [exact Hv'|].
  apply (below4 (fun i => B2R (_ i : f32) = qf (qconj q) i)).
  all: cbn; try rewrite B2R_Bopp.
  - apply (Ff 0%nat). lia.
  - rewrite (proj2 (Ff 1%nat ltac:(lia))). reflexivity.
  - rewrite (proj2 (Ff 2%nat ltac:(lia))). reflexivity.
  - rewrite (proj2 (Ff 3%nat ltac:(lia))). reflexivity.
Qed.
Lemma qrot_back q x i : unitq q -> (i < 3)%nat -> qrot (qconj q) (qrot q x) i = x i.
Proof.
  intros U Hi. transitivity (qnorm2 q * qnorm2 q * x i); [|rewrite U; ring].
  destruct i as [|[|[|i]]]; [| | |lia]; unfold qnorm2; cbn; ring.
Qed.
Lemma vdist_ext x y x' y' : (forall i, (i < 3)%nat -> x i = x' i) -> (forall i, (i < 3)%nat -> y i = y' i) -> vdist 3 x y = vdist 3 x' y'.
Proof. intros H1 H2. apply rnorm_ext. intros i Hi. rewrite H1, H2 by auto. reflexivity. Qed.

(*@ C61_roundtrip *)
(** C61: rotating with q and then with its conjugate gives the vector back, up to (31 d + 9e-6) times its length *)
Lemma l_roundtrip32 :
  forall (lm : Libm) (qv v : Vec (T (Arith := F32 lm))) (q : quat) (x : nat -> R) (d : R),
  quat_f qv q -> Rabs (qnorm q - 1) <= d -> d <= / 1000 -> vec_f v 3 x -> rnorm 3 x <= bpow radix2 90 ->
  exists qc v1 v2 z, q_conjugate qv = (qc, Ok tt) /\ q_rotate qv v = Ok v1 /\ q_rotate qc v1 = Ok v2 /\ vec_f v2 3 z /\
    vdist 3 z x <= (31 * d + 9 / 1000000) * rnorm 3 x + 8 * tiny.
Proof.
  intros lm qv v q x d Hq HN Hd Hv HX.
  assert (B90 : 2 * bpow radix2 90 <= bpow radix2 100).
  { change 2 with (bpow radix2 1). rewrite <- bpow_plus. apply bpow_le. lia. }
  assert (B1 : 1 <= bpow radix2 90) by (change 1 with (bpow radix2 0); apply bpow_le; lia).
  pose proof (rnorm_pos 3 x) as X0. pose proof tiny_pos as T0. pose proof tiny_small as T1.
  assert (D0 : 0 <= d) by (eapply Rle_trans; [apply Rabs_pos|exact HN]).
  destruct (conj_f lm qv q Hq) as (qc & Ec & Hc).
  assert (NC : qnorm (qconj q) = qnorm q) by (unfold qnorm, qnorm2, qconj; cbn; f_equal; ring).
  destruct (l_rotate32 lm qv v q x d Hq HN ltac:(lra) Hv ltac:(lra)) as (v1 & _ & y & E1 & _ & H1 & _ & D1 & L1).
  set (k := 15 * d + 4 / 1000000) in *. assert (K : 0 <= k <= / 50) by (unfold k; lra).
  assert (KX : k * rnorm 3 x <= / 50 * rnorm 3 x) by (apply Rmult_le_compat_r; lra).
  apply Rabs_le_inv in L1.
  destruct (l_rotate32 lm qc v1 (qconj q) y d Hc ltac:(rewrite NC; exact HN) ltac:(lra) H1 ltac:(lra)) as (v2 & _ & z & E2 & _ & H2 & _ & D2 & _).
  fold k in D2. exists qc, v1, v2, z. do 4 (split; [assumption|]).
  assert (U : unitq (qunit q)). { apply qunit_unit. apply Rabs_le_inv in HN. lra. }
  assert (CU : qunit (qconj q) = qconj (qunit q)). { unfold qunit. rewrite NC. apply quat_eta; cbn; ring. }
  rewrite CU in D2. assert (UC : unitq (qconj (qunit q))). { unfold unitq in *. rewrite <- U. unfold qnorm2, qconj. cbn. ring. }
  eapply Rle_trans; [apply (vdist_tri _ (qrot (qconj (qunit q)) y))|].
  assert (D3 : vdist 3 (qrot (qconj (qunit q)) y) x <= vdist 3 y (qrot (qunit q) x)).
  { rewrite (vdist_ext _ x (qrot (qconj (qunit q)) y) (qrot (qconj (qunit q)) (qrot (qunit q) x))); auto.
    2:{ intros i Hi. rewrite qrot_back by auto. reflexivity. }
    right. unfold vdist. rewrite <- (qrot_len (qconj (qunit q)) (fun i => y i - qrot (qunit q) x i) UC).
    apply rnorm_ext. intros i Hi. destruct i as [|[|[|i]]]; [| | |lia]; cbn; ring. }
  assert (k * rnorm 3 y <= k * ((51 / 50) * rnorm 3 x + 2 * tiny)) by (apply Rmult_le_compat_l; lra).
  assert (k * tiny <= / 50 * tiny) by (apply Rmult_le_compat_r; lra).
  assert (k * (51 / 50) * rnorm 3 x + k * rnorm 3 x <= (31 * d + 9 / 1000000) * rnorm 3 x).
  { rewrite <- Rmult_plus_distr_r. apply Rmult_le_compat_r; auto. unfold k. lra. }
  lra.
Qed.

(*@ example *)
(** the quaternion i turns (1, 2, 3) into (1, -2, -3), exactly *)
Example C61_example :
  exists (q v : Vec (T (Arith := F32 lm_id))),
  quat_f q (Quat 0 1 0 0) /\ qnorm (Quat 0 1 0 0) = 1 /\ vec_f v 3 (triple 1 2 3) /\
  rnorm 3 (triple 1 2 3) <= bpow radix2 90 /\
  rmap (fun v => map B2SF (firstn 3 (v_elems v))) (q_rotate q v) = Ok (map sf [1; -2; -3]%Z).
Proof.
  exists (mk_vec (A := F32 lm_id) (map z32 [0; 1; 0; 0]%Z)), (mk_vec (A := F32 lm_id) (map z32 [1; 2; 3]%Z)).
  split; [apply (fquat_z lm_id); lia|]. split; [unfold qnorm, qnorm2; cbn; transitivity (sqrt 1); [f_equal; ring|apply sqrt_1]|].
  split; [apply (fvec3_z lm_id); lia|]. split.
  - apply Rle_trans with 4; [|apply Rle_trans with (bpow radix2 2); [cbn; lra|apply bpow_le; lia]].
    unfold rnorm, rdot. cbn. rewrite <- (sqrt_square 4) by lra. apply sqrt_le_1_alt. lra.
  - vm_compute. reflexivity.
Qed.
