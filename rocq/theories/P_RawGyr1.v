(** C87: from raw gyrometer samples to the attitude, in f32, for the first-order methods. *)
(*@+*)
From Coq Require Import List Arith ZArith NArith Reals Lia Bool Lra SpecFloat.
From Flocq Require Import Core BinarySingleNaN.
From Verif Require Import M_Base M_Arith M_Utils M_Vector M_Matrix M_Quaternion M_Sensors M_Ar M_F32
  S_Spec S_Linalg S_Norm S_Quat S_Sensors S_Ar S_F32 S_Track S_First S_Raw S_RawGyr P_Inst P_InstF P_F32Ar.
Import ListNotations.
Local Open Scope R_scope.
(*@-*)
From Coq Require Import Psatz.
From Verif Require Import P_Hoare P_Float P_Norm P_FErr P_Norm32 P_Quat P_Rot P_Sensors P_Ar P_ArR P_ArZ P_FAcc P_F32Mul P_F32Rot P_AmGeo P_RestGeo P_Rest32 P_Qr32 P_Calib32 P_Raw P_RawGyr P_ArFirst.

(** the gyrometer accepts a bounded sample and reports a rate near the true one *)
Lemma sample_reports lm (g : Sensor (A := F32 lm)) (c : Config (A := F32 lm)) (z : sample lm) (M : R) :
  sreach Gyr g -> sensor_get_config Gyr g = Ok c -> 0 <= M -> bounded c M z ->
  exists (g' : Sensor (A := F32 lm)) (w : nat -> R), sensor_update (A := F32 lm) Gyr (raw_x z) (raw_y z) (raw_z z) g = (g', Ok tt) /\ sensor_get_config (A := F32 lm) Gyr g' = Ok c /\ reports g' w /\ vdist 3 w (true_rate z) <= rate_error c M z.
Proof.
  intros HR Hc HM [[O1 O2] HZ].
  pose proof (l_calib32 lm Gyr g c (raws z) HR Hc O1 O2) as C.
  change (raws z 0%nat) with (raw_x z) in C. change (raws z 1%nat) with (raw_y z) in C. change (raws z 2%nat) with (raw_z z) in C.
  destruct (sensor_update (A := F32 lm) Gyr (raw_x z) (raw_y z) (raw_z z) g) as [g' o] eqn:Su. destruct C as (-> & Cg & Cv).
    destruct (Cv 0%nat ltac:(lia)) as (r0 & G0 & F0 & D0). destruct (Cv 1%nat ltac:(lia)) as (r1 & G1 & F1 & D1). destruct (Cv 2%nat ltac:(lia)) as (r2 & G2 & F2 & D2).
      set (w := triple (B2R r0) (B2R r1) (B2R r2)). exists g', w. split; [reflexivity|]. split; [exact Cg|]. split.
      - intros i Hi. destruct i as [|[|[|i]]]; [exists r0|exists r1|exists r2|lia]; auto.
      - eapply Rle_trans; [apply (vdist_tri _ (calibrated Gyr c (raws z)))|]. unfold rate_error.
        assert (X : vdist 3 w (calibrated Gyr c (raws z)) <= 2 * (31 / 100000000 * M + / 10 ^ 20)).
        { unfold vdist. apply rnorm_cell; [lia| |].
          - assert (0 < / 10 ^ 20) by (apply Rinv_0_lt_compat, pow_lt; lra). nra.
          - intros i Hi. destruct i as [|[|[|i]]]; [| | |lia]; cbv zeta in D0, D1, D2.
            + eapply Rle_trans; [exact D0|]. pose proof (HZ 0%nat ltac:(lia)) as Y. unfold contribution in Y. lra.
            + eapply Rle_trans; [exact D1|]. pose proof (HZ 1%nat ltac:(lia)) as Y. unfold contribution in Y. lra.
            + eapply Rle_trans; [exact D2|]. pose proof (HZ 2%nat ltac:(lia)) as Y. unfold contribution in Y. lra. }
        lra.
Qed.

Lemma cube_mono x y : 0 <= x -> x <= y -> x * x * x <= y * y * y.
Proof. intros H L. apply Rmult_le_compat; [apply Rmult_le_pos| |apply Rmult_le_compat|]; lra. Qed.

(** the updates of a feed, one by one: Taylor series of order 1 *)
Lemma feed_taylor lm ck (c : Config (A := F32 lm)) (l : list (sample lm)) (d M t : R) :
  pow_one lm d -> 0 <= d <= / 1000 -> 0 <= M ->
  Forall (fun z => bounded c M z /\ rnorm 3 (true_rate z) + rate_error c M z <= bpow radix2 60 /\ (rnorm 3 (true_rate z) + rate_error c M z) * Rabs t <= 1000) l ->
  forall (s : AR (A := F32 lm)) (q p : quat), ar_inv s Live -> ar_method s = TaylorSeries -> ar_order s = 1%nat -> is_finite (ar_ts s : f32) = true -> B2R (ar_ts s : f32) = t ->
  sensor_get_config Gyr (ar_gyr s) = Ok c -> quat_f (ar_attitude s) q -> Rabs (qnorm q - 1) < / 1000000 ->
  exists s' r, ar_feed ck l s = (s', Ok tt) /\ quat_f (ar_attitude s') r /\ Rabs (qnorm r - 1) < / 1000000 /\
    qdist r (turns t p (map true_rate l)) <= qdist q p + sum_map (fun z => let X := (rnorm 3 (true_rate z) + rate_error c M z) * Rabs t in X * X * X / 23 + 6 / 1000000 + 5 * d + eps * Rabs t + 501 / 1000 * (rate_error c M z * Rabs t)) l.
Proof.
  intros PO Hd HM HL. induction HL as [|z l (HZ & H60 & HZB) HL IH]; intros s q p IV Me Or Ft Et Hc Hq Nq.
  - exists s, q. split; [reflexivity|]. split; [exact Hq|]. split; [exact Nq|]. cbn [sum_map turns fold_left map]. lra.
  - pose proof IV as (HR & _). destruct (sample_reports lm (ar_gyr s) c z M HR Hc HM HZ) as (g' & w & Su & Cg & Rp & Dw).
    pose proof (Rabs_pos t) as T0.
    pose proof (vdist_norm w (true_rate z)) as NW. assert (NW' : rnorm 3 w <= rnorm 3 (true_rate z) + rate_error c M z) by (pose proof (Rle_abs (rnorm 3 w - rnorm 3 (true_rate z))); lra).
    assert (NB : rnorm 3 w * Rabs t <= (rnorm 3 (true_rate z) + rate_error c M z) * Rabs t) by (apply Rmult_le_compat_r; lra).
    destruct (taylor_step lm ck s g' q w (raw_x z) (raw_y z) (raw_z z) d IV Me Or Ft Hq Nq PO Hd Su Rp ltac:(lra) ltac:(rewrite Et; lra))
      as (s1 & r & E & EG & (SS1 & SS2 & SS3 & SS4) & Hr & Nr & _ & C).
    assert (IV1 : ar_inv s1 Live). { pose proof (update_live ck (raw_x z) (raw_y z) (raw_z z) s IV) as [U _]. rewrite E in U. apply U. discriminate. }
    destruct (IH s1 r (qmul p (turn (true_rate z) t)) IV1 ltac:(congruence) ltac:(congruence) ltac:(rewrite SS1; exact Ft) ltac:(rewrite SS1; exact Et) ltac:(rewrite EG; exact Cg) Hr Nr)
      as (s' & r' & E' & Hr' & Nr' & D').
    exists s', r'. split; [cbn [ar_feed]; rewrite E; exact E'|]. split; [exact Hr'|]. split; [exact Nr'|].
    cbn [map sum_map]. change (turns t p (true_rate z :: map true_rate l)) with (turns t (qmul p (turn (true_rate z) t)) (map true_rate l)).
    eapply Rle_trans; [exact D'|]. rewrite Et in C. cbv zeta.
    assert (X0 : 0 <= rnorm 3 w * Rabs t) by (apply Rmult_le_pos; [apply rnorm_pos|exact T0]).
    pose proof (cube_mono _ _ X0 NB) as CM. unfold step1 in C.
    set (re := rate_error c M z) in *. set (nz := rnorm 3 (true_rate z)) in *. set (Y := (nz + re) * Rabs t) in *.
    assert (S : qdist r (qmul p (turn (true_rate z) t)) <= qdist q p + (Y * Y * Y / 23 + 6 / 1000000 + 5 * d + eps * Rabs t + 501 / 1000 * (re * Rabs t))); [|lra].
    { eapply Rle_trans; [apply (qdist_tri _ (qmul q (turn w t)))|].
      assert (S2 : qdist (qmul q (turn w t)) (qmul p (turn (true_rate z) t)) <= qdist q p + 5001 / 10000 * (re * Rabs t)).
      { eapply Rle_trans; [apply (qdist_tri _ (qmul q (turn (true_rate z) t)))|]. rewrite qdist_mul_r, qdist_mul_l, turn_norm, Rmult_1_r.
        pose proof (P_RawGyr.turn_lip w (true_rate z) t) as TL. apply Rabs_def2 in Nq.
        assert (vdist 3 w (true_rate z) * Rabs t <= re * Rabs t) by (apply Rmult_le_compat_r; auto).
        assert (qdist (turn w t) (turn (true_rate z) t) * qnorm q <= (re * Rabs t / 2) * (1000001 / 1000000)) by (apply Rmult_le_compat; auto using qnorm_pos, qdist_pos; lra).
        assert (0 <= re * Rabs t) by (apply Rmult_le_pos; [eapply Rle_trans; [apply vdist_pos|exact Dw]|auto]). lra. }
      assert (P1 : 0 <= re * Rabs t) by (apply Rmult_le_pos; [eapply Rle_trans; [apply vdist_pos|exact Dw]|auto]).
      lra. }
Qed.

(** the updates of a feed, one by one: Euler *)
Lemma feed_euler lm ck (c : Config (A := F32 lm)) (l : list (sample lm)) (M t : R) :
  0 <= M ->
  Forall (fun z => bounded c M z /\ rnorm 3 (true_rate z) + rate_error c M z <= bpow radix2 60 /\ (rnorm 3 (true_rate z) + rate_error c M z) * Rabs t <= 1000) l ->
  forall (s : AR (A := F32 lm)) (q p : quat), ar_inv s Live -> ar_method s = Euler -> is_finite (ar_ts s : f32) = true -> B2R (ar_ts s : f32) = t ->
  sensor_get_config Gyr (ar_gyr s) = Ok c -> quat_f (ar_attitude s) q -> Rabs (qnorm q - 1) < / 1000000 ->
  exists s' r, ar_feed ck l s = (s', Ok tt) /\ quat_f (ar_attitude s') r /\ Rabs (qnorm r - 1) < / 1000000 /\
    qdist r (turns_left t p (map true_rate l)) <= qdist q p + sum_map (fun z => let X := (rnorm 3 (true_rate z) + rate_error c M z) * Rabs t in X * X * X / 23 + 6 / 1000000 + eps * Rabs t + 501 / 1000 * (rate_error c M z * Rabs t)) l.
Proof.
  intros HM HL. induction HL as [|z l (HZ & H60 & HZB) HL IH]; intros s q p IV Me Ft Et Hc Hq Nq.
  - exists s, q. split; [reflexivity|]. split; [exact Hq|]. split; [exact Nq|]. cbn [sum_map turns_left fold_left map]. lra.
  - pose proof IV as (HR & _). destruct (sample_reports lm (ar_gyr s) c z M HR Hc HM HZ) as (g' & w & Su & Cg & Rp & Dw).
    pose proof (Rabs_pos t) as T0.
    pose proof (vdist_norm w (true_rate z)) as NW. assert (NW' : rnorm 3 w <= rnorm 3 (true_rate z) + rate_error c M z) by (pose proof (Rle_abs (rnorm 3 w - rnorm 3 (true_rate z))); lra).
    assert (NB : rnorm 3 w * Rabs t <= (rnorm 3 (true_rate z) + rate_error c M z) * Rabs t) by (apply Rmult_le_compat_r; lra).
    destruct (euler_step lm ck s g' q w (raw_x z) (raw_y z) (raw_z z) IV Me Ft Hq Nq Su Rp ltac:(lra) ltac:(rewrite Et; lra))
      as (s1 & r & E & EG & (SS1 & SS2 & SS3 & SS4) & Hr & Nr & _ & C).
    assert (IV1 : ar_inv s1 Live). { pose proof (update_live ck (raw_x z) (raw_y z) (raw_z z) s IV) as [U _]. rewrite E in U. apply U. discriminate. }
    destruct (IH s1 r (qmul (turn (true_rate z) t) p) IV1 ltac:(congruence) ltac:(rewrite SS1; exact Ft) ltac:(rewrite SS1; exact Et) ltac:(rewrite EG; exact Cg) Hr Nr)
      as (s' & r' & E' & Hr' & Nr' & D').
    exists s', r'. split; [cbn [ar_feed]; rewrite E; exact E'|]. split; [exact Hr'|]. split; [exact Nr'|].
    cbn [map sum_map]. change (turns_left t p (true_rate z :: map true_rate l)) with (turns_left t (qmul (turn (true_rate z) t) p) (map true_rate l)).
    eapply Rle_trans; [exact D'|]. rewrite Et in C. cbv zeta.
    assert (X0 : 0 <= rnorm 3 w * Rabs t) by (apply Rmult_le_pos; [apply rnorm_pos|exact T0]).
    pose proof (cube_mono _ _ X0 NB) as CM. unfold step1 in C.
    set (re := rate_error c M z) in *. set (nz := rnorm 3 (true_rate z)) in *. set (Y := (nz + re) * Rabs t) in *.
    assert (S : qdist r (qmul (turn (true_rate z) t) p) <= qdist q p + (Y * Y * Y / 23 + 6 / 1000000 + eps * Rabs t + 501 / 1000 * (re * Rabs t))); [|lra].
    { eapply Rle_trans; [apply (qdist_tri _ (qmul (turn w t) q))|].
      assert (S2 : qdist (qmul (turn w t) q) (qmul (turn (true_rate z) t) p) <= qdist q p + 5001 / 10000 * (re * Rabs t)).
      { eapply Rle_trans; [apply (qdist_tri _ (qmul (turn (true_rate z) t) q))|]. rewrite qdist_mul_r, qdist_mul_l, turn_norm, Rmult_1_l.
        pose proof (P_RawGyr.turn_lip w (true_rate z) t) as TL. apply Rabs_def2 in Nq.
        assert (vdist 3 w (true_rate z) * Rabs t <= re * Rabs t) by (apply Rmult_le_compat_r; auto).
        assert (qdist (turn w t) (turn (true_rate z) t) * qnorm q <= (re * Rabs t / 2) * (1000001 / 1000000)) by (apply Rmult_le_compat; auto using qnorm_pos, qdist_pos; lra).
        assert (0 <= re * Rabs t) by (apply Rmult_le_pos; [eapply Rle_trans; [apply vdist_pos|exact Dw]|auto]). lra. }
      assert (P1 : 0 <= re * Rabs t) by (apply Rmult_le_pos; [eapply Rle_trans; [apply vdist_pos|exact Dw]|auto]).
      lra. }
Qed.

(*@ C87_taylor *)
(** C87: a live filter on the Taylor series of order 1, with the gyrometer calibration c, fed with any number of raw
    samples in f32, with pow(x, 1) right up to a factor of 1 + d: if each sample is of ordinary size and its axes are made
    of contributions of total size at most M, then every update succeeds, and the attitude is within the initial error
    plus, per sample, X^3 / 23 + 6e-6 + 5 d + EPSILON t + 0.501 e t of the body turned at its true rates w; here e is the
    distance of the exact calibrated sample from w plus 6.3e-7 M, and X is the angle (|w| + e) t *)
Lemma l_feed_taylor :
  forall (lm : Libm) (ck : bool) (s : AR (A := F32 lm)) (c : Config (A := F32 lm)) (l : list (sample lm)) (q p : quat) (d M : R),
  ar_hist ck s Live -> ar_method s = TaylorSeries -> ar_order s = 1%nat -> is_finite (ar_ts s : f32) = true -> let t := B2R (ar_ts s : f32) in
  sensor_get_config Gyr (ar_gyr s) = Ok c -> quat_f (ar_attitude s) q -> Rabs (qnorm q - 1) < / 1000000 ->
  pow_one lm d -> 0 <= d <= / 1000 -> 0 <= M ->
  Forall (fun z => bounded c M z /\ rnorm 3 (true_rate z) + rate_error c M z <= bpow radix2 60 /\ (rnorm 3 (true_rate z) + rate_error c M z) * Rabs t <= 1000) l ->
  exists s' r, ar_feed ck l s = (s', Ok tt) /\ quat_f (ar_attitude s') r /\ Rabs (qnorm r - 1) < / 1000000 /\
    qdist r (turns t p (map true_rate l)) <= qdist q p + sum_map (fun z => let X := (rnorm 3 (true_rate z) + rate_error c M z) * Rabs t in X * X * X / 23 + 6 / 1000000 + 5 * d + eps * Rabs t + 501 / 1000 * (rate_error c M z * Rabs t)) l.
Proof.
  intros lm ck s c l q p d M H Me Or Ft t Hc Hq Nq PO Hd HM HL.
  apply (feed_taylor lm ck c l d M t PO Hd HM HL s q p (hist_inv _ _ _ H) Me Or Ft eq_refl Hc Hq Nq).
Qed.

(*@ C87_euler *)
(** C87: the same for the Euler method, without any libm, and the violation that it turns about the axes of the reference
    frame carries over: the attitude follows (turn w t) q, not q (turn w t) *)
Lemma l_feed_euler :
  forall (lm : Libm) (ck : bool) (s : AR (A := F32 lm)) (c : Config (A := F32 lm)) (l : list (sample lm)) (q p : quat) (M : R),
  ar_hist ck s Live -> ar_method s = Euler -> is_finite (ar_ts s : f32) = true -> let t := B2R (ar_ts s : f32) in
  sensor_get_config Gyr (ar_gyr s) = Ok c -> quat_f (ar_attitude s) q -> Rabs (qnorm q - 1) < / 1000000 ->
  0 <= M ->
  Forall (fun z => bounded c M z /\ rnorm 3 (true_rate z) + rate_error c M z <= bpow radix2 60 /\ (rnorm 3 (true_rate z) + rate_error c M z) * Rabs t <= 1000) l ->
  exists s' r, ar_feed ck l s = (s', Ok tt) /\ quat_f (ar_attitude s') r /\ Rabs (qnorm r - 1) < / 1000000 /\
    qdist r (turns_left t p (map true_rate l)) <= qdist q p + sum_map (fun z => let X := (rnorm 3 (true_rate z) + rate_error c M z) * Rabs t in X * X * X / 23 + 6 / 1000000 + eps * Rabs t + 501 / 1000 * (rate_error c M z * Rabs t)) l.
Proof.
  intros lm ck s c l q p M H Me Ft t Hc Hq Nq HM HL.
  apply (feed_euler lm ck c l M t HM HL s q p (hist_inv _ _ _ H) Me Ft eq_refl Hc Hq Nq).
Qed.

Lemma first_feed_ex :
  forall (ck : bool) (m : NIM), exists (s : AR (A := F32 near_libm)) (c : Config (A := F32 near_libm)), fields (A := F32 near_libm) c = map z32 [2; 3; 1; 0; 1; 0; 0; 0; 0; 1; 0; 0]%Z /\
  ar_hist ck s Live /\ ar_method s = m /\ ar_order s = 1%nat /\ is_finite (ar_ts s : f32) = true /\ B2R (ar_ts s : f32) = 1 /\
  sensor_get_config Gyr (ar_gyr s) = Ok c /\ quat_f (ar_attitude s) qone /\ pow_one near_libm 0 /\
  Forall (fun z => bounded c 4 z /\ rnorm 3 (true_rate z) + rate_error c 4 z <= bpow radix2 60 /\ (rnorm 3 (true_rate z) + rate_error c 4 z) * Rabs 1 <= 1000)
    [Sample (z32 1) (z32 0) (z32 1) (triple 0 0 (101 / 100)); Sample (z32 3) (z32 1) (z32 (-2)) (triple 4 3 0)].
Proof.
  intros ck m. destruct (feed_ex ck) as (s0 & c & Ef & _ & _ & _ & _ & _ & _ & _ & F).
  assert (CF : cfg_finite (A := F32 near_libm) c).
  { intros x Hx. rewrite Ef in Hx. apply (in_map_iff z32 raw_l x) in Hx. destruct Hx as (z & <- & Hz).
    apply (valid_finite near_libm). apply (zval z). cbn in Hz. repeat (destruct Hz as [<-|Hz]; [vm_compute; discriminate|]). contradiction. }
  destruct (live_filter near_libm ck c m 1%nat CF) as (s & H & M & O & ET & GC & HQ). exists s, c.
  assert (T1 : is_finite (ar_ts s : f32) = true /\ B2R (ar_ts s : f32) = 1). { rewrite ET. apply z32_R. lia. }
  split; [exact Ef|]. split; [exact H|]. split; [exact M|]. split; [exact O|]. split; [apply T1|]. split; [apply T1|]. split; [exact GC|]. split; [exact HQ|].
  split; [apply near_pow|exact F].
Qed.
(*@ example *)
(** the calibration and the samples of C83_example, for a filter on either method *)
Example C87_example :
  forall (ck : bool) (m : NIM), exists (s : AR (A := F32 near_libm)) (c : Config (A := F32 near_libm)), fields (A := F32 near_libm) c = map z32 [2; 3; 1; 0; 1; 0; 0; 0; 0; 1; 0; 0]%Z /\
  ar_hist ck s Live /\ ar_method s = m /\ ar_order s = 1%nat /\ is_finite (ar_ts s : f32) = true /\ B2R (ar_ts s : f32) = 1 /\
  sensor_get_config Gyr (ar_gyr s) = Ok c /\ quat_f (ar_attitude s) qone /\ pow_one near_libm 0 /\
  Forall (fun z => bounded c 4 z /\ rnorm 3 (true_rate z) + rate_error c 4 z <= bpow radix2 60 /\ (rnorm 3 (true_rate z) + rate_error c 4 z) * Rabs 1 <= 1000)
    [Sample (z32 1) (z32 0) (z32 1) (triple 0 0 (101 / 100)); Sample (z32 3) (z32 1) (z32 (-2)) (triple 4 3 0)].
Proof. exact first_feed_ex. Qed.
