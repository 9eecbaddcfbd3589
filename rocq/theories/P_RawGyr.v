(** C83: from raw gyrometer samples to the attitude of the angular-rate filter, in f32. *)
(*@+*)
From Coq Require Import List Arith ZArith NArith Reals Lia Bool Lra SpecFloat.
From Flocq Require Import Core BinarySingleNaN.
From Verif Require Import M_Base M_Arith M_Utils M_Vector M_Matrix M_Quaternion M_Sensors M_Ar M_F32
  S_Spec S_Linalg S_Norm S_Quat S_Sensors S_Ar S_F32 S_Track S_Raw S_RawGyr P_Inst P_InstF P_F32Ar.
Import ListNotations.
Local Open Scope R_scope.
(*@-*)
From Coq Require Import Psatz.
From Verif Require Import P_Hoare P_Float P_Norm P_FErr P_Norm32 P_Quat P_Rot P_Sensors P_Ar P_ArR P_ArZ P_FAcc P_F32Mul P_F32Rot P_AmGeo P_RestGeo P_Rest32 P_Qr32 P_Calib32 P_Raw.

(** rotations at nearby rates are near *)
Lemma cos_quad x : 2 - 2 * cos x <= x * x.
Proof.
  replace x with (2 * (x / 2)) at 1 by field. rewrite cos_2a_sin. pose proof (Rabs_sin_le (x / 2)) as L.
  assert (S : forall x, Rabs x * Rabs x = x * x) by (intros; rewrite <- Rabs_mult, Rabs_pos_eq; [auto|apply Rle_0_sqr]).
  assert (L2 : Rabs (sin (x / 2)) * Rabs (sin (x / 2)) <= Rabs (x / 2) * Rabs (x / 2)) by (apply Rmult_le_compat; auto using Rabs_pos).
  rewrite !S in L2. lra.
Qed.
Lemma arc a b c : -1 <= c <= 1 -> 2 - 2 * (cos a * cos b + sin a * sin b * c) <= a * a + b * b - 2 * a * b * c.
Proof.
  intros [H1 H2]. pose proof (cos_quad (a - b)) as P. pose proof (cos_quad (a + b)) as N. rewrite cos_minus in P. rewrite cos_plus in N.
  assert (X : 0 <= (1 + c) * ((a - b) * (a - b) - (2 - 2 * (cos a * cos b + sin a * sin b)))) by (apply Rmult_le_pos; lra).
  assert (Y : 0 <= (1 - c) * ((a + b) * (a + b) - (2 - 2 * (cos a * cos b - sin a * sin b)))) by (apply Rmult_le_pos; lra).
  nra.
Qed.
Lemma turn_lip w v t : qdist (turn w t) (turn v t) <= vdist 3 w v * Rabs t / 2.
Proof.
  assert (Z : forall w v, rnorm 3 w = 0 -> qdist (turn w t) (turn v t) <= vdist 3 w v * Rabs t / 2).
  { clear w v. intros w v Z. rewrite turn_zero by auto. eapply Rle_trans; [apply turn_small|].
    pose proof (vdist_norm w v) as N. rewrite Z in N. replace (0 - rnorm 3 v) with (- rnorm 3 v) in N by ring. rewrite Rabs_Ropp in N. pose proof (Rle_abs (rnorm 3 v)).
    pose proof (Rabs_pos t). nra. }
  destruct (Req_dec (rnorm 3 w) 0) as [Zw|Zw]; [apply Z, Zw|].
  destruct (Req_dec (rnorm 3 v) 0) as [Zv|Zv]; [rewrite qdist_sym, vdist_sym; apply Z, Zv|]. clear Z.
  pose proof (rnorm_pos 3 w) as Pw. pose proof (rnorm_pos 3 v) as Pv. pose proof (vdist_pos w v) as PD. pose proof (Rabs_pos t) as Pt.
  apply sqr_le_abs; [nra|]. 
  assert (S : forall x, Rabs x * Rabs x = x * x) by (intros; rewrite <- Rabs_mult, Rabs_pos_eq; [auto|apply Rle_0_sqr]).
  unfold qdist at 1. 
  replace (vdist 3 w v * Rabs t / 2 * (vdist 3 w v * Rabs t / 2)) with ((vdist 3 w v * vdist 3 w v) * (Rabs t * Rabs t) / 4) by field.
  rewrite S. rewrite qnorm_sqr, vdist_sqr.
  set (n := rnorm 3 w) in *. set (m := rnorm 3 v) in *.
  pose proof (rnorm_sqr 3 w) as Sw. pose proof (rnorm_sqr 3 v) as Sv. fold n in Sw. fold m in Sv.
  pose proof (rdot_cs 3 w v) as CS. fold n m in CS.
  unfold rdot in Sw, Sv, CS. cbn [Rsum] in Sw, Sv, CS.
  set (g := w 0%nat * v 0%nat + w 1%nat * v 1%nat + w 2%nat * v 2%nat).
  set (c := g / (n * m)). assert (NM : 0 < n * m) by (apply Rmult_lt_0_compat; lra).
  assert (Ec : g = c * (n * m)) by (unfold c; field; split; assumption).
  assert (Hc : -1 <= c <= 1).
  { assert (CS' : Rabs g <= n * m) by (unfold g; replace (w 0%nat * v 0%nat + w 1%nat * v 1%nat + w 2%nat * v 2%nat) with (0 + w 0%nat * v 0%nat + w 1%nat * v 1%nat + w 2%nat * v 2%nat) by ring; exact CS).
    apply Rabs_le_inv in CS'. rewrite Ec in CS'. split; nra. }
  pose proof (arc (n * t / 2) (m * t / 2) c Hc) as A.
  assert (E1 : qnorm2 (qsub (turn w t) (turn v t)) = 2 - 2 * (cos (n * t / 2) * cos (m * t / 2) + sin (n * t / 2) * sin (m * t / 2) * c)).
  { assert (U1 : qnorm2 (turn w t) = 1) by (apply turn_unit; exact Zw). assert (U2 : qnorm2 (turn v t) = 1) by (apply turn_unit; exact Zv).
    transitivity (qnorm2 (turn w t) + qnorm2 (turn v t) - 2 * (cos (n * t / 2) * cos (m * t / 2) + sin (n * t / 2) * sin (m * t / 2) * c)); [|rewrite U1, U2; ring].
    clear U1 U2. unfold turn. cbv zeta. rewrite <- !rnorm3. fold n m. unfold c, g. clearbody n m. unfold qnorm2, qsub, qadd, qneg, qscale. cbn [Qw Qx Qy Qz].
    set (c1 := cos (n * t / 2)). set (c2 := cos (m * t / 2)). set (s1 := sin (n * t / 2)). set (s2 := sin (m * t / 2)). clearbody c1 c2 s1 s2. field. split; assumption. }
  rewrite E1. eapply Rle_trans; [exact A|]. right.
  assert (E2 : (w 0%nat - v 0%nat) * (w 0%nat - v 0%nat) + (w 1%nat - v 1%nat) * (w 1%nat - v 1%nat) + (w 2%nat - v 2%nat) * (w 2%nat - v 2%nat) = n * n + m * m - 2 * g).
  { rewrite Sw, Sv. unfold g. ring. }
  rewrite E2, Ec. field.
Qed.

Definition turns_near t ws vs := Forall2 (fun w v => qdist (turn w t) (turn v t) <= vdist 3 w v * Rabs t / 2) ws vs.

(** the updates of a feed, one by one *)
Lemma feed_core lm ck (c : Config (A := F32 lm)) (l : list (sample lm)) (d B M t : R) :
  libm_accurate lm d B -> 0 <= d <= / 100 -> 1 <= B <= 1000 -> 0 <= M ->
  Forall (fun z => bounded c M z /\ rnorm 3 (true_rate z) + rate_error c M z <= bpow radix2 60 /\ (rnorm 3 (true_rate z) + rate_error c M z) * Rabs t <= B) l ->
  forall (s : AR (A := F32 lm)) (q p : quat), ar_inv s Live -> ar_method s = ClosedForm -> is_finite (ar_ts s : f32) = true -> B2R (ar_ts s : f32) = t ->
  sensor_get_config Gyr (ar_gyr s) = Ok c -> quat_f (ar_attitude s) q -> Rabs (qnorm q - 1) < / 1000000 ->
  exists s' r, ar_feed ck l s = (s', Ok tt) /\ quat_f (ar_attitude s') r /\ Rabs (qnorm r - 1) < / 1000000 /\
    qdist r (turns t p (map true_rate l)) <= qdist q p +
      sum_map (fun z => (7 + 2 * (rnorm 3 (true_rate z) * Rabs t)) / 1000000 + 5 * d + eps * Rabs t + 501 / 1000 * (rate_error c M z * Rabs t)) l.
Proof.
  intros LM Hd HB HM HL. induction HL as [|z l (HZ & H60 & HZB) HL IH]; intros s q p IV Me Ft Et Hc Hq Nq.
  - exists s, q. split; [reflexivity|]. split; [exact Hq|]. split; [exact Nq|]. cbn [sum_map turns fold_left map]. lra.
  - destruct HZ as [[O1 O2] HZ].
    destruct (live_facts s IV) as (c0 & raw & cor & _ & Hs & Hc0 & _). pose proof IV as (HR & _).
    pose proof (l_calib32 lm Gyr (ar_gyr s) c (raws z) HR Hc O1 O2) as C.
    change (raws z 0%nat) with (raw_x z) in C. change (raws z 1%nat) with (raw_y z) in C. change (raws z 2%nat) with (raw_z z) in C.
    destruct (sensor_update (A := F32 lm) Gyr (raw_x z) (raw_y z) (raw_z z) (ar_gyr s)) as [g' o] eqn:Su. destruct C as (-> & Cg & Cv).
    assert (Ex : exists w, reports g' w /\ vdist 3 w (true_rate z) <= rate_error c M z).
    { destruct (Cv 0%nat ltac:(lia)) as (r0 & G0 & F0 & D0). destruct (Cv 1%nat ltac:(lia)) as (r1 & G1 & F1 & D1). destruct (Cv 2%nat ltac:(lia)) as (r2 & G2 & F2 & D2).
      set (w := triple (B2R r0) (B2R r1) (B2R r2)). exists w. split.
      - intros i Hi. destruct i as [|[|[|i]]]; [exists r0|exists r1|exists r2|lia]; auto.
      - eapply Rle_trans; [apply (vdist_tri _ (calibrated Gyr c (raws z)))|]. unfold rate_error.
        assert (X : vdist 3 w (calibrated Gyr c (raws z)) <= 2 * (31 / 100000000 * M + / 10 ^ 20)).
        { unfold vdist. apply rnorm_cell; [lia| |].
          - assert (0 < / 10 ^ 20) by (apply Rinv_0_lt_compat, pow_lt; lra). nra.
          - intros i Hi. destruct i as [|[|[|i]]]; [| | |lia]; cbv zeta in D0, D1, D2.
            + eapply Rle_trans; [exact D0|]. pose proof (HZ 0%nat ltac:(lia)) as Y. unfold contribution in Y. lra.
            + eapply Rle_trans; [exact D1|]. pose proof (HZ 1%nat ltac:(lia)) as Y. unfold contribution in Y. lra.
            + eapply Rle_trans; [exact D2|]. pose proof (HZ 2%nat ltac:(lia)) as Y. unfold contribution in Y. lra. }
        lra. }
    destruct Ex as (w & Rp & Dw). pose proof (Rabs_pos t) as T0.
    pose proof (vdist_norm w (true_rate z)) as NW. assert (NW' : rnorm 3 w <= rnorm 3 (true_rate z) + rate_error c M z) by (pose proof (Rle_abs (rnorm 3 w - rnorm 3 (true_rate z))); lra).
    assert (NB : rnorm 3 w * Rabs t <= (rnorm 3 (true_rate z) + rate_error c M z) * Rabs t) by (apply Rmult_le_compat_r; lra).
    destruct (step_core lm ck s g' q w (raw_x z) (raw_y z) (raw_z z) d B IV Me Ft Hq Nq LM Hd HB Su Rp ltac:(lra) ltac:(rewrite Et; lra))
      as (s1 & r & E & EG & (SS1 & SS2 & SS3 & SS4) & Hr & Nr & C).
    assert (IV1 : ar_inv s1 Live). { pose proof (update_live ck (raw_x z) (raw_y z) (raw_z z) s IV) as [U _]. rewrite E in U. apply U. discriminate. }
    destruct (IH s1 r (qmul p (turn (true_rate z) t)) IV1 ltac:(congruence) ltac:(rewrite SS1; exact Ft) ltac:(rewrite SS1; exact Et) ltac:(rewrite EG; exact Cg) Hr Nr)
      as (s' & r' & E' & Hr' & Nr' & D').
    exists s', r'. split; [cbn [ar_feed]; rewrite E; exact E'|]. split; [exact Hr'|]. split; [exact Nr'|].
    cbn [map sum_map]. change (turns t p (true_rate z :: map true_rate l)) with (turns t (qmul p (turn (true_rate z) t)) (map true_rate l)).
    eapply Rle_trans; [exact D'|]. rewrite Et in C.
    set (re := rate_error c M z) in *. set (nz := rnorm 3 (true_rate z)) in *.
    assert (S : qdist r (qmul p (turn (true_rate z) t)) <= qdist q p + ((7 + 2 * (nz * Rabs t)) / 1000000 + 5 * d + eps * Rabs t + 501 / 1000 * (re * Rabs t))); [|lra].
    { eapply Rle_trans; [apply (qdist_tri _ (qmul q (turn w t)))|].
      assert (S2 : qdist (qmul q (turn w t)) (qmul p (turn (true_rate z) t)) <= qdist q p + 5001 / 10000 * (re * Rabs t)).
      { eapply Rle_trans; [apply (qdist_tri _ (qmul q (turn (true_rate z) t)))|]. rewrite qdist_mul_r, turn_norm, qdist_mul_l, Rmult_1_r.
        pose proof (turn_lip w (true_rate z) t) as TL. apply Rabs_def2 in Nq.
        assert (vdist 3 w (true_rate z) * Rabs t <= re * Rabs t) by (apply Rmult_le_compat_r; auto).
        assert (qnorm q * qdist (turn w t) (turn (true_rate z) t) <= 1000001 / 1000000 * (re * Rabs t / 2)) by (apply Rmult_le_compat; auto using qnorm_pos, qdist_pos; lra).
        assert (0 <= re * Rabs t) by (apply Rmult_le_pos; [eapply Rle_trans; [apply vdist_pos|exact Dw]|auto]). lra. }
      assert (P0 : 0 <= eps * Rabs t) by (apply Rmult_le_pos; [unfold eps; lra|auto]).
      assert (P1 : 0 <= re * Rabs t) by (apply Rmult_le_pos; [eapply Rle_trans; [apply vdist_pos|exact Dw]|auto]).
      assert (P2 : 0 <= nz * Rabs t) by (apply Rmult_le_pos; [apply rnorm_pos|auto]).
      rewrite Rmult_plus_distr_r in NB.
      destruct C as [[-> L]|L]; [pose proof (unchanged_bound q w t Nq L)|unfold step_bound in L]; lra. }
Qed.

(*@ C83_feed *)
(** C83: a live ClosedForm filter with the gyrometer calibration c, fed with any number of raw samples in f32, with sin and
    cos accurate to d: if each sample is of ordinary size and its axes are made of contributions of total size at most M,
    then every update succeeds, and the attitude is within the initial error plus, per sample,
    7e-6 + 2e-6 |w| t + 5 d + EPSILON t + 0.501 e t of the body turned at its true rates w; here e is the distance of
    the exact calibrated sample from w plus 6.3e-7 M *)
Lemma l_feed :
  forall (lm : Libm) (ck : bool) (s : AR (A := F32 lm)) (c : Config (A := F32 lm)) (l : list (sample lm)) (q p : quat) (d B M : R),
  ar_hist ck s Live -> ar_method s = ClosedForm -> is_finite (ar_ts s : f32) = true -> let t := B2R (ar_ts s : f32) in
  sensor_get_config Gyr (ar_gyr s) = Ok c -> quat_f (ar_attitude s) q -> Rabs (qnorm q - 1) < / 1000000 ->
  libm_accurate lm d B -> 0 <= d <= / 100 -> 1 <= B <= 1000 -> 0 <= M ->
  Forall (fun z => bounded c M z /\ rnorm 3 (true_rate z) + rate_error c M z <= bpow radix2 60 /\ (rnorm 3 (true_rate z) + rate_error c M z) * Rabs t <= B) l ->
  exists s' r, ar_feed ck l s = (s', Ok tt) /\ quat_f (ar_attitude s') r /\ Rabs (qnorm r - 1) < / 1000000 /\
    qdist r (turns t p (map true_rate l)) <= qdist q p +
      sum_map (fun z => (7 + 2 * (rnorm 3 (true_rate z) * Rabs t)) / 1000000 + 5 * d + eps * Rabs t + 501 / 1000 * (rate_error c M z * Rabs t)) l.
Proof.
  intros lm ck s c l q p d B M H Me Ft t Hc Hq Nq LM Hd HB HM HL.
  apply (feed_core lm ck c l d B M t LM Hd HB HM HL s q p (hist_inv _ _ _ H) Me Ft eq_refl Hc Hq Nq).
Qed.

(*@ C83_rates *)
(** C83: attitudes turned for the time t at two rates differ by at most half the angle |w - v| t, for all rates, however fast *)
Lemma l_turn_lip :
  forall (w v : nat -> R) (t : R), qdist (turn w t) (turn v t) <= vdist 3 w v * Rabs t / 2.
Proof. exact turn_lip. Qed.

(** a live filter with the calibration of C79_example: scales 2, 3, 1, a cross coefficient and a bias *)
Lemma live_filter lm ck (c : Config (A := F32 lm)) (m : NIM) (order : nat) : cfg_finite (A := F32 lm) c -> exists s : AR (A := F32 lm),
  ar_hist ck s Live /\ ar_method s = m /\ ar_order s = order /\ ar_ts s = z32 1 /\ sensor_get_config Gyr (ar_gyr s) = Ok c /\ quat_f (ar_attitude s) qone.
Proof.
  intros HC. destruct (new_ok (A := F32 lm) Gyr) as (g & Eg & _ & Ig).
  set (s0 := mkAR (A := F32 lm) g vnew (lit (Arith := F32 lm) 1 100) ClosedForm 1 false).
  assert (N : ar_new (A := F32 lm) = Ok s0) by (unfold ar_new; rewrite Eg; reflexivity).
  pose proof (ah_new (A := F32 lm) ck s0 N) as H0.
  assert (QF : quat_finite (A := F32 lm) (z32 1) (z32 0) (z32 0) (z32 0)) by (repeat split).
  pose proof (ah_call (A := F32 lm) ck s0 Fresh (AInit (A := F32 lm) (z32 1) (z32 0) (z32 0) (z32 0) c (z32 1) m order) Live H0 (an_init _ _ _ _ _ _ _ _ HC QF)) as H1.
  pose proof (init_fresh_wp (A := F32 lm) (z32 1) (z32 0) (z32 0) (z32 0) c (z32 1) m order s0 (hist_inv _ _ _ H0)) as W. unfold wp in W. cbn [ar_do] in H1.
  destruct (ar_init (A := F32 lm) _ _ _ _ _ _ _ _ s0) as [s' [[]|e|]]; cbn [snd fst] in H1.
  - destruct W as (_ & _ & _ & W1 & _ & _ & W2 & W3 & W4 & W5). exists s'. split; [apply H1; discriminate|]. repeat (split; [assumption|]).
    exists (quad (z32 1) (z32 0) (z32 0) (z32 0)). split; [exact W5|]. intros i Hi. do 4 (destruct i as [|i]; [apply z32_R; cbn; lia|]). lia.
  - exfalso. destruct W as (_ & [[W _]|(_ & W & _)]); auto.
  - destruct W.
Qed.
Definition ex_samples {lm} : list (sample lm) :=
  [Sample (z32 1) (z32 0) (z32 1) (triple 0 0 (101 / 100)); Sample (z32 3) (z32 1) (z32 (-2)) (triple 4 3 0)].
Lemma ex_config lm : exists c : Config (A := F32 lm), cfg_finite (A := F32 lm) c /\ fields (A := F32 lm) c = map z32 raw_l /\
  forall x y z, (Z.abs x <= 2 ^ 24)%Z -> (Z.abs y <= 2 ^ 24)%Z -> (Z.abs z <= 2 ^ 24)%Z -> let r := raw3 (A := F32 lm) (z32 x) (z32 y) (z32 z) in
  ordinary Gyr c r /\ forall a b, (a < 3)%nat -> (b < 3)%nat -> contribution Gyr c r b a = IZR (rawC a b * (zraw x y z a - rawB a)).
Proof.
  destruct (of_fields (A := F32 lm) (map z32 raw_l)) as (c & Ef); [reflexivity|]. exists c.
  assert (P24 : (4 <= 2 ^ 24)%Z) by (vm_compute; discriminate). split; [|split; [exact Ef|]].
  - intros x Hx. rewrite Ef in Hx. apply (in_map_iff z32 raw_l x) in Hx. destruct Hx as (z & <- & Hz).
    apply (valid_finite lm). apply (zval z). cbn in Hz. repeat (destruct Hz as [<-|Hz]; [vm_compute; discriminate|]). contradiction.
  - intros x y z Hx Hy Hz r. apply (ordinary_z lm Gyr c x y z rawC rawB).
    + unfold fields in Ef. cbn [map raw_l] in Ef. remember z32 as f. injection Ef. intros. subst f. unfold coefficient, named.
      destruct a as [|[|[|]]]; [| | |lia]; (destruct b as [|[|[|]]]; [| | |lia]); (split; [assumption|vm_compute; discriminate]).
    + unfold fields in Ef. cbn [map raw_l] in Ef. remember z32 as f. injection Ef. intros. subst f. unfold bias.
      destruct a as [|[|[|]]]; [| | |lia]; (split; [assumption|vm_compute; discriminate]).
    + intros a Ha. destruct a as [|[|]]; assumption.
Qed.
Lemma feed_ex :
  forall ck : bool, exists (s : AR (A := F32 near_libm)) (c : Config (A := F32 near_libm)), fields (A := F32 near_libm) c = map z32 [2; 3; 1; 0; 1; 0; 0; 0; 0; 1; 0; 0]%Z /\
  ar_hist ck s Live /\ ar_method s = ClosedForm /\ is_finite (ar_ts s : f32) = true /\ B2R (ar_ts s : f32) = 1 /\
  sensor_get_config Gyr (ar_gyr s) = Ok c /\ quat_f (ar_attitude s) qone /\ libm_accurate near_libm (2 / 10000000) 1000 /\
  Forall (fun z => bounded c 4 z /\ rnorm 3 (true_rate z) + rate_error c 4 z <= bpow radix2 60 /\ (rnorm 3 (true_rate z) + rate_error c 4 z) * Rabs 1 <= 1000) ex_samples.
Proof.
  intros ck. destruct (ex_config near_libm) as (c & Hc & Ef & HO). destruct (live_filter near_libm ck c ClosedForm 1%nat Hc) as (s & H & M & _ & ET & GC & HQ). exists s, c.
  assert (T1 : is_finite (ar_ts s : f32) = true /\ B2R (ar_ts s : f32) = 1). { rewrite ET. apply z32_R. lia. }
  split; [exact Ef|]. split; [exact H|]. split; [exact M|]. split; [apply T1|]. split; [apply T1|]. split; [exact GC|].
  split; [exact HQ|]. split; [apply near_accurate|]. clear s H M ET GC HQ T1 Ef Hc.
  assert (B60 : 8 <= bpow radix2 60) by (change 8 with (bpow radix2 3); apply bpow_le; lia). rewrite Rabs_R1.
  assert (P24 : (4 <= 2 ^ 24)%Z) by (vm_compute; discriminate). assert (T19 : / 10 ^ 19 <= 1) by (simpl; lra).
  assert (K : forall x y z (w : nat -> R), (Z.abs x <= 4)%Z -> (Z.abs y <= 4)%Z -> (Z.abs z <= 4)%Z ->
    (2 * Z.abs (x - 1) <= 4 -> 3 * Z.abs y <= 4 -> Z.abs (x - 1) + Z.abs z <= 4)%Z -> (2 * Z.abs (x - 1) <= 4)%Z -> (3 * Z.abs y <= 4)%Z ->
    vdist 3 (triple (IZR (2 * (x - 1))) (IZR (3 * y)) (IZR (x - 1 + z))) w <= 1 / 100 -> rnorm 3 w <= 5 ->
    let Z := Sample (lm := near_libm) (z32 x) (z32 y) (z32 z) w in
    bounded c 4 Z /\ rnorm 3 (true_rate Z) + rate_error c 4 Z <= bpow radix2 60 /\ (rnorm 3 (true_rate Z) + rate_error c 4 Z) * 1 <= 1000).
  { intros x y z w Hx Hy Hz Q1 Q2 Q3 Hv Hw Z. specialize (Q1 Q2 Q3). destruct (HO x y z ltac:(lia) ltac:(lia) ltac:(lia)) as [O C]. unfold Z, rate_error, bounded, raws. cbn [true_rate raw_x raw_y raw_z].
    assert (V : vdist 3 (calibrated Gyr c (raw3 (A := F32 near_libm) (z32 x) (z32 y) (z32 z))) w <= 1 / 100).
    { eapply Rle_trans; [right; apply vdist_readings|exact Hv]. intros i Hi. unfold calibrated. rewrite !C by lia. rewrite <- !plus_IZR.
      destruct i as [|[|[|]]]; [| | |lia]; cbn [triple rawC rawB zraw]; f_equal; ring. }
    split; [|split; lra]. split; [exact O|]. intros b Hb. rewrite !C by lia. rewrite <- !abs_IZR, <- !plus_IZR. apply IZR_le.
    destruct b as [|[|[|]]]; [| | |lia]; cbn [rawC rawB zraw]; lia. }
  unfold ex_samples. constructor; [apply K; try lia|constructor; [apply K; try lia|constructor]].
  - unfold vdist, rnorm, rdot. cbn [Rsum triple]. rewrite <- (sqrt_square (1 / 100)) by lra. apply sqrt_le_1_alt.
    replace (IZR (2 * (1 - 1))) with 0 by reflexivity. replace (IZR (3 * 0)) with 0 by reflexivity. replace (IZR (1 - 1 + 1)) with 1 by reflexivity. lra.
  - rewrite rnorm3. cbn [triple]. rewrite <- (sqrt_square 5) by lra. apply sqrt_le_1_alt. lra.
  - eapply Rle_trans; [apply vdist_0; auto|lra].
  - rewrite rnorm3. cbn [triple]. rewrite <- (sqrt_square 5) by lra. apply sqrt_le_1_alt. lra.
Qed.
(*@ example *)
(** a calibration with scales 2, 3, 1, a cross coefficient and a bias; two samples, the first of them one percent off *)
Example C83_example :
  forall ck : bool, exists (s : AR (A := F32 near_libm)) (c : Config (A := F32 near_libm)), fields (A := F32 near_libm) c = map z32 [2; 3; 1; 0; 1; 0; 0; 0; 0; 1; 0; 0]%Z /\
  ar_hist ck s Live /\ ar_method s = ClosedForm /\ is_finite (ar_ts s : f32) = true /\ B2R (ar_ts s : f32) = 1 /\
  sensor_get_config Gyr (ar_gyr s) = Ok c /\ quat_f (ar_attitude s) qone /\ libm_accurate near_libm (2 / 10000000) 1000 /\
  Forall (fun z => bounded c 4 z /\ rnorm 3 (true_rate z) + rate_error c 4 z <= bpow radix2 60 /\ (rnorm 3 (true_rate z) + rate_error c 4 z) * Rabs 1 <= 1000)
    [Sample (z32 1) (z32 0) (z32 1) (triple 0 0 (101 / 100)); Sample (z32 3) (z32 1) (z32 (-2)) (triple 4 3 0)].
Proof. exact feed_ex. Qed.
