(** C63: accuracy of the Aqua filter in mode AM in f32. *)
(*@+*)
From Coq Require Import List Arith ZArith NArith Reals Lia Bool Lra SpecFloat.
From Flocq Require Import Core BinarySingleNaN.
From Verif Require Import M_Base M_Arith M_Utils M_Vector M_Matrix M_Quaternion M_Sensors M_Ar M_Aqua M_F32
  S_Spec S_Linalg S_Norm S_Quat S_Sensors S_Ar S_Aqua S_F32 S_Reading P_Inst P_InstF.
Import ListNotations.
Local Open Scope R_scope.
(*@-*)
From Coq Require Import Psatz.
From Verif Require Import P_Hoare P_Cont P_Loops P_Access P_Pointwise P_Trans P_Float P_Product P_Diag
  P_Compare P_Dot P_Norm P_FErr P_Norm32 P_Quat P_Rot P_Dcm P_Sensors P_Ar P_Aqua P_ArR P_AquaR P_FAcc P_F32Mul P_F32Rot P_F32App P_F32Am P_AmGeo.

(** normalising f32 measurements, as real vectors *)
Lemma unit32 lm n (f : nat -> f32) : (n <= 4)%nat -> (forall i, (i < n)%nat -> is_finite (f i) = true) ->
  let N := rnorm n (fun i => B2R (f i)) in 2 * eps <= N <= bpow radix2 60 ->
  exists g : nat -> f32, vunit (A := F32 lm) n f = g /\ (n = 3%nat -> a_unit (A := F32 lm) f = (g 0%nat, g 1%nat, g 2%nat)) /\
    (forall i, (i < n)%nat -> is_finite (g i) = true) /\
    Rabs (rnorm n (fun i => B2R (g i)) - 1) < / 1000000 /\ (forall i, (i < n)%nat -> Rabs (B2R (g i) - B2R (f i) / N) <= / 1000000).
Proof.
  intros Hn Ff N HN. destruct (normalize_err lm n f Hn Ff HN) as (G0 & G1 & G2 & G3).
  assert (EV : forall i, vunit (A := F32 lm) n f i = fdiv (Arith := F32 lm) (f i) (nrm (A := F32 lm) n f)) by (intros i; unfold vunit; unfold nrm at 1; rewrite G0; reflexivity).
  exists (vunit (A := F32 lm) n f). split; [reflexivity|]. split; [|split; [|split]].
  - intros ->. rewrite !EV. unfold a_unit. unfold nrm at 1. rewrite G0. reflexivity.
  - intros i Hi. rewrite EV. apply G1, Hi.
  - rewrite (rnorm_ext n _ (fun i => B2R (fdiv (Arith := F32 lm) (f i) (nrm (A := F32 lm) n f) : f32))) by (intros; rewrite EV; reflexivity). exact G2.
  - intros i Hi. rewrite EV. apply G3, Hi.
Qed.
Lemma qof_norm (h : nat -> f32) : rnorm 4 (fun i => B2R (h i)) = qnorm (qof h).
Proof. rewrite <- rnorm_qnorm. apply rnorm_ext. apply below4; reflexivity. Qed.

(** a quaternion of f32 components whose distance from a unit quaternion is small, normalised *)
Lemma renorm lm (h : nat -> f32) qs d : (forall i, (i < 4)%nat -> is_finite (h i) = true) -> unitq qs -> qdist (qof h) qs <= d -> d <= / 1000 ->
  let g : nat -> f32 := vunit (A := F32 lm) 4 h in
  (forall i, (i < 4)%nat -> is_finite (g i) = true) /\ Rabs (qnorm (qof g) - 1) < / 1000000 /\ qdist (qunit (qof g)) qs <= 2 * d + 3 / 1000000.
Proof.
  intros Fh Us Hd Bd g.
  assert (NH : Rabs (qnorm (qof h) - 1) <= d). { rewrite <- (unit_norm qs Us). eapply Rle_trans; [apply qdist_norm_abs|exact Hd]. }
  pose proof NH as NH'. apply Rabs_le_inv in NH'.
  pose proof (qof_norm h) as EN.
  assert (B60 : 4 <= bpow radix2 60) by (apply Rle_trans with (bpow radix2 2); [cbn; lra|apply bpow_le; lia]).
  pose proof (unit32 lm 4 h ltac:(lia) Fh) as NE. cbv zeta in NE. rewrite EN in NE. destruct (NE ltac:(unfold eps; lra)) as (g' & EG & _ & G1 & G2 & G3). clear NE.
  unfold g. rewrite EG. clear g EG. rename G1 into Fg.
  rewrite (qof_norm g') in G2. rename G2 into NG.
  split; [exact Fg|]. split; [exact NG|].
  assert (H0 : 0 < qnorm (qof h)) by lra.
  assert (D1 : qdist (qof g') (qunit (qof h)) <= 2 * / 1000000).
  { assert (CC : forall i, (i < 4)%nat -> Rabs (B2R (g' i) - qf (qunit (qof h)) i) <= / 1000000).
    { intros i Hi. replace (qf (qunit (qof h)) i) with (B2R (h i) / qnorm (qof h)); [apply G3; exact Hi|].
      destruct i as [|[|[|[|i]]]]; [| | | |lia]; unfold qunit, qscale; cbn; field; lra. }
    apply qdist_comp; [apply (CC 0%nat)|apply (CC 1%nat)|apply (CC 2%nat)|apply (CC 3%nat)]; lia. }
  apply Rabs_def2 in NG as NG'.
  eapply Rle_trans; [apply (qdist_tri _ (qof g'))|]. rewrite (qdist_sym (qunit (qof g')) (qof g')), qunit_dist by lra.
  eapply Rle_trans; [apply Rplus_le_compat_l, (qdist_tri _ (qunit (qof h)))|].
  eapply Rle_trans; [apply Rplus_le_compat_l, Rplus_le_compat_l, (qdist_tri _ (qof h))|]. rewrite (qdist_sym (qunit (qof h)) (qof h)), qunit_dist by lra. lra.
Qed.

(*@ C63_attitude *)
(** C63: one AM update of a live filter in f32, whatever the library functions. If the corrected acceleration and field
    have lengths between 2 EPSILON and 2^60 and the field is at least a thousandth of its length away from the
    vertical, the update succeeds; the attitude has norm 1 up to 1e-6, turns the measured acceleration straight down
    up to 3e-5, and leaves a field whose second component is at most 1e-4 of its length and whose first is positive *)
Lemma l_am32 :
  forall (lm : Libm) (s : Aqua (A := F32 lm)) (ca cm : Config (A := F32 lm)) (gx gy gz : option (T (Arith := F32 lm)))
    (ax ay az mx my mz : T (Arith := F32 lm)) (a m : nat -> R),
  aq_hist s Live -> aq_mode s = AM -> aq_get_accelerometer_config s = Ok ca -> aq_get_magnetometer_config s = Ok cm ->
  reading Acc ca ax ay az a -> reading Mag cm mx my mz m ->
  2 * eps <= rnorm 3 a <= bpow radix2 60 -> 2 * eps <= rnorm 3 m <= bpow radix2 60 ->
  / 1000 * / 1000 * (rdot 3 a a * rdot 3 m m) <= rdot 3 a a * rdot 3 m m - rdot 3 a m * rdot 3 a m ->
  exists s' v q, aq_update gx gy gz ax ay az mx my mz s = (s', Ok tt) /\ aq_get_attitude s' = Ok v /\ quat_f v q /\
    Rabs (qnorm q - 1) < / 1000000 /\
    vdist 3 (qrot (qconj (qunit q)) (fun i => a i / rnorm 3 a)) (triple 0 0 (-1)) <= 3 / 100000 /\
    Rabs (qrot (qconj (qunit q)) m 1%nat) <= 1 / 10000 * rnorm 3 m /\ 0 < qrot (qconj (qunit q)) m 0%nat.
Proof.
  intros lm s ca cm gx gy gz ax ay az mx my mz a m HH EM Hca Hcm (RA1 & RA2 & RA3 & RA4) (RM1 & RM2 & RM3 & RM4) Na Nm HO.
  pose proof (aq_hist_inv s Live HH) as IV. set (F := F32 lm) in *.
  set (fa := corrected Acc ca (raw3 ax ay az) 3) in *. set (fm := corrected Mag cm (raw3 mx my mz) 3) in *.
  assert (Fa : forall i, (i < 3)%nat -> is_finite (fa i : f32) = true) by (intros i Hi; apply (valid_finite lm); apply RA3; lia).
  assert (Fm : forall i, (i < 3)%nat -> is_finite (fm i : f32) = true) by (intros i Hi; apply (valid_finite lm); apply RM3; lia).
  assert (ENa : rnorm 3 (fun i => B2R (fa i : f32)) = rnorm 3 a) by (apply rnorm_ext; exact RA4).
  assert (ENm : rnorm 3 (fun i => B2R (fm i : f32)) = rnorm 3 m) by (apply rnorm_ext; exact RM4).
  pose proof (unit32 lm 3 fa ltac:(lia) Fa) as NA. cbv zeta in NA. rewrite ENa in NA. destruct (NA Na) as (al & _ & EA & Fal & A2 & A3). clear NA. specialize (EA eq_refl). fold F in EA.
  pose proof (unit32 lm 3 fm ltac:(lia) Fm) as NM. cbv zeta in NM. rewrite ENm in NM. destruct (NM Nm) as (ml & Eml & _ & Fml & M2 & M3). clear NM. fold F in Eml.
  assert (Pa : 0 < rnorm 3 a) by (unfold eps in Na; lra). assert (Pm : 0 < rnorm 3 m) by (unfold eps in Nm; lra).
  set (N := rnorm 3 (fun i => B2R (al i : f32))). change (Rabs (N - 1) < / 1000000) in A2.
  assert (NN : N * N = B2R (al 0%nat : f32) * B2R (al 0%nat : f32) + B2R (al 1%nat : f32) * B2R (al 1%nat : f32) + B2R (al 2%nat : f32) * B2R (al 2%nat : f32)).
  { unfold N. rewrite rnorm_sqr. unfold rdot. cbn [Rsum]. ring. }
  assert (N0 : 0 < N) by (apply Rabs_def2 in A2; lra).
  set (t := fun i => B2R (al i : f32) / N). set (ah := fun i => a i / rnorm 3 a). set (mh := fun i => m i / rnorm 3 m).
  assert (Ut : t 0%nat * t 0%nat + t 1%nat * t 1%nat + t 2%nat * t 2%nat = 1).
  { unfold t. transitivity ((B2R (al 0%nat : f32) * B2R (al 0%nat : f32) + B2R (al 1%nat : f32) * B2R (al 1%nat : f32) + B2R (al 2%nat : f32) * B2R (al 2%nat : f32)) / (N * N)); [field; lra|]. rewrite <- NN. apply Rinv_r. nra. }
  assert (UV : forall v, 0 < rnorm 3 v -> rnorm 3 (fun i => v i / rnorm 3 v) = 1).
  { intros v Pv. pose proof (rnorm_sqr 3 v) as Q. unfold rnorm at 1. unfold rdot in *. cbn [Rsum] in *. set (k := rnorm 3 v) in *.
    transitivity (sqrt 1); [f_equal|apply sqrt_1]. transitivity ((0 + v 0%nat * v 0%nat + v 1%nat * v 1%nat + v 2%nat * v 2%nat) / (k * k)); [field; lra|]. rewrite <- Q. apply Rinv_r. nra. }
  assert (Ua : rnorm 3 ah = 1) by (apply UV; exact Pa). assert (Um : rnorm 3 mh = 1) by (apply UV; exact Pm).
  assert (COMP : forall x y e, (forall i, (i < 3)%nat -> Rabs (x i - y i) <= e) -> vdist 3 x y <= 2 * e).
  { intros x y e H. rewrite pq_dist. apply qdist_comp; unfold pq; cbn [Qw Qx Qy Qz]; try (apply H; lia). rewrite Rminus_0_r, Rabs_R0. eapply Rle_trans; [apply Rabs_pos|apply (H 0%nat); lia]. }
  assert (Dt : vdist 3 ah t <= 3 / 1000000).
  { eapply Rle_trans; [apply (vdist_tri _ (fun i => B2R (al i : f32)))|].
    assert (D1 : vdist 3 ah (fun i => B2R (al i : f32)) <= 2 * / 1000000).
    { apply COMP. intros i Hi. rewrite Rabs_minus_sym. unfold ah. rewrite <- (RA4 i Hi). apply A3. exact Hi. }
    assert (D2 : vdist 3 (fun i => B2R (al i : f32)) t <= / 1000000).
    { replace (vdist 3 (fun i => B2R (al i : f32)) t) with (Rabs ((N - 1) / N) * N).
      - unfold Rdiv. rewrite Rabs_mult, (Rabs_pos_eq (/ N)) by (left; apply Rinv_0_lt_compat; auto). rewrite Rmult_assoc, Rinv_l by lra. lra.
      - unfold N at 3. rewrite pq_norm, <- qnorm_scale, pq_dist. unfold qdist. f_equal. apply quat_eta; unfold t; cbn; field; lra. }
    lra. }
  assert (Dm : vdist 3 (fun i => B2R (ml i : f32)) mh <= 2 / 1000000).
  { eapply Rle_trans; [apply (COMP _ _ (/ 1000000))|lra]. intros i Hi. unfold mh. rewrite <- (RM4 i Hi). apply M3. exact Hi. }
  assert (Nml : Rabs (rnorm 3 (fun i => B2R (ml i : f32)) - 1) <= 2 / 1000000). { rewrite <- Um. eapply Rle_trans; [apply vdist_norm|exact Dm]. }
  apply Rabs_le_inv in Nml.
  (* the quaternion of the acceleration *)
  set (qa := quad_of (A := F) (acc_quat_of (A := F) (al 0%nat) (al 1%nat) (al 2%nat))).
  destruct (acc32 lm (al 0%nat) (al 1%nat) (al 2%nat) N (Fal 0%nat ltac:(lia)) (Fal 1%nat ltac:(lia)) (Fal 2%nat ltac:(lia)) NN ltac:(lra)) as [Fqa Dqa]. fold F in Fqa, Dqa. fold qa in Fqa, Dqa.
  set (p0 := qacc (t 0%nat) (t 1%nat) (t 2%nat)). change (qdist (qof qa) p0 <= 25 / 10000000) in Dqa.
  assert (U0 : unitq p0) by (apply qacc_unit; exact Ut).
  assert (Nqa : Rabs (qnorm (qof qa) - 1) <= 25 / 10000000). { rewrite <- (unit_norm p0 U0). eapply Rle_trans; [apply qdist_norm_abs|exact Dqa]. }
  pose proof Nqa as Nqa'. apply Rabs_le_inv in Nqa'.
  destruct (quat4_run (A := F) (acc_quat_of (A := F) (al 0%nat) (al 1%nat) (al 2%nat))) as (aq & Eq & Hq). { intros i Hi. apply (valid_finite lm). apply Fqa. exact Hi. }
  fold qa in Hq.
  (* the field in the intermediate frame *)
  destruct (tog32 lm aq qa ml (25 / 10000000) Hq Nqa ltac:(lra) Fml ltac:(lra)) as (VS & VD & Fb & Db). fold F in VS, VD, Fb, Db.
  set (b := tog (A := F) qa ml) in *.

  pose proof tiny_small as TS. pose proof tiny_pos as TP.
  assert (DB : vdist 3 (fun i => B2R (b i : f32)) (qrot (qconj p0) mh) <= 6 / 100000).
  { eapply Rle_trans; [apply (vdist_tri _ (qrot (qconj (qunit (qof qa))) (fun i => B2R (ml i : f32))))|].
    eapply Rle_trans; [apply Rplus_le_compat_l, (vdist_tri _ (qrot (qconj p0) (fun i => B2R (ml i : f32))))|].
    rewrite (qrot_iso (qconj p0)) by (apply conj_unit; exact U0).
    pose proof (qrot_close (qconj (qunit (qof qa))) (qconj p0) (fun i => B2R (ml i : f32)) (conj_unit _ (qunit_unit (qof qa) ltac:(lra))) (conj_unit _ U0)) as C.
    rewrite conj_dist in C.
    assert (DU : qdist (qunit (qof qa)) p0 <= 5 / 1000000).
    { eapply Rle_trans; [apply (qdist_tri _ (qof qa))|]. rewrite (qdist_sym (qunit (qof qa)) (qof qa)), qunit_dist by lra. lra. }
    pose proof (qdist_pos (qunit (qof qa)) p0) as DP. set (n := rnorm 3 (fun i => B2R (ml i : f32))) in *.
    assert (2 * qdist (qunit (qof qa)) p0 * n <= 2 * (5 / 1000000) * (1 + 2 / 1000000)) by (apply Rmult_le_compat; lra).
    assert ((15 * (25 / 10000000) + 4 / 1000000) * n <= (15 * (25 / 10000000) + 4 / 1000000) * (1 + 2 / 1000000)) by (apply Rmult_le_compat_l; lra).
    lra. }
  set (B := fun i => B2R (b i : f32)) in *.
  assert (HOR : 93 / 100000 <= sqrt (B 0%nat * B 0%nat + B 1%nat * B 1%nat)).
  { pose proof (horizontal t ah mh B _ _ Ut Ua Um Dt DB (/ 1000) ltac:(lra)) as HZ.
    assert (X : 93 / 100000 <= / 1000 - (1 + 6 / 100000) * (3 / 1000000) - 6 / 100000) by lra. eapply Rle_trans; [exact X|]. apply HZ.
    apply Rmult_le_reg_r with (rdot 3 a a * rdot 3 m m).
    - rewrite <- (rnorm_sqr 3 a), <- (rnorm_sqr 3 m). apply Rmult_lt_0_compat; apply Rmult_lt_0_compat; auto.
    - eapply Rle_trans; [exact HO|]. right. rewrite <- (rnorm_sqr 3 a), <- (rnorm_sqr 3 m). unfold rdot, ah, mh. cbn [Rsum]. field. lra. }
  assert (SQ : sqrt (B 0%nat * B 0%nat + B 1%nat * B 1%nat) * sqrt (B 0%nat * B 0%nat + B 1%nat * B 1%nat) = B 0%nat * B 0%nat + B 1%nat * B 1%nat).
  { apply sqrt_sqrt. pose proof (Rle_0_sqr (B 0%nat)). pose proof (Rle_0_sqr (B 1%nat)). unfold Rsqr in *. lra. }
  assert (GB : 1 / 10000000 <= B 0%nat * B 0%nat + B 1%nat * B 1%nat <= 4).
  { split; [rewrite <- SQ; nra|]. pose proof (b_len t mh B _ Ut Um DB) as BL. apply Rabs_le_inv in BL. pose proof (rnorm_sqr 3 B) as Q. unfold rdot in Q. cbn [Rsum] in Q.
    pose proof (Rle_0_sqr (B 2%nat)). unfold Rsqr in *. nra. }
  set (qm := quad_of (A := F) (mag_am (A := F) (b 0%nat) (b 1%nat) (fadd (Arith := F) (fmul (Arith := F) (b 0%nat) (b 0%nat)) (fmul (Arith := F) (b 1%nat) (b 1%nat))))).
  destruct (mag32 lm (b 0%nat) (b 1%nat) (Fb 0%nat ltac:(lia)) (Fb 1%nat ltac:(lia)) GB) as [Fqm Dqm]. fold F in Fqm, Dqm. fold qm in Fqm, Dqm.
  change (qdist (qof qm) (qmag (B 0%nat) (B 1%nat)) <= / 1000000) in Dqm.
  set (mu := qmag (B 0%nat) (B 1%nat)) in *. assert (Umu : unitq mu) by (apply qmag_unit; lra).
  assert (Nqm : Rabs (qnorm (qof qm) - 1) <= / 1000000). { rewrite <- (unit_norm mu Umu). eapply Rle_trans; [apply qdist_norm_abs|exact Dqm]. }
  apply Rabs_le_inv in Nqm.
  (* their product *)
  set (h := prodf (A := F) qa qm).
  assert (PN : 0 <= qnorm (qof qa) * qnorm (qof qm) <= 1001 / 1000) by nra. pose proof huge_1 as H1.
  destruct (prod_dist lm qa qm (qof qa) (qof qm) (below4f qa Fqa) (below4f qm Fqm) ltac:(lra)) as [Vh Dh]. fold F in Vh, Dh. cbv zeta in Dh. fold h in Vh, Dh.
  change (qdist (qof h) (qmul (qof qa) (qof qm)) <= / 1000000 * (qnorm (qof qa) * qnorm (qof qm)) + 2 * tiny) in Dh.
  assert (Fh : forall i, (i < 4)%nat -> is_finite (h i : f32) = true) by (intros i Hi; apply (valid_finite lm); apply Vh; exact Hi).
  assert (DH : qdist (qof h) (qmul p0 mu) <= 48 / 10000000).
  { eapply Rle_trans; [apply (qdist_tri _ (qmul (qof qa) (qof qm)))|].
    eapply Rle_trans; [apply Rplus_le_compat_l, (qdist_tri _ (qmul p0 (qof qm)))|]. rewrite qdist_mul_r, qdist_mul_l, (unit_norm p0 U0).
    pose proof (qdist_pos (qof qa) p0). assert (qdist (qof qa) p0 * qnorm (qof qm) <= 25 / 10000000 * (1 + / 1000000)) by (apply Rmult_le_compat; lra). lra. }
  destruct (renorm lm h (qmul p0 mu) _ Fh (unit_mul _ _ U0 Umu) DH ltac:(lra)) as (Fg & Ng & Dg). fold F in Fg, Ng, Dg.
  set (g := vunit (A := F) 4 h) in *.
  (* the update *)
  assert (RUN : exists s', aq_update gx gy gz ax ay az mx my mz s = (s', Ok tt) /\ aq_initialized s' = true /\ vec_is (aq_attitude s') 4 g).
  { pose proof (am_run (A := F) gx gy gz ax ay az mx my mz s ca cm IV EM Hca Hcm (conj RA1 (conj RA2 RA3)) (conj RM1 (conj RM2 RM3))) as AR.
    cbv zeta in AR. fold fa fm in AR. rewrite EA in AR. fold qa in AR. rewrite Eml in AR. fold b in AR. fold qm in AR. fold h in AR. apply AR.
    - intros i Hi. apply (valid_finite lm). apply Fml. exact Hi.
    - intros i Hi. apply (valid_finite lm). apply Fqa. exact Hi.
    - exact VD.
    - exact VS.
    - intros i Hi. apply (valid_finite lm). apply Fqm. exact Hi.
    - exact Vh.
    - intros i Hi. apply (valid_finite lm). apply Fg. exact Hi. }
  destruct RUN as (s' & E' & I' & Hg). destruct (v_duplicate_ok (A := F) _ 4 _ Hg) as (v & Ev & Hv).
  exists s', v, (qof g). split; [exact E'|]. split; [unfold aq_get_attitude; rewrite I', Ev; reflexivity|]. split; [exact (quat_f_of lm v g Hv)|]. split; [exact Ng|].
  assert (Ug : unitq (qunit (qof g))) by (apply qunit_unit; apply Rabs_def2 in Ng; lra).
  assert (GP : 0 < B 0%nat * B 0%nat + B 1%nat * B 1%nat) by lra.
  pose proof (tilt t ah B _ Ut Ua Dt (qunit (qof g)) _ GP Ug Dg) as TI.
  pose proof (heading t mh B _ Ut Um DB (qunit (qof g)) _ GP Ug Dg) as [HE1 HE0].
  assert (SC : forall i, (i < 3)%nat -> qrot (qconj (qunit (qof g))) m i = rnorm 3 m * qrot (qconj (qunit (qof g))) mh i).
  { intros i Hi. rewrite <- qrot_scale by exact Hi. apply qrot_ext. intros k Hk. unfold mh. field. lra. }
  split; [|split].
  - eapply Rle_trans; [exact TI|]. lra.
  - rewrite SC by lia. rewrite Rabs_mult, (Rabs_pos_eq (rnorm 3 m)), Rmult_comm by lra. apply Rmult_le_compat_r; [lra|]. eapply Rle_trans; [exact HE1|]. lra.
  - rewrite SC by lia. apply Rmult_lt_0_compat; [exact Pm|]. apply Rabs_le_inv in HE0. lra.
Qed.

(** ** free fall *)
Lemma sf_z (x : f32) n : B2SF x = sf n -> x = z32 n.
Proof. intros H. apply B2SF_inj. exact H. Qed.
Lemma started_am32 lm : exists s : Aqua (A := F32 lm), aq_hist s Live /\ aq_mode s = AM /\
  aq_get_accelerometer_config s = Ok default_config /\ aq_get_magnetometer_config s = Ok default_config.
Proof.
  destruct (new_ok (A := F32 lm) Gyr) as (g & Eg & _ & Ig).
  assert (N : exists s0, aq_new (A := F32 lm) = Ok s0) by (unfold aq_new; rewrite Eg; cbn [rbind]; eauto). destruct N as (s0 & N).
  pose proof (qh_new (A := F32 lm) s0 N) as H0.
  assert (OKa : args_ok (args32 lm AM None)).
  { split; [intros E; discriminate E|]. split; [apply default_finite|]. split; [apply default_finite|]. left. split; [reflexivity|]. split; [reflexivity|]. split; reflexivity. }
  exists (fst (aq_init_with (args32 lm AM None) s0)). split; [exact (qh_call s0 Fresh (QInit (args32 lm AM None)) Live H0 (qn_init _ OKa))|].
  pose proof (l_aq_lifecycle (F32 lm) _ s0 Fresh H0 (args32 lm AM None) None None None f0 f0 f0 f0 f0 f0 default_config) as L.
  destruct L as (_ & _ & _ & _ & _ & _ & _ & _ & L). destruct (aq_init_with (args32 lm AM None) s0) as [s' o]. cbn [fst]. destruct (proj1 L OKa) as (_ & _ & L1 & _ & _ & _ & _ & _ & _ & _ & _ & _ & _ & _ & L2 & L3). auto.
Qed.
Lemma reading_z lm k (x y z : Z) : (Z.abs x <= 2 ^ 24)%Z -> (Z.abs y <= 2 ^ 24)%Z -> (Z.abs z <= 2 ^ 24)%Z ->
  (forall i, (i < 3)%nat -> B2SF (unbiased (A := F32 lm) default_config (raw3 (A := F32 lm) (z32 x) (z32 y) (z32 z)) i : f32) = sf (nth i [x; y; z] 0%Z) /\
     (forall n, (1 <= n <= 3)%nat -> is_finite (corrected (A := F32 lm) k default_config (raw3 (A := F32 lm) (z32 x) (z32 y) (z32 z)) n i : f32) = true) /\
     B2SF (corrected (A := F32 lm) k default_config (raw3 (A := F32 lm) (z32 x) (z32 y) (z32 z)) 3 i : f32) = sf (nth i [x; y; z] 0%Z)) ->
  reading (lm := lm) k default_config (z32 x) (z32 y) (z32 z) (triple (IZR x) (IZR y) (IZR z)).
Proof.
  intros Hx Hy Hz H.
  assert (ZZ : forall i, (i < 3)%nat -> is_finite (z32 (nth i [x; y; z] 0%Z)) = true /\ B2R (z32 (nth i [x; y; z] 0%Z)) = triple (IZR x) (IZR y) (IZR z) i).
  { intros i Hi. do 3 (destruct i as [|i]; [apply z32_R; cbn [nth]; assumption|]). lia. }
  split; [|split; [|split]].
  - intros i Hi. apply (valid_finite lm). destruct (ZZ i Hi) as [Z1 _]. do 3 (destruct i as [|i]; [exact Z1|]). lia.
  - intros i Hi. apply (valid_finite lm). destruct (H i Hi) as (E & _). rewrite (sf_z _ _ E). apply ZZ, Hi.
  - intros i n Hi Hn. apply (valid_finite lm). apply (H i ltac:(lia)). lia.
  - intros i Hi. destruct (H i Hi) as (_ & _ & E). rewrite (sf_z _ _ E). apply ZZ, Hi.
Qed.
Lemma sf_0 (x : f32) sg : B2SF x = S754_zero sg -> B2R x = 0.
Proof. destruct x as [b| | |b m e H]; cbn; intros E; try discriminate; reflexivity. Qed.
Ltac rz := let i := fresh "i" in let Hi := fresh "Hi" in let n := fresh "n" in let Hn := fresh "Hn" in
  intros i Hi; (do 3 (destruct i as [|i];
    [split; [vm_compute; reflexivity|split; [intros n Hn; destruct n as [|[|[|[|n]]]]; [lia|vm_compute; reflexivity..|lia]|vm_compute; reflexivity]]|]); lia).
Lemma r_acc0 lm : reading (lm := lm) Acc default_config (z32 0) (z32 0) (z32 0) (triple 0 0 0). Proof. apply (reading_z lm Acc 0 0 0); [lia|lia|lia|]. rz. Qed.
Lemma r_acc1 lm : reading (lm := lm) Acc default_config (z32 0) (z32 0) (z32 1) (triple 0 0 1). Proof. apply (reading_z lm Acc 0 0 1); [lia|lia|lia|]. rz. Qed.
Lemma r_acc2 lm : reading (lm := lm) Acc default_config (z32 0) (z32 3) (z32 4) (triple 0 3 4). Proof. apply (reading_z lm Acc 0 3 4); [lia|lia|lia|]. rz. Qed.
Lemma r_mag1 lm : reading (lm := lm) Mag default_config (z32 1) (z32 0) (z32 0) (triple 1 0 0). Proof. apply (reading_z lm Mag 1 0 0); [lia|lia|lia|]. rz. Qed.
Lemma r_mag2 lm : reading (lm := lm) Mag default_config (z32 1) (z32 2) (z32 2) (triple 1 2 2). Proof. apply (reading_z lm Mag 1 2 2); [lia|lia|lia|]. rz. Qed.

Section Fall.
  Variable lm : Libm.
  Notation F := (F32 lm).
  Variable z : Z.
  Let a := corrected (A := F) Acc default_config (raw3 (A := F) (z32 0) (z32 0) (z32 z)) 3.
  Let m := corrected (A := F) Mag default_config (raw3 (A := F) (z32 1) (z32 0) (z32 0)) 3.
  Let qa := quad_of (A := F) (let '(x, y, z) := a_unit (A := F) a in acc_quat_of (A := F) x y z).
  Let b := tog (A := F) qa (vunit (A := F) 3 m).
  Let qm := quad_of (A := F) (mag_am (A := F) (b 0%nat) (b 1%nat) (b 0%nat * b 0%nat + b 1%nat * b 1%nat)%F).
  Let g := prodf (A := F) qa qm.
  Lemma fall_sf i : (z = 0 \/ z = 1)%Z -> (i < 4)%nat ->
    (i = 1%nat /\ B2SF (vunit (A := F) 4 g i : f32) = sf 1) \/ (i <> 1%nat /\ exists sg, B2SF (vunit (A := F) 4 g i : f32) = S754_zero sg).
  Proof.
    intros Hz Hi. destruct i as [|[|[|[|i]]]]; [right|left|right|right|lia]; (split; [first [reflexivity|discriminate]|]);
    destruct Hz as [-> | ->]; try (vm_compute; reflexivity); (first [exists false; vm_compute; reflexivity|exists true; vm_compute; reflexivity]).
  Qed.
  Lemma fall_run s : (z = 0 \/ z = 1)%Z -> aq_hist s Live -> aq_mode s = AM ->
    aq_get_accelerometer_config s = Ok default_config -> aq_get_magnetometer_config s = Ok default_config ->
    exists s' v, aq_update (A := F) None None None (z32 0) (z32 0) (z32 z) (z32 1) (z32 0) (z32 0) s = (s', Ok tt) /\
      aq_get_attitude s' = Ok v /\ quat_f v (Quat 0 1 0 0).
  Proof.
    intros Hz HH EM Hca Hcm.
    assert (RA : finite_update (A := F) Acc default_config (raw3 (A := F) (z32 0) (z32 0) (z32 z))).
    { destruct Hz as [-> | ->]; [destruct (r_acc0 lm) as (R1 & R2 & R3 & _)|destruct (r_acc1 lm) as (R1 & R2 & R3 & _)]; exact (conj R1 (conj R2 R3)). }
    assert (RM : finite_update (A := F) Mag default_config (raw3 (A := F) (z32 1) (z32 0) (z32 0))).
    { destruct (r_mag1 lm) as (R1 & R2 & R3 & _); exact (conj R1 (conj R2 R3)). }
    destruct (am_run (A := F) None None None (z32 0) (z32 0) (z32 z) (z32 1) (z32 0) (z32 0) s default_config default_config (aq_hist_inv s Live HH) EM Hca Hcm RA RM) as (s' & E & I & Hv).
    - intros i Hi. apply (valid_finite lm). do 3 (destruct i as [|i]; [vm_compute; reflexivity|]). lia.
    - intros i Hi. apply (valid_finite lm). destruct Hz as [-> | ->]; (do 4 (destruct i as [|i]; [vm_compute; reflexivity|]); lia).
    - unfold dcm_l. destruct Hz as [-> | ->]; (repeat constructor); apply (valid_finite lm); vm_compute; reflexivity.
    - intros i n Hi Hn. apply (valid_finite lm). destruct Hz as [-> | ->];
      (do 3 (destruct i as [|i]; [destruct n as [|[|[|[|n]]]]; [lia|vm_compute; reflexivity..|lia]|]); lia).
    - intros i Hi. apply (valid_finite lm). destruct Hz as [-> | ->]; (do 4 (destruct i as [|i]; [vm_compute; reflexivity|]); lia).
    - intros i Hi. apply (valid_finite lm). destruct Hz as [-> | ->]; (do 4 (destruct i as [|i]; [vm_compute; reflexivity|]); lia).
    - intros i Hi. apply (valid_finite lm). destruct Hz as [-> | ->]; (do 4 (destruct i as [|i]; [vm_compute; reflexivity|]); lia).
    - fold a m in Hv. change (vec_is (A := F) (aq_attitude s') 4 (vunit (A := F) 4 g)) in Hv.
      destruct (v_duplicate_ok (A := F) _ 4 _ Hv) as (v & Ev & Hd). exists s', v. split; [exact E|]. split; [unfold aq_get_attitude; rewrite I, Ev; reflexivity|].
      exists (vunit (A := F) 4 g). split; [exact Hd|]. intros i Hi.
      destruct (fall_sf i Hz Hi) as [[-> S]|(N & sg & S)].
      + rewrite (sf_z _ 1 S). apply z32_R. lia.
      + rewrite (sf_0 _ _ S). destruct i as [|[|[|[|i]]]]; [reflexivity|congruence|reflexivity..|lia].
  Qed.
End Fall.

(*@ C63_free_fall_refuted *)
(** C63, violation: "a measurement without a usable acceleration is refused, or reported differently from a usable one" is
    false. In free fall (acceleration exactly zero) the update of a live filter succeeds, and reports exactly the
    attitude that an acceleration of 1 along the third axis gives, i.e. a half turn about the first axis *)
Lemma l_fall32 :
  forall lm, exists s s1 v1 s2 v2, aq_hist (A := F32 lm) s Live /\ aq_mode s = AM /\
    aq_get_accelerometer_config s = Ok default_config /\ aq_get_magnetometer_config s = Ok default_config /\
    reading (lm := lm) Acc default_config (z32 0) (z32 0) (z32 0) (triple 0 0 0) /\
    reading (lm := lm) Acc default_config (z32 0) (z32 0) (z32 1) (triple 0 0 1) /\
    reading (lm := lm) Mag default_config (z32 1) (z32 0) (z32 0) (triple 1 0 0) /\
    aq_update (A := F32 lm) None None None (z32 0) (z32 0) (z32 0) (z32 1) (z32 0) (z32 0) s = (s1, Ok tt) /\
    aq_get_attitude s1 = Ok v1 /\ quat_f v1 (Quat 0 1 0 0) /\
    aq_update (A := F32 lm) None None None (z32 0) (z32 0) (z32 1) (z32 1) (z32 0) (z32 0) s = (s2, Ok tt) /\
    aq_get_attitude s2 = Ok v2 /\ quat_f v2 (Quat 0 1 0 0).
Proof.
  intros lm. destruct (started_am32 lm) as (s & HH & EM & Ca & Cm).
  destruct (fall_run lm 0 s (or_introl eq_refl) HH EM Ca Cm) as (s1 & v1 & E1 & G1 & Q1).
  destruct (fall_run lm 1 s (or_intror eq_refl) HH EM Ca Cm) as (s2 & v2 & E2 & G2 & Q2).
  exists s, s1, v1, s2, v2. repeat (split; [first [assumption|apply r_acc0|apply r_acc1|apply r_mag1]|]). exact Q2.
Qed.

Lemma norm_tri x y z n : 0 <= n -> x * x + y * y + z * z = n * n -> rnorm 3 (triple x y z) = n.
Proof.
  intros Hn E. unfold rnorm. replace (rdot 3 (triple x y z) (triple x y z)) with (n * n) by (unfold rdot; cbn [Rsum triple]; lra).
  apply sqrt_square, Hn.
Qed.
Lemma am32_example_holds : forall lm, exists s : Aqua (A := F32 lm), aq_hist s Live /\ aq_mode s = AM /\
  aq_get_accelerometer_config s = Ok default_config /\ aq_get_magnetometer_config s = Ok default_config /\
  reading (lm := lm) Acc default_config (z32 0) (z32 3) (z32 4) (triple 0 3 4) /\
  reading (lm := lm) Mag default_config (z32 1) (z32 2) (z32 2) (triple 1 2 2) /\
  2 * eps <= rnorm 3 (triple 0 3 4) <= bpow radix2 60 /\ 2 * eps <= rnorm 3 (triple 1 2 2) <= bpow radix2 60 /\
  (let a := triple 0 3 4 in let m := triple 1 2 2 in
   / 1000 * / 1000 * (rdot 3 a a * rdot 3 m m) <= rdot 3 a a * rdot 3 m m - rdot 3 a m * rdot 3 a m).
Proof.
  intros lm. destruct (started_am32 lm) as (s & HH & EM & Ca & Cm). exists s.
  repeat (split; [first [assumption|apply r_acc2|apply r_mag2]|]).
  assert (B : 8 <= bpow radix2 60) by (change 8 with (bpow radix2 3); apply bpow_le; lia).
  rewrite (norm_tri 0 3 4 5), (norm_tri 1 2 2 3) by lra. unfold eps.
  split; [lra|]. split; [lra|]. cbv zeta. unfold rdot; cbn [Rsum triple]; lra.
Qed.
(*@ example *)
Example C63_example : forall lm, exists s : Aqua (A := F32 lm), aq_hist s Live /\ aq_mode s = AM /\
  aq_get_accelerometer_config s = Ok default_config /\ aq_get_magnetometer_config s = Ok default_config /\
  reading (lm := lm) Acc default_config (z32 0) (z32 3) (z32 4) (triple 0 3 4) /\
  reading (lm := lm) Mag default_config (z32 1) (z32 2) (z32 2) (triple 1 2 2) /\
  2 * eps <= rnorm 3 (triple 0 3 4) <= bpow radix2 60 /\ 2 * eps <= rnorm 3 (triple 1 2 2) <= bpow radix2 60 /\
  (let a := triple 0 3 4 in let m := triple 1 2 2 in
   / 1000 * / 1000 * (rdot 3 a a * rdot 3 m m) <= rdot 3 a a * rdot 3 m m - rdot 3 a m * rdot 3 a m).
Proof. exact am32_example_holds. Qed.
