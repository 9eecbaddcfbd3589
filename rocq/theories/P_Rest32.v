(** C66: the Aqua filter in mode MARG at rest, in f32. *)
(*@+*)
From Coq Require Import List Arith ZArith NArith Reals Lia Bool Lra SpecFloat.
From Flocq Require Import Core BinarySingleNaN.
From Verif Require Import M_Base M_Arith M_Utils M_Vector M_Matrix M_Quaternion M_Sensors M_Ar M_Aqua M_F32
  S_Spec S_Linalg S_Norm S_Quat S_Sensors S_Ar S_Aqua S_F32 S_Reading S_Rest P_Inst P_InstF.
Import ListNotations.
Local Open Scope R_scope.
(*@-*)
From Coq Require Import Psatz.
From Verif Require Import P_Hoare P_Cont P_Float P_Norm P_FErr P_Norm32 P_Quat P_Rot P_Sensors P_Ar P_Aqua P_ArR P_AquaR P_AquaM P_FAcc P_F32Mul P_F32Rot P_Product
  P_F32App P_F32Ar P_F32Am P_AmGeo P_Am32 P_RestGeo P_MargRun P_RestF.

(** ** the missing turn *)
Lemma qrot_miss P t x y d : unitq P -> vdist 3 x (qrot t y) <= d -> vdist 3 (qrot (qconj P) x) (qrot (qmul (qconj P) t) y) <= d.
Proof.
  intros U H. rewrite (vdist_ext _ _ (qrot (qconj P) x) (qrot (qconj P) (qrot t y))); [rewrite qrot_iso; auto using conj_unit|reflexivity|].
  intros i Hi. pose proof (qrot_mul_conj (qconj t) P y i Hi) as Q.
  replace (qconj (qmul (qconj t) P)) with (qmul (qconj P) t) in Q by (apply quat_eta; cbn; ring). rewrite Q.
  apply qrot_ext. intros k Hk. replace (qconj (qconj t)) with t by (apply quat_eta; cbn; ring). reflexivity.
Qed.
Lemma miss_unit P t : unitq P -> unitq t -> unitq (qmul (qconj P) t).
Proof.
  intros U V. pose proof (conj_unit P U) as C. unfold unitq in *. pose proof (qnorm_sqr (qmul (qconj P) t)) as S. rewrite qnorm_mul, (unit_norm (qconj P) C), (unit_norm t V) in S. lra.
Qed.
Lemma miss_step P G d t e : unitq t -> qdist P (qmul G d) <= e -> qdist (qmul (qconj P) t) (qmul (qconj d) (qmul (qconj G) t)) <= e.
Proof.
  intros U H. replace (qmul (qconj d) (qmul (qconj G) t)) with (qmul (qconj (qmul G d)) t) by (apply quat_eta; cbn; ring). rewrite missing_dist; auto.
Qed.
(** two turns about the vertical that are close *)
Lemma circle q z e : unitq q -> unitq z -> Qx q = 0 -> Qy q = 0 -> Qx z = 0 -> Qy z = 0 -> Rabs (Qz z) <= 275 / 1000 -> 0 < Qw z -> qdist q z <= e -> e <= 15 / 100 -> 905 / 1000 <= Qw q.
Proof.
  intros Uq Uz X1 Y1 X2 Y2 HS HW HD He. apply unit_comp in Uq. apply unit_comp in Uz. rewrite X1, Y1 in Uq. rewrite X2, Y2 in Uz.
  pose proof (qdist_pos q z) as D0. pose proof (qdist_sqr q z) as DS. unfold qnorm2, qsub, qadd, qneg, qscale in DS. cbn [Qw Qx Qy Qz] in DS. rewrite X1, Y1, X2, Y2 in DS.
  assert (DB : qdist q z * qdist q z <= 225 / 10000) by nra. apply Rabs_le_inv in HS.
  set (c := Qw q) in *. set (s := Qz q) in *. set (c' := Qw z) in *. set (s' := Qz z) in *.
  assert (C1 : 961 / 1000 <= c') by nra.
  set (dot := c * c' + s * s'). set (cr := s * c' - c * s').
  assert (ED : dot = 1 - qdist q z * qdist q z / 2) by (unfold dot; lra).
  assert (EC : cr * cr + dot * dot = 1) by (replace (cr * cr + dot * dot) with ((c * c + s * s) * (c' * c' + s' * s')) by (unfold cr, dot; ring); replace (c' * c' + s' * s') with 1 by lra; lra).
  assert (CB : - (15 / 100) <= cr <= 15 / 100) by nra.
  assert (E : c = dot * c' - cr * s') by (replace (dot * c' - cr * s') with (c * (c' * c' + s' * s')) by (unfold dot, cr; ring); replace (c' * c' + s' * s') with 1 by lra; ring).
  assert (cr * s' <= 15 / 100 * (275 / 1000)) by nra. nra.
Qed.

Lemma blend_le k c M : 0 <= k <= 1 -> qnorm c <= M -> 1 <= M -> qnorm (blend (1 - k) k c) <= M.
Proof.
  intros Hk Hc HM. replace (blend (1 - k) k c) with (qadd (qscale (1 - k) qone) (qscale k c)) by (apply quat_eta; cbn; ring).
  eapply Rle_trans; [apply qnorm_add|]. rewrite !qnorm_scale, !Rabs_pos_eq by lra. replace (qnorm qone) with 1 by (symmetry; apply unit_norm; unfold unitq, qnorm2; cbn; ring). nra.
Qed.
Lemma acc_arith k eta x : 0 <= k <= 1 -> 0 <= eta -> 0 <= x <= 11 / 100 ->
  65 / 100 * k * (eta + 21 / 1000000) + 6 / 1000000 + 12 / 10000000 <= 65 / 100 * k * eta + 22 / 1000000 /\
  13 / 10 * (65 / 100 * k * (eta + 21 / 1000000) + 6 / 1000000) * x + 104 / 100 * (12 / 10000000) <= 94 / 1000 * k * eta + 5 / 1000000.
Proof.
  intros Hk He Hx. assert (K : 0 <= k * eta) by (apply Rmult_le_pos; lra). set (ke := k * eta) in *.
  replace (65 / 100 * k * (eta + 21 / 1000000)) with (65 / 100 * ke + 1365 / 100000000 * k) by (unfold ke; field).
  replace (65 / 100 * k * eta) with (65 / 100 * ke) by (unfold ke; ring). replace (94 / 1000 * k * eta) with (94 / 1000 * ke) by (unfold ke; ring). split; [lra|].
  set (D := 65 / 100 * ke + 1365 / 100000000 * k + 6 / 1000000). assert (D0 : 0 <= D) by (unfold D; lra).
  assert (D * x <= D * (11 / 100)) by (apply Rmult_le_compat_l; lra). unfold D in *. lra.
Qed.

Section Stages.
  Variable lm : Libm.
  Notation F := (F32 lm).
  Implicit Types f g h c : nat -> f32.
  Lemma some_vec f : (forall i, (i < 4)%nat -> is_finite (f i) = true) -> exists v : Vec (T (Arith := F)), vec_is (A := F) v 4 f.
  Proof.
    intros Ff. destruct (quat4_run (A := F) (f 0%nat, f 1%nat, f 2%nat, f 3%nat)) as (v & _ & Hv).
    - intros i Hi. apply (valid_finite lm). destruct i as [|[|[|[|i]]]]; [| | | |lia]; cbn; apply Ff; lia.
    - exists v. eapply vec_is_ext; [exact Hv|]. intros i Hi. destruct i as [|[|[|[|i]]]]; [| | | |lia]; reflexivity.
  Qed.
  Lemma stage_gyr (w f : nat -> f32) (dt : f32) e : (forall i, (i < 3)%nat -> is_finite (w i) = true) -> (forall i, (i < 4)%nat -> is_finite (f i) = true) -> is_finite dt = true ->
    Rabs (qnorm (qof f) - 1) < / 1000000 -> rnorm 3 (fun i => B2R (w i)) <= bpow radix2 60 -> rnorm 3 (fun i => B2R (w i)) * Rabs (B2R dt) / 2 <= e -> e <= 1 / 200 -> Rabs (B2R dt) <= 1000 ->
    exists gp gq, gyr_pred (A := F) w f dt = gp /\ vunit (A := F) 4 gp = gq /\ (forall i, (i < 4)%nat -> is_finite (gp i) = true) /\ (forall i, (i < 4)%nat -> is_finite (gq i) = true) /\
      Rabs (qnorm (qof gq) - 1) < / 1000000 /\ qdist (qunit (qof gq)) (qunit (qof f)) <= 102 / 100 * e + 5 / 1000000.
  Proof.
    intros Fw Ff Fd NF NW HE He HD. destruct (gyr32 lm w f dt e Fw Ff Fd NF NW HE He HD) as (_ & _ & _ & _ & gp & E1 & F1 & D1). apply Rabs_def2 in NF.
    assert (e0 : 0 <= e). { eapply Rle_trans; [|exact HE]. pose proof (rnorm_pos 3 (fun i => B2R (w i))). pose proof (Rabs_pos (B2R dt)). assert (0 <= rnorm 3 (fun i => B2R (w i)) * Rabs (B2R dt)) by (apply Rmult_le_pos; auto). lra. }
    pose proof (qdist_norm_abs (qof gp) (qof f)) as DN. apply Rabs_le_inv in DN.
    destruct (renorm2 lm gp F1 ltac:(lra)) as (gq & E2 & F2 & N2 & D2). exists gp, gq. split; [exact E1|]. split; [exact E2|]. split; [exact F1|]. split; [exact F2|]. split; [exact N2|].
    eapply Rle_trans; [apply (qdist_tri _ (qunit (qof gp)))|]. pose proof (proj_lip (qof gp) (qof f) (99 / 100) ltac:(lra) ltac:(lra) ltac:(lra)) as PL. lra.
  Qed.
  Lemma stage_acc gq (a : nat -> f32) (al ta : f32) t k r eta : (forall i, (i < 4)%nat -> is_finite (gq i) = true) -> Rabs (qnorm (qof gq) - 1) < / 1000000 ->
    (forall i, (i < 3)%nat -> is_finite (a i) = true) -> is_finite al = true -> B2R al = k -> 0 <= k <= 1 -> is_finite ta = true -> B2R ta <= 9 / 10 ->
    unitq t -> let E := qmul (qconj (qunit (qof gq))) t in tx E <= 11 / 100 -> 9 / 10 <= Qw E ->
    Rabs (r - 1) <= 1 / 20 -> vdist 3 (fun i => B2R (a i)) (qrot t (triple 0 0 (- r))) <= eta -> eta <= 19 / 1000 ->
    exists b qa mi qi p, tog (A := F) gq a = b /\ quad_of (A := F) (acc_quat_of (A := F) (b 0%nat) (b 1%nat) (b 2%nat)) = qa /\ mix (A := F) al qa = mi /\ vunit (A := F) 4 mi = qi /\ prodf (A := F) gq qi = p /\
      Forall (valid (A := F)) (dcm_l (A := F) gq) /\
      (forall i n, (i < 3)%nat -> (1 <= n <= 3)%nat -> valid (A := F) (fsum (A := F) n (fun k => fmul (Arith := F) (grid (dcm_l (A := F) gq) k i) (a k)))) /\
      (forall i, (i < 4)%nat -> is_finite (qa i) = true) /\ fltb (Arith := F) ta (qa 0%nat) = true /\
      (forall i, (i < 4)%nat -> valid (A := F) (fmul (Arith := F) (quad f1 f0 f0 f0 i) (fsub (Arith := F) f1 al))) /\
      (forall i, (i < 4)%nat -> valid (A := F) (fmul (Arith := F) (qa i) al)) /\
      (forall i, (i < 4)%nat -> is_finite (mi i) = true) /\ (forall i, (i < 4)%nat -> is_finite (qi i) = true) /\ (forall i, (i < 4)%nat -> is_finite (p i) = true) /\
      Rabs (qnorm (qof p) - 1) <= 32 / 10000000 /\
      let E' := qmul (qconj (qunit (qof p))) t in
      tx E' <= (1 - 4 / 5 * k) * tx E + 65 / 100 * k * eta + 22 / 1000000 /\ hz E' <= hz E + 94 / 1000 * k * eta + 5 / 1000000 /\ 8 / 10 <= Qw E'.
  Proof.
    intros Fq Nq Fa Fal Eal Hk Fta Hta Ut E HT HW Hr HA Heta.
    destruct (some_vec gq Fq) as (v & Hv). pose proof tiny_small as TS. pose proof tiny_pos as TP. pose proof (vdist_norm (fun i => B2R (a i)) (qrot t (triple 0 0 (- r)))) as VN. rewrite (qrot_len t _ Ut) in VN.
    assert (NR : rnorm 3 (triple 0 0 (- r)) <= 105 / 100).
    { apply le_sqrt_of; [lra|]. rewrite rnorm_sqr. unfold rdot. cbn [Rsum triple]. apply Rabs_le_inv in Hr. nra. }
    apply Rabs_le_inv in VN. assert (NA : rnorm 3 (fun i => B2R (a i)) <= 107 / 100) by lra.
    destruct (tog32 lm v gq a (/ 1000000) Hv ltac:(lra) ltac:(lra) Fa ltac:(lra)) as (T1 & T2 & T3 & T4).
    set (b := tog (A := F) gq a) in *. apply Rabs_def2 in Nq. set (G := qunit (qof gq)) in *. assert (UG : unitq G) by (apply qunit_unit; lra).
    assert (UE : unitq E) by (apply miss_unit; auto).
    assert (DG : vdist 3 (fun i => B2R (b i)) (qrot E (triple 0 0 (- r))) <= eta + 21 / 1000000).
    { eapply Rle_trans; [apply (vdist_tri _ (qrot (qconj G) (fun i => B2R (a i))))|]. pose proof (qrot_miss G t _ _ _ UG HA) as Q. fold E in Q.
      assert ((15 * / 1000000 + 4 / 1000000) * rnorm 3 (fun i => B2R (a i)) <= (15 * / 1000000 + 4 / 1000000) * (107 / 100)) by (apply Rmult_le_compat_l; lra). lra. }
    destruct (region_acc E r _ _ UE HT Hr DG ltac:(lra)) as (R2 & R0 & R1).
    destruct (acc32u lm (b 0%nat) (b 1%nat) (b 2%nat) (T3 0%nat ltac:(lia)) (T3 1%nat ltac:(lia)) (T3 2%nat ltac:(lia)) R2 R0 R1) as (qa & E1 & F1 & D1 & Z1).
    set (ca := cacc (B2R (b 0%nat)) (B2R (b 1%nat)) (B2R (b 2%nat))) in *.
    assert (WC : 96 / 100 <= Qw ca /\ qnorm ca <= 11 / 10).
    { unfold ca, cacc. cbv zeta. set (L := sqrt ((1 - B2R (b 2%nat)) / 2)). cbn [Qw].
      assert (HL : 96 / 100 <= L <= 102 / 100) by (apply sqrt_in; lra). split; [apply HL|].
      apply le_sqrt_of; [lra|]. rewrite qnorm_sqr. unfold qnorm2. cbn [Qw Qx Qy Qz].
      assert (A1 : Rabs (B2R (b 1%nat) / (2 * L)) <= 22 / 100) by (apply abs_div; lra). assert (A2 : Rabs (- B2R (b 0%nat) / (2 * L)) <= 22 / 100) by (apply abs_div; [lra|rewrite Rabs_Ropp; lra]).
      apply Rabs_le_inv in A1. apply Rabs_le_inv in A2. nra. }
    destruct WC as [WC NC].
    pose proof (qdist_norm (qof qa) ca) as NQ. destruct (mix32 lm al k qa Fal Eal Hk F1 ltac:(lra)) as (mi & E2 & V1 & V2 & F2 & D2 & Z2).
    set (B := blend (1 - k) k ca). assert (D2' : qdist (qof mi) B <= 2 / 1000000).
    { eapply Rle_trans; [apply (qdist_tri _ (blend (1 - k) k (qof qa)))|]. unfold B. rewrite blend_dist by lra. assert (k * qdist (qof qa) ca <= 1 * / 1000000) by (apply Rmult_le_compat; try lra; apply qdist_pos). lra. }
    assert (NB : 96 / 100 <= qnorm B). { eapply Rle_trans; [|apply blend_big; lra]. nra. }
    assert (NB2 : qnorm B <= 12 / 10).
    { apply blend_le; lra. }
    pose proof (qdist_norm_abs (qof mi) B) as NM. apply Rabs_le_inv in NM.
    destruct (renorm2 lm mi F2 ltac:(lra)) as (qi & E3 & F3 & N3 & D3). set (d := qunit (qof qi)).
    assert (Dd : qdist d (qunit B) <= 6 / 1000000).
    { eapply Rle_trans; [apply (qdist_tri _ (qunit (qof mi)))|]. pose proof (proj_lip (qof mi) B (95 / 100) ltac:(lra) ltac:(lra) ltac:(lra)). fold d in D3. lra. }
    pose proof N3 as N3'. apply Rabs_def2 in N3'. assert (Ud : unitq d) by (apply qunit_unit; lra).
    assert (Zd : Qz d = 0).
    { pose proof (vunit_zero lm 4 mi 3 (F2 3%nat ltac:(lia)) (Z2 3%nat ltac:(lia) Z1)) as VZ. rewrite E3 in VZ. unfold d, qunit, qscale, qof. cbn [Qz]. rewrite VZ. ring. }
    destruct (prod32 lm gq qi (/ 1000000) (/ 1000000) Fq F3 ltac:(apply Rabs_le; lra) ltac:(lra) ltac:(lra) ltac:(lra)) as (p & E4 & F4 & N4 & D4).
    pose proof N4 as N4'. apply Rabs_le_inv in N4'. set (P := qunit (qof p)) in *. assert (UP : unitq P) by (apply qunit_unit; lra).
    fold G d in D4. pose proof (miss_step P G d t _ Ut D4) as DE. fold E in DE.
    pose proof (step_acc E r k (fun i => B2R (b i)) (eta + 21 / 1000000) d (6 / 1000000) (qmul (qconj P) t) (12 / 10000000) UE HT HW Hr Hk DG ltac:(lra) Ud Zd Dd ltac:(lra) (miss_unit P t UP Ut) DE ltac:(lra)) as SA.
    cbv zeta in SA. destruct SA as (S1 & S2 & S3).
    exists b, qa, mi, qi, p. split; [reflexivity|]. split; [exact E1|]. split; [exact E2|]. split; [exact E3|]. split; [exact E4|]. split; [exact T2|]. split; [exact T1|]. split; [exact F1|]. split.
    { change (fltb (Arith := F) ta (qa 0%nat)) with (Bltb ta (qa 0%nat)). rewrite Bltb_ok by (auto; apply F1; lia). apply Rlt_bool_true. pose proof (qw_lip (qof qa) ca) as QW. cbn [Qw qof] in QW. lra. }
    split; [exact V1|]. split; [exact V2|]. split; [exact F2|]. split; [exact F3|]. split; [exact F4|]. split; [lra|]. cbv zeta. fold P.
    assert (eta0 : 0 <= eta) by (eapply Rle_trans; [apply vdist_pos|exact HA]). destruct (acc_arith k eta (tx E) Hk eta0 (conj (tx_pos E) HT)) as [A1 A2]. split; [|split; [|exact S3]].
    - lra.
    - lra.
  Qed.
  Lemma stage_mag p (m : nat -> f32) (be tm : f32) t k (h v mu : R) : (forall i, (i < 4)%nat -> is_finite (p i) = true) -> Rabs (qnorm (qof p) - 1) <= 32 / 10000000 ->
    (forall i, (i < 3)%nat -> is_finite (m i) = true) -> is_finite be = true -> B2R be = k -> 0 <= k <= 1 -> is_finite tm = true -> B2R tm <= 9 / 10 ->
    unitq t -> let E := qmul (qconj (qunit (qof p))) t in hz E <= 275 / 1000 -> 0 < Qw E -> tx E <= 9 / 100 * h ->
    1 / 100 <= h -> h * h + v * v = 1 ->
    let M := rnorm 3 (fun i => B2R (m i)) in 2 * eps <= M <= bpow radix2 60 -> vdist 3 (fun i => B2R (m i) / M) (qrot t (triple h 0 v)) <= mu -> mu + 7 / 100000 <= 3 / 100 * h ->
    exists u b qm mi qi z g, vunit (A := F) 3 m = u /\ tog (A := F) p u = b /\
      quad_of (A := F) (mag_quat_pos (A := F) (b 0%nat) (b 1%nat) (fadd (Arith := F) (fmul (Arith := F) (b 0%nat) (b 0%nat)) (fmul (Arith := F) (b 1%nat) (b 1%nat)))) = qm /\
      mix (A := F) be qm = mi /\ vunit (A := F) 4 mi = qi /\ prodf (A := F) p qi = z /\ vunit (A := F) 4 z = g /\
      (forall i, (i < 3)%nat -> is_finite (u i) = true) /\ Forall (valid (A := F)) (dcm_l (A := F) p) /\
      (forall i n, (i < 3)%nat -> (1 <= n <= 3)%nat -> valid (A := F) (fsum (A := F) n (fun k => fmul (Arith := F) (grid (dcm_l (A := F) p) k i) (u k)))) /\
      (forall i, (i < 4)%nat -> is_finite (qm i) = true) /\ fltb (Arith := F) tm (qm 0%nat) = true /\
      (forall i, (i < 4)%nat -> valid (A := F) (fmul (Arith := F) (quad f1 f0 f0 f0 i) (fsub (Arith := F) f1 be))) /\
      (forall i, (i < 4)%nat -> valid (A := F) (fmul (Arith := F) (qm i) be)) /\
      (forall i, (i < 4)%nat -> is_finite (mi i) = true) /\ (forall i, (i < 4)%nat -> is_finite (qi i) = true) /\ (forall i, (i < 4)%nat -> is_finite (z i) = true) /\ (forall i, (i < 4)%nat -> is_finite (g i) = true) /\
      Rabs (qnorm (qof g) - 1) < / 1000000 /\
      let E' := qmul (qconj (qunit (qof g))) t in
      tx E' <= tx E + 5 / 1000000 /\ hz E' <= (1 - 4 / 5 * k) * hz E + 84 / 100 * k * ((204 / 100 * tx E + mu + 7 / 100000) / h) + 12 / 1000000.
  Proof.
    intros Fp Np Fm Fbe Ebe Hk Ftm Htm Ut E HZ HW HT Hh HV M NM HM Hmu.
    destruct (some_vec p Fp) as (vp & Hvp). pose proof tiny_small as TS. pose proof tiny_pos as TP.
    pose proof (unit32 lm 3 m ltac:(lia) Fm) as NE. cbv zeta in NE. destruct (NE NM) as (u & EU & _ & FU & NU & DU). clear NE. apply Rabs_def2 in NU.
    destruct (tog32 lm vp p u (32 / 10000000) Hvp Np ltac:(lra) FU ltac:(lra)) as (T1 & T2 & T3 & T4).
    assert (h1 : h <= 1) by nra. set (b := tog (A := F) p u) in *. pose proof Np as Np'. apply Rabs_le_inv in Np'. set (P := qunit (qof p)) in *. assert (UP : unitq P) by (apply qunit_unit; lra).
    assert (UE : unitq E) by (apply miss_unit; auto).
    assert (DU2 : vdist 3 (fun i => B2R (u i)) (qrot t (triple h 0 v)) <= mu + 2 / 1000000).
    { eapply Rle_trans; [apply (vdist_tri _ (fun i => B2R (m i) / M))|].
      assert (vdist 3 (fun i => B2R (u i)) (fun i => B2R (m i) / M) <= 2 / 1000000); [|lra].
      apply le_sqrt_of; [lra|]. unfold vdist. rewrite rnorm_sqr. unfold rdot. cbn [Rsum].
      pose proof (DU 0%nat ltac:(lia)) as D0. pose proof (DU 1%nat ltac:(lia)) as D1. pose proof (DU 2%nat ltac:(lia)) as D2. fold M in D0, D1, D2.
      apply Rabs_le_inv in D0. apply Rabs_le_inv in D1. apply Rabs_le_inv in D2.
      assert (SQ : forall a, - / 1000000 <= a <= / 1000000 -> a * a <= / 1000000 * / 1000000) by (intros; nra).
      pose proof (SQ _ D0). pose proof (SQ _ D1). pose proof (SQ _ D2). lra. }
    assert (DB : vdist 3 (fun i => B2R (b i)) (qrot E (triple h 0 v)) <= mu + 7 / 100000).
    { eapply Rle_trans; [apply (vdist_tri _ (qrot (qconj P) (fun i => B2R (u i))))|]. pose proof (qrot_miss P t _ _ _ UP DU2) as Q. fold E in Q.
      assert ((15 * (32 / 10000000) + 4 / 1000000) * rnorm 3 (fun i => B2R (u i)) <= (15 * (32 / 10000000) + 4 / 1000000) * (1 + / 1000000)) by (apply Rmult_le_compat_l; lra). lra. }
    assert (HR : 204 / 100 * tx E + (mu + 7 / 100000) <= 2136 / 10000 * h) by lra.
    destruct (region_mag E h v _ _ UE ltac:(lra) ltac:(lra) HW ltac:(lra) HV DB ltac:(lra)) as (B0 & R0 & _ & DQ). cbv beta in DQ.
    set (B0' := B2R (b 0%nat)) in *. set (B1' := B2R (b 1%nat)) in *. set (qs := qpos B0' B1') in *.
    destruct (qpos_angle B0' B1' (or_introl B0)) as (X1 & Y1 & _). fold qs in X1, Y1. pose proof (qpos_unit B0' B1' (or_introl B0)) as Uqs. fold qs in Uqs.
    destruct (flat_close E UE ltac:(lra)) as (UZ & _ & _). destruct (front E UE ltac:(lra) ltac:(lra) HW) as (WZ & _ & _).
    assert (WQ : 905 / 1000 <= Qw qs).
    { apply (circle qs (qunit (flat E)) (7 / 10 * (2136 / 10000))); auto; try lra; try (unfold qunit, qscale, flat; cbn [Qx Qy]; ring).
      eapply Rle_trans; [exact DQ|]. apply Rmult_le_compat_l; [lra|]. apply (Rmult_le_reg_r h); [lra|]. replace ((204 / 100 * tx E + (mu + 7 / 100000)) / h * h) with (204 / 100 * tx E + (mu + 7 / 100000)) by (field; lra). lra. }
    assert (SB : 1 / 10000000 <= B0' * B0' + B1' * B1' <= 4).
    { split.
      - assert (S0 : 0 <= B0' * B0' + B1' * B1') by (pose proof (sqr_pos B0'); pose proof (sqr_pos B1'); lra). rewrite <- (sqrt_sqrt _ S0). set (sq := sqrt (B0' * B0' + B1' * B1')) in *. nra.
      - pose proof (vdist_norm (fun i => B2R (b i)) (qrot E (triple h 0 v))) as VN. rewrite (qrot_len E _ UE) in VN. apply Rabs_le_inv in VN.
        assert (N1 : rnorm 3 (triple h 0 v) <= 1) by (apply le_sqrt_of; [lra|]; rewrite rnorm_sqr; unfold rdot; cbn [Rsum triple]; lra).
        assert (N2 : rnorm 3 (fun i => B2R (b i)) <= 2) by lra. pose proof (rnorm_pos 3 (fun i => B2R (b i))) as N0.
        assert (N3 : rnorm 3 (fun i => B2R (b i)) * rnorm 3 (fun i => B2R (b i)) <= 4) by nra. rewrite rnorm_sqr in N3. unfold rdot in N3. cbn [Rsum] in N3. fold B0' B1' in N3. pose proof (sqr_pos (B2R (b 2%nat))). lra. }
    destruct (mag32u lm (b 0%nat) (b 1%nat) (T3 0%nat ltac:(lia)) (T3 1%nat ltac:(lia)) B0 SB) as (qm & E1 & F1 & D1 & Z1 & Z1').
    fold B0' B1' qs in D1. pose proof (qdist_norm (qof qm) qs) as NQ. rewrite (unit_norm qs Uqs) in NQ.
    destruct (mix32 lm be k qm Fbe Ebe Hk F1 ltac:(lra)) as (mi & E2 & V1 & V2 & F2 & D2 & Z2).
    set (B := blend (1 - k) k qs). assert (D2' : qdist (qof mi) B <= 2 / 1000000).
    { eapply Rle_trans; [apply (qdist_tri _ (blend (1 - k) k (qof qm)))|]. unfold B. rewrite blend_dist by lra. assert (k * qdist (qof qm) qs <= 1 * / 1000000) by (apply Rmult_le_compat; try lra; apply qdist_pos). lra. }
    assert (NB : 905 / 1000 <= qnorm B). { eapply Rle_trans; [|apply blend_big; lra]. clear - WQ Hk. nra. }
    assert (NB2 : qnorm B <= 12 / 10). { apply blend_le; try lra. rewrite (unit_norm qs Uqs). lra. }
    pose proof (qdist_norm_abs (qof mi) B) as NMI. apply Rabs_le_inv in NMI.
    destruct (renorm2 lm mi F2 ltac:(lra)) as (qi & E3 & F3 & N3 & D3). set (d := qunit (qof qi)).
    assert (Dd : qdist d (qunit B) <= 6 / 1000000).
    { eapply Rle_trans; [apply (qdist_tri _ (qunit (qof mi)))|]. pose proof (proj_lip (qof mi) B (9 / 10) ltac:(lra) ltac:(lra) ltac:(lra)). fold d in D3. lra. }
    pose proof N3 as N3'. apply Rabs_def2 in N3'. assert (Ud : unitq d) by (apply qunit_unit; lra).
    assert (Xd : Qx d = 0). { pose proof (vunit_zero lm 4 mi 1 (F2 1%nat ltac:(lia)) (Z2 1%nat ltac:(lia) Z1)) as VZ. rewrite E3 in VZ. unfold d, qunit, qscale, qof. cbn [Qx]. rewrite VZ. ring. }
    assert (Yd : Qy d = 0). { pose proof (vunit_zero lm 4 mi 2 (F2 2%nat ltac:(lia)) (Z2 2%nat ltac:(lia) Z1')) as VZ. rewrite E3 in VZ. unfold d, qunit, qscale, qof. cbn [Qy]. rewrite VZ. ring. }
    destruct (prod32 lm p qi (32 / 10000000) (/ 1000000) Fp F3 Np ltac:(lra) ltac:(lra) ltac:(lra)) as (z & E4 & F4 & N4 & D4).
    pose proof N4 as N4'. apply Rabs_le_inv in N4'. destruct (renorm2 lm z F4 ltac:(lra)) as (g & E5 & F5 & N5 & D5). pose proof N5 as N5'. apply Rabs_def2 in N5'. set (Gf := qunit (qof g)) in *.
    assert (UG : unitq Gf) by (apply qunit_unit; lra). fold P d in D4.
    assert (DF : qdist Gf (qmul P d) <= 42 / 10000000) by (eapply Rle_trans; [apply (qdist_tri _ (qunit (qof z)))|]; lra).
    pose proof (miss_step Gf P d t _ Ut DF) as DE. fold E in DE.
    destruct (step_mag E h v k (fun i => B2R (b i)) (mu + 7 / 100000) d (6 / 1000000) (qmul (qconj Gf) t) (42 / 10000000) UE ltac:(lra) ltac:(lra) HW Hk ltac:(lra) HV DB ltac:(lra) Ud Xd Yd Dd (miss_unit Gf t UG Ut) DE ltac:(lra)) as (S1 & S2).
    exists u, b, qm, mi, qi, z, g. split; [exact EU|]. split; [reflexivity|]. split; [exact E1|]. split; [exact E2|]. split; [exact E3|]. split; [exact E4|]. split; [exact E5|]. split; [exact FU|]. split; [exact T2|]. split; [exact T1|]. split; [exact F1|]. split.
    { change (fltb (Arith := F) tm (qm 0%nat)) with (Bltb tm (qm 0%nat)). rewrite Bltb_ok by (auto; apply F1; lia). apply Rlt_bool_true. pose proof (qw_lip (qof qm) qs) as QW. cbn [Qw qof] in QW. lra. }
    split; [exact V1|]. split; [exact V2|]. split; [exact F2|]. split; [exact F3|]. split; [exact F4|]. split; [exact F5|]. split; [exact N5|]. cbv zeta. fold Gf.
    replace (204 / 100 * tx E + mu + 7 / 100000) with (204 / 100 * tx E + (mu + 7 / 100000)) by ring. split; lra.
  Qed.
End Stages.

(** ** the whole update *)
Lemma tilt_tx q t : tilt_error q t = tx (missing q t).
Proof. reflexivity. Qed.
Lemma heading_hz q t : unitq (missing q t) -> tilt_error q t <= 1 / 5 -> heading_error q t = hz (missing q t).
Proof.
  intros U HT. rewrite tilt_tx in HT. destruct (flat_close _ U HT) as (_ & _ & N). unfold heading_error, hz, qunit, qscale. cbn [Qz flat]. rewrite <- flat_norm.
  set (E := missing q t) in *. change (Qz (flat E)) with (Qz E). rewrite Rabs_mult, (Rabs_pos_eq (/ _)) by (left; apply Rinv_0_lt_compat; lra). unfold Rdiv. ring.
Qed.
Lemma missing_neg q t : missing q (qneg t) = qneg (missing q t).
Proof. unfold missing. apply quat_eta; unfold qneg, qscale, qmul; cbn [Qw Qx Qy Qz]; ring. Qed.
Lemma tilt_neg q t : tilt_error q (qneg t) = tilt_error q t.
Proof. unfold tilt_error. cbv zeta. rewrite missing_neg. unfold qneg, qscale. cbn [Qx Qy]. f_equal. ring. Qed.
Lemma heading_neg q t : heading_error q (qneg t) = heading_error q t.
Proof.
  unfold heading_error. cbv zeta. rewrite missing_neg. unfold qneg, qscale. cbn [Qw Qz]. rewrite Rabs_mult. replace (Rabs (-1)) with 1 by (unfold Rabs; destruct (Rcase_abs (-1)); lra).
  rewrite Rmult_1_l. f_equal. f_equal. ring.
Qed.
Lemma rot_neg t x i : (i < 3)%nat -> qrot (qneg t) x i = qrot t x i.
Proof. intros Hi. destruct t as [w a b c]. destruct i as [|[|[|i]]]; [| | |lia]; cbn; ring. Qed.
Lemma rest_neg t h ts e eta mu w a m : at_rest t h ts e eta mu w a m -> at_rest (qneg t) h ts e eta mu w a m.
Proof.
  intros [G (r & R1 & R2) L (v & V1 & V2)]. split; auto.
  - exists r. split; [exact R1|]. rewrite (vdist_ext _ _ a (qrot t (triple 0 0 (- r)))); auto. intros i Hi. apply rot_neg, Hi.
  - exists v. split; [exact V1|]. rewrite (vdist_ext _ _ (fun i => m i / rnorm 3 m) (qrot t (triple h 0 v))); auto. intros i Hi. apply rot_neg, Hi.
Qed.
Lemma vdist_readings (x y z : nat -> R) : (forall i, (i < 3)%nat -> x i = y i) -> vdist 3 x z = vdist 3 y z.
Proof. intros H. apply vdist_ext; auto. Qed.

Definition step_ok lm (s : Aqua (A := F32 lm)) (cg ca cm : Config (A := F32 lm)) (q : quat) (ts ka ta kb tm : R) (t : quat) (h e eta mu : R) (z : nat -> T (Arith := F32 lm)) : Prop :=
  exists s' q', update_with z s = (s', Ok tt) /\ marg32 s' cg ca cm q' ts ka ta kb tm /\ near_truth q' t h /\
    tilt_error q' t <= (1 - 4 / 5 * ka) * tilt_error q t + tilt_drift ka e eta /\
    heading_error q' t <= (1 - 4 / 5 * kb) * heading_error q t + heading_drift ka e eta +
      84 / 100 * kb * ((204 / 100 * ((1 - 4 / 5 * ka) * tilt_error q t + tilt_drift ka e eta) + mu + 7 / 100000) / h).
Lemma finite_reading lm k (c : Config (A := F32 lm)) x y z u : reading k c x y z u -> finite_update k c (raw3 x y z).
Proof. intros (H1 & H2 & H3 & _). unfold finite_update. tauto. Qed.
Lemma step_pos lm (s : Aqua (A := F32 lm)) cg ca cm q ts ka ta kb tm t h e eta mu z :
  marg32 s cg ca cm q ts ka ta kb tm -> unitq t -> resting cg ca cm t h ts e eta mu z -> quiet ka kb h e eta mu -> near_truth q t h -> 0 < Qw (missing q t) ->
  step_ok lm s cg ca cm q ts ka ta kb tm t h e eta mu z.
Proof.
  intros [HH EM AD Hcg Hca Hcm (v & Ev & Qv) NQ [Fts Ets] [Fal Eal] [Fta Eta] [Fbe Ebe] [Ftm Etm] Hka Hkb Hta Htm Hts] Ut
    (w & a & m & RG & RA & RM & [[G1 G2] (r & Hr & HA) L (vv & HV & HM)]) (Hh & He & Heta & Q1 & Q2 & Q3) [N1 N2] HW.
  pose proof (aq_hist_inv s Live HH) as IV. set (F := F32 lm) in *.
  (* the attitude *)
  assert (ATT : exists f : nat -> f32, vec_is (A := F) (aq_attitude s) 4 f /\ (forall i, (i < 4)%nat -> is_finite (f i) = true) /\ qof f = q).
  { destruct (aq_get_attitude_live s IV) as (v' & f & E' & Hf & Hv'). rewrite Ev in E'. injection E' as <-. destruct (quat_f_inv lm v q Qv) as (f' & Hf' & B').
    exists f. split; [exact Hf|]. assert (EE : forall i, (i < 4)%nat -> f i = f' i) by (intros i Hi; exact (eq_trans (vec_is_eq _ _ _ i Hv' Hi) (eq_sym (vec_is_eq _ _ _ i Hf' Hi)))).
    split; [intros i Hi; rewrite EE by auto; apply B', Hi|]. unfold qof. apply quat_eta; cbn [Qw Qx Qy Qz]; rewrite EE by lia; apply B'; lia. }
  destruct ATT as (f & Hf & Ff & Eq).
  pose proof (finite_reading lm _ _ _ _ _ _ RG) as FG. pose proof (finite_reading lm _ _ _ _ _ _ RA) as FA. pose proof (finite_reading lm _ _ _ _ _ _ RM) as FM.
  pose proof (marg_run (A := F) (z 0%nat) (z 1%nat) (z 2%nat) (z 3%nat) (z 4%nat) (z 5%nat) (z 6%nat) (z 7%nat) (z 8%nat) s cg ca cm f IV EM AD Hcg Hca Hcm FG FA FM Hf) as RUN.
  cbv zeta in RUN.
  destruct RG as (_ & _ & RG3 & RG4). destruct RA as (_ & _ & RA3 & RA4). destruct RM as (_ & _ & RM3 & RM4).
  set (fw := corrected (A := F) Gyr cg (raw3 (A := F) (z 0%nat) (z 1%nat) (z 2%nat)) 3) in *.
  set (fa := corrected (A := F) Acc ca (raw3 (A := F) (z 3%nat) (z 4%nat) (z 5%nat)) 3) in *.
  set (fm := corrected (A := F) Mag cm (raw3 (A := F) (z 6%nat) (z 7%nat) (z 8%nat)) 3) in *.
  assert (Fw : forall i, (i < 3)%nat -> is_finite (fw i : f32) = true) by (intros i Hi; apply (valid_finite lm); apply RG3; lia).
  assert (Fa : forall i, (i < 3)%nat -> is_finite (fa i : f32) = true) by (intros i Hi; apply (valid_finite lm); apply RA3; lia).
  assert (Fm : forall i, (i < 3)%nat -> is_finite (fm i : f32) = true) by (intros i Hi; apply (valid_finite lm); apply RM3; lia).
  assert (ENw : rnorm 3 (fun i => B2R (fw i : f32)) = rnorm 3 w) by (apply rnorm_ext; exact RG4).
  assert (ENm : rnorm 3 (fun i => B2R (fm i : f32)) = rnorm 3 m) by (apply rnorm_ext; exact RM4).
  assert (RA5 : forall i, (i < 3)%nat -> B2R (fa i : f32) = a i) by exact RA4. assert (RM5 : forall i, (i < 3)%nat -> B2R (fm i : f32) = m i) by exact RM4.
  clearbody fw fa fm.
  (* the prediction *)
  assert (NF : Rabs (qnorm (qof f) - 1) < / 1000000) by (rewrite Eq; exact NQ).
  assert (HE : rnorm 3 (fun i => B2R (fw i : f32)) * Rabs (B2R (aq_ts s : f32)) / 2 <= e) by (rewrite ENw, Ets; exact G1).
  assert (G2' : rnorm 3 (fun i => B2R (fw i : f32)) <= bpow radix2 60) by (rewrite ENw; exact G2).
  assert (Hts' : Rabs (B2R (aq_ts s : f32)) <= 1000) by (rewrite Ets; exact Hts).
  destruct (gyr32 lm fw f (aq_ts s) e Fw Ff Fts NF G2' HE He Hts') as (V1 & V2 & V3 & V4 & _).
  destruct (stage_gyr lm fw f (aq_ts s) e Fw Ff Fts NF G2' HE He Hts') as (gp & gq & E1 & E2 & F1 & F2 & NG & DG). fold F in E1, E2.
  rewrite E1, E2 in RUN. specialize (RUN V1 V2 V3 V4 (proj2 (fin4 lm gp) F1) (proj2 (fin4 lm gq) F2)). clear V1 V2 V3 V4 E1 E2.
  set (e1 := 102 / 100 * e + 5 / 1000000) in *. rewrite Eq in DG.
  assert (UP : unitq (qunit q)) by (apply qunit_unit; apply Rabs_def2 in NQ; lra). assert (UG : unitq (qunit (qof gq))) by (apply qunit_unit; apply Rabs_def2 in NG; lra).
  assert (UE : unitq (missing q t)) by (apply miss_unit; auto). assert (HQ : heading_error q t = hz (missing q t)) by (apply heading_hz; [exact UE|lra]). unfold step_ok. rewrite HQ in N2 |- *. rewrite (tilt_tx q t) in N1 |- *.
  set (E1 := qmul (qconj (qunit (qof gq))) t). assert (UE1 : unitq E1) by (apply miss_unit; auto). set (E0 := missing q t) in *.
  assert (e0 : 0 <= e). { eapply Rle_trans; [|exact G1]. pose proof (rnorm_pos 3 w). pose proof (Rabs_pos ts). assert (0 <= rnorm 3 w * Rabs ts) by (apply Rmult_le_pos; auto). lra. }
  assert (DE1 : qdist E1 E0 <= e1) by (unfold E1, E0, missing; rewrite missing_dist; auto).
  destruct (step_gyr E0 E1 e1 UE UE1 ltac:(lra) ltac:(lra) HW DE1 ltac:(unfold e1; lra)) as (X1 & Y1 & W1).
  (* the accelerometer correction *)
  assert (HA' : vdist 3 (fun i => B2R (fa i : f32)) (qrot t (triple 0 0 (- r))) <= eta) by (rewrite (vdist_readings (fun i => B2R (fa i : f32)) a _ RA5); exact HA).
  assert (eta0 : 0 <= eta) by (eapply Rle_trans; [apply vdist_pos|exact HA']).
  pose proof (stage_acc lm gq fa (aq_alpha s) (aq_t_acc s) t ka r eta F2 NG Fa Fal Eal Hka Fta ltac:(lra) Ut) as SA. cbv zeta in SA. fold E1 in SA.
  destruct (SA ltac:(unfold e1 in *; lra) ltac:(lra) Hr HA' Heta) as (b & qa & mi & qi & p & A1 & A2 & A3 & A4 & A5 & VA1 & VA2 & FA1 & TA & VA3 & VA4 & FA2 & FA3 & FA4 & NP & X2 & Y2 & W2). clear SA.
  fold F in A1, A2, A3, A4, A5. rewrite A1, A2, A3, A4, A5 in RUN. set (E2 := qmul (qconj (qunit (qof p))) t) in *.
  specialize (RUN VA1 VA2 (proj2 (fin4 lm qa) FA1) (range01 lm _ ta Fta Eta ltac:(lra)) (range01 lm _ ka Fal Eal Hka) TA VA3 VA4 (proj2 (fin4 lm mi) FA2) (proj2 (fin4 lm qi) FA3) (proj2 (fin4 lm p) FA4)).
  clear A1 A2 A3 A4 A5 VA1 VA2 VA3 VA4 TA FA1 FA2 FA3.
  set (x := tx E0) in *. set (y := hz E0) in *. assert (x0 : 0 <= x) by apply tx_pos. assert (y0 : 0 <= y) by (unfold y, hz; apply Rabs_pos).
  unfold tilt_drift, heading_drift in *. assert (ke : 0 <= ka * eta) by (apply Rmult_le_pos; lra).
  assert (K1 : (1 - 4 / 5 * ka) * tx E1 <= (1 - 4 / 5 * ka) * x + e1) by (apply Rle_trans with ((1 - 4 / 5 * ka) * (x + e1)); [apply Rmult_le_compat_l; lra|assert (0 <= ka * e1) by (apply Rmult_le_pos; unfold e1; lra); lra]).
  assert (X2' : tx E2 + 5 / 1000000 <= (1 - 4 / 5 * ka) * x + (51 / 50 * e + 13 / 20 * ka * eta + 4 / 100000)) by (unfold e1 in *; lra).
  assert (XR : (1 - 4 / 5 * ka) * x + (51 / 50 * e + 13 / 20 * ka * eta + 4 / 100000) <= 9 / 100 * h).
  { apply Rle_trans with ((1 - 4 / 5 * ka) * (9 / 100 * h) + 7 / 100 * ka * h); [apply Rplus_le_compat; [apply Rmult_le_compat_l; lra|exact Q1]|]. assert (0 <= ka * h) by (apply Rmult_le_pos; lra). lra. }
  assert (Y2' : hz E2 + 12 / 1000000 <= y + (107 / 100 * e + 1 / 10 * ka * eta + 3 / 100000)) by (unfold e1 in *; lra).
  (* the magnetometer correction *)
  pose proof (stage_mag lm p fm (aq_beta s) (aq_t_mag s) t kb h vv mu FA4 NP Fm Fbe Ebe Hkb Ftm ltac:(lra) Ut) as SM. cbv zeta in SM. fold E2 in SM. rewrite ENm in SM.
  destruct (SM ltac:(lra) ltac:(lra) ltac:(lra) ltac:(lra) HV L) as (u & bb & qm & mj & qj & hh & g & B1 & B2 & B3 & B4 & B5 & B6 & B7 & FB1 & VB1 & VB2 & FB2 & TB & VB3 & VB4 & FB3 & FB4 & FB5 & FB6 & NF' & X3 & Y3).
  { rewrite (vdist_readings _ (fun i => m i / rnorm 3 m)); auto. intros i Hi. rewrite RM5 by auto. reflexivity. }
  { exact Q3. }
  clear SM. fold F in B1, B2, B3, B4, B5, B6, B7. rewrite B1, B2, B3, B4, B5, B6, B7 in RUN. 
  destruct RUN as (s' & ES & I' & Hg); try assumption; try (apply (fin4 lm); assumption).
  { intros i Hi. apply (valid_finite lm). apply FB1, Hi. }
  { exact (range01 lm _ tm Ftm Etm ltac:(lra)). }
  { exact (range01 lm _ kb Fbe Ebe Hkb). }
  destruct (v_duplicate_ok (A := F) _ 4 _ Hg) as (v' & Ev' & Hv').
  (* the new state *)
  pose proof (l_aq_lifecycle F _ s Live HH (args32 lm AM None) (Some (z 0%nat)) (Some (z 1%nat)) (Some (z 2%nat)) (z 3%nat) (z 4%nat) (z 5%nat) (z 6%nat) (z 7%nat) (z 8%nat) default_config) as LC.
  cbv beta iota in LC. rewrite ES in LC. destruct LC as (_ & _ & _ & (S1 & S2 & S3 & S4 & S5 & S6 & S7 & S8 & S9 & S10 & S11) & (C1 & C2 & C3) & AL & _).
  exists s', (qof g). split; [exact ES|].
  assert (HL : aq_hist s' Live).
  { pose proof (qh_call s Live (QUpdate (Some (z 0%nat)) (Some (z 1%nat)) (Some (z 2%nat)) (z 3%nat) (z 4%nat) (z 5%nat) (z 6%nat) (z 7%nat) (z 8%nat)) Live HH (qn_other Live (QUpdate (Some (z 0%nat)) (Some (z 1%nat)) (Some (z 2%nat)) (z 3%nat) (z 4%nat) (z 5%nat) (z 6%nat) (z 7%nat) (z 8%nat)) ltac:(intros [? X]; discriminate X))) as HC. cbn [aq_do] in HC. fold F in HC. rewrite ES in HC. exact HC. }
  assert (UGf : unitq (qunit (qof g))) by (apply qunit_unit; apply Rabs_def2 in NF'; lra).
  change (qmul (qconj (qunit (qof g))) t) with (missing (qof g) t) in X3, Y3. set (E3 := missing (qof g) t) in *.
  assert (UE3 : unitq E3) by (apply miss_unit; auto).
  assert (MID : 84 / 100 * kb * ((204 / 100 * tx E2 + mu + 7 / 100000) / h) <= 84 / 100 * kb * ((204 / 100 * ((1 - 4 / 5 * ka) * x + (51 / 50 * e + 13 / 20 * ka * eta + 4 / 100000)) + mu + 7 / 100000) / h)).
  { apply Rmult_le_compat_l; [lra|]. apply Rmult_le_compat_r; [left; apply Rinv_0_lt_compat; lra|]. lra. }
  assert (K2 : (1 - 4 / 5 * kb) * hz E2 + 12 / 1000000 <= (1 - 4 / 5 * kb) * y + (107 / 100 * e + 1 / 10 * ka * eta + 3 / 100000)).
  { apply Rle_trans with ((1 - 4 / 5 * kb) * (y + (107 / 100 * e + 1 / 10 * ka * eta + 3 / 100000) - 12 / 1000000) + 12 / 1000000); [apply Rplus_le_compat_r, Rmult_le_compat_l; lra|].
    set (D := 107 / 100 * e + 1 / 10 * ka * eta + 3 / 100000). assert (0 <= kb * (D - 12 / 1000000)) by (apply Rmult_le_pos; [lra|unfold D; lra]). lra. }
  assert (MB : 84 / 100 * kb * ((204 / 100 * ((1 - 4 / 5 * ka) * x + (51 / 50 * e + 13 / 20 * ka * eta + 4 / 100000)) + mu + 7 / 100000) / h) <= 18 / 100 * kb).
  { apply Rle_trans with (84 / 100 * kb * (2136 / 10000)); [|lra]. apply Rmult_le_compat_l; [lra|]. apply (Rmult_le_reg_r h); [lra|].
    match goal with |- ?a / h * h <= _ => replace (a / h * h) with a by (field; lra) end. lra. }
  assert (XF : tx E3 <= (1 - 4 / 5 * ka) * x + (51 / 50 * e + 13 / 20 * ka * eta + 4 / 100000)) by lra.
  assert (HF : heading_error (qof g) t = hz E3) by (apply heading_hz; [exact UE3|rewrite tilt_tx; fold E3; lra]). unfold near_truth. rewrite HF, tilt_tx. fold E3.
  split.
  { subst F. constructor; try assumption; try congruence; rewrite ?S1, ?S2, ?S3, ?S4, ?S5, ?S6, ?S7, ?S8, ?C1, ?C2, ?C3, ?(AL (or_introl AD)); auto.
    exists v'. split; [unfold aq_get_attitude; rewrite I', Ev'; reflexivity|exact (quat_f_of lm v' g Hv')]. }
  split; [split; [lra|]|split; [lra|lra]].
  assert (0 <= (1 - 4 / 5 * kb) * (1 / 4 - y)) by (apply Rmult_le_pos; lra). lra.
Qed.

Lemma step_any lm (s : Aqua (A := F32 lm)) cg ca cm q ts ka ta kb tm t h e eta mu z :
  marg32 s cg ca cm q ts ka ta kb tm -> unitq t -> resting cg ca cm t h ts e eta mu z -> quiet ka kb h e eta mu -> near_truth q t h ->
  step_ok lm s cg ca cm q ts ka ta kb tm t h e eta mu z.
Proof.
  intros M U R Q N. destruct (Rtotal_order 0 (Qw (missing q t))) as [P|[Z|P]]; [apply step_pos; auto| |].
  - exfalso. destruct N as [N1 N2]. destruct Q as [Hh _].
    assert (UP : unitq (qunit q)) by (apply qunit_unit; pose proof (m32_norm _ _ _ _ _ _ _ _ _ _ M) as NQ; apply Rabs_def2 in NQ; lra).
    assert (UE : unitq (missing q t)) by (apply miss_unit; auto). unfold heading_error, tilt_error in *. cbv zeta in *. set (E := missing q t) in *.
    pose proof (parts E UE) as PE. rewrite flat_norm in PE. change (sqrt (Qx E * Qx E + Qy E * Qy E)) with (tx E) in N1. rewrite <- Z in *.
    replace (0 * 0 + Qz E * Qz E) with (Qz E * Qz E) in * by ring. pose proof (sqrt_Rsqr_abs (Qz E)) as SA. unfold Rsqr in SA. rewrite SA in *. pose proof (Rabs_pos (Qz E)) as A0. pose proof (tx_pos E) as T0.
    assert (0 < Rabs (Qz E)) by nra. replace (Rabs (Qz E) / Rabs (Qz E)) with 1 in N2 by (field; lra). lra.
  - assert (U' : unitq (qneg t)) by (unfold unitq, qnorm2, qneg, qscale in *; cbn [Qw Qx Qy Qz]; lra).
    assert (R' : resting cg ca cm (qneg t) h ts e eta mu z).
    { destruct R as (w & a & m & R1 & R2 & R3 & R4). exists w, a, m. repeat (split; [assumption|]). apply rest_neg, R4. }
    assert (N' : near_truth q (qneg t) h) by (unfold near_truth; rewrite tilt_neg, heading_neg; exact N).
    assert (P' : 0 < Qw (missing q (qneg t))) by (rewrite missing_neg; unfold qneg, qscale; cbn [Qw]; lra).
    pose proof (step_pos lm s cg ca cm q ts ka ta kb tm (qneg t) h e eta mu z M U' R' Q N' P') as (s' & q' & S1 & S2 & S3 & S4 & S5).
    exists s', q'. unfold near_truth in S3. rewrite !tilt_neg, !heading_neg in *. auto.
Qed.

(*@ C66_update *)
(** C66: at rest, one update of the Aqua filter in mode MARG (f32, fixed gains, any calibration, any libm) succeeds and
    takes four fifths of its gain off the tilt error and off the heading error, up to explicit terms for the rates, the
    sensor errors, the rounding and the tilt still left; the new attitude is near the true one again *)
Lemma l_rest_update :
  forall (lm : Libm) (s : Aqua (A := F32 lm)) (cg ca cm : Config (A := F32 lm)) (q t : quat) (ts ka ta kb tm h e eta mu : R) (z : nat -> T (Arith := F32 lm)),
  marg32 s cg ca cm q ts ka ta kb tm -> unitq t -> resting cg ca cm t h ts e eta mu z -> quiet ka kb h e eta mu -> near_truth q t h ->
  exists s' q', update_with z s = (s', Ok tt) /\ marg32 s' cg ca cm q' ts ka ta kb tm /\ near_truth q' t h /\
    tilt_error q' t <= (1 - 4 / 5 * ka) * tilt_error q t + tilt_drift ka e eta /\
    heading_error q' t <= (1 - 4 / 5 * kb) * heading_error q t + heading_drift ka e eta +
      84 / 100 * kb * ((204 / 100 * ((1 - 4 / 5 * ka) * tilt_error q t + tilt_drift ka e eta) + mu + 7 / 100000) / h).
Proof. intros. apply step_any; auto. Qed.

Lemma quiet_pos ka kb h e eta mu : 0 <= ka -> 0 <= e -> 0 <= eta -> quiet ka kb h e eta mu -> 0 < ka /\ 0 < kb /\ 0 < h.
Proof.
  intros K E T (Hh & _ & _ & Q1 & Q2 & _). unfold tilt_drift, heading_drift in *. assert (0 <= ka * eta) by (apply Rmult_le_pos; lra).
  assert (0 < kb) by lra. split; [|lra]. destruct (Rle_lt_or_eq_dec 0 ka K) as [P|Z]; [exact P|]. exfalso. subst ka. lra.
Qed.
Lemma rest_pos {lm} (cg ca cm : Config (A := F32 lm)) t h ts e eta mu z : resting cg ca cm t h ts e eta mu z -> 0 <= e /\ 0 <= eta.
Proof.
  intros (w & a & m & _ & _ & _ & [[G _] (r & _ & A) _ _]). split.
  - eapply Rle_trans; [|exact G]. pose proof (rnorm_pos 3 w). pose proof (Rabs_pos ts). assert (0 <= rnorm 3 w * Rabs ts) by (apply Rmult_le_pos; auto). lra.
  - eapply Rle_trans; [apply vdist_pos|exact A].
Qed.
Lemma pow_mono a b n : 0 <= a -> a <= b -> 0 <= a ^ n <= b ^ n.
Proof. intros A B. split; [apply pow_le, A|apply pow_incr; lra]. Qed.

(*@ C66_rest *)
(** C66: as long as the measurements are taken at rest, every update succeeds, and after n updates the tilt error is at
    most (1 - 4/5 ka)^n times the first one plus a remainder; the heading error likewise, with a term n r^n for the
    tilt that disturbs it on the way.  No libm is assumed and no update is allowed to fail *)
Lemma l_rest_run :
  forall (lm : Libm) (s : Aqua (A := F32 lm)) (cg ca cm : Config (A := F32 lm)) (q t : quat) (ts ka ta kb tm h e eta mu : R) (z : nat -> nat -> T (Arith := F32 lm)),
  marg32 s cg ca cm q ts ka ta kb tm -> unitq t -> (forall n, resting cg ca cm t h ts e eta mu (z n)) -> quiet ka kb h e eta mu -> near_truth q t h ->
  let r := Rmax (1 - 4 / 5 * ka) (1 - 4 / 5 * kb) in
  forall n, exists s' q', run_with z n s = Some s' /\ marg32 s' cg ca cm q' ts ka ta kb tm /\ near_truth q' t h /\
    tilt_error q' t <= (1 - 4 / 5 * ka) ^ n * tilt_error q t + tilt_rest ka e eta /\
    heading_error q' t <= (1 - 4 / 5 * kb) ^ n * heading_error q t + 172 / 100 * kb / h * tilt_error q t * (INR n * r ^ n) + heading_rest ka kb h e eta mu.
Proof.
  intros lm s cg ca cm q t ts ka ta kb tm h e eta mu z M U R Q N r. pose proof (m32_ka _ _ _ _ _ _ _ _ _ _ M) as KA. pose proof (m32_kb _ _ _ _ _ _ _ _ _ _ M) as KB.
  destruct (rest_pos _ _ _ _ _ _ _ _ _ _ (R O)) as [e0 eta0]. destruct (quiet_pos ka kb h e eta mu ltac:(lra) e0 eta0 Q) as (PA & PB & PH).
  set (ra := 1 - 4 / 5 * ka) in *. set (rb := 1 - 4 / 5 * kb) in *. set (bx := tilt_drift ka e eta) in *. set (bh := heading_drift ka e eta) in *. set (xi := tilt_rest ka e eta). set (yi := heading_rest ka kb h e eta mu).
  assert (ra0 : 0 <= ra) by (unfold ra; lra). assert (rb0 : 0 <= rb) by (unfold rb; lra).
  assert (bx0 : 0 <= bx) by (unfold bx, tilt_drift; assert (0 <= ka * eta) by (apply Rmult_le_pos; lra); lra).
  assert (EX : ra * xi + bx = xi) by (unfold ra, xi, tilt_rest; fold bx; field; lra).
  assert (EY : rb * yi + (bh + 84 / 100 * kb * ((204 / 100 * xi + mu + 7 / 100000) / h)) = yi) by (unfold rb, yi, heading_rest; fold bh xi; field; lra).
  assert (xi0 : 0 <= xi) by (unfold xi, tilt_rest; fold bx; apply Rmult_le_pos; [exact bx0|left; apply Rinv_0_lt_compat; lra]).
  assert (Ra : ra <= r) by apply Rmax_l. assert (Rb : rb <= r) by apply Rmax_r.
  assert (x0 : 0 <= tilt_error q t) by (rewrite tilt_tx; apply tx_pos). set (x := tilt_error q t) in *. set (y := heading_error q t) in *. set (c := 172 / 100 * kb / h) in *.
  assert (c0 : 0 <= c) by (unfold c; apply Rmult_le_pos; [lra|left; apply Rinv_0_lt_compat; lra]).
  assert (y0 : 0 <= yi).
  { unfold yi, heading_rest. fold bh xi. destruct (R O) as (w & a & m & _ & _ & _ & [_ _ _ (v & _ & V2)]). assert (0 <= mu) by (eapply Rle_trans; [apply vdist_pos|exact V2]).
    assert (0 <= bh) by (unfold bh, heading_drift; assert (0 <= ka * eta) by (apply Rmult_le_pos; lra); lra).
    apply Rmult_le_pos; [|left; apply Rinv_0_lt_compat; lra]. assert (0 <= (204 / 100 * xi + mu + 7 / 100000) / h) by (apply Rmult_le_pos; [lra|left; apply Rinv_0_lt_compat; lra]).
    assert (0 <= kb * ((204 / 100 * xi + mu + 7 / 100000) / h)) by (apply Rmult_le_pos; lra). lra. }
  induction n as [|n IH].
  - exists s, q. cbn [run_with pow INR]. split; [reflexivity|]. split; [exact M|]. split; [exact N|]. fold x y. split; lra.
  - destruct IH as (s1 & q1 & R1 & M1 & N1 & X1 & Y1).
    destruct (step_any lm s1 cg ca cm q1 ts ka ta kb tm t h e eta mu (z n) M1 U (R n) Q N1) as (s2 & q2 & S1 & S2 & S3 & S4 & S5).
    exists s2, q2. split; [cbn [run_with]; rewrite R1, S1; reflexivity|]. split; [exact S2|]. split; [exact S3|]. fold ra rb bx bh in S4, S5.
    set (x1 := tilt_error q1 t) in *. set (y1 := heading_error q1 t) in *.
    assert (XX : ra * x1 + bx <= ra ^ S n * x + xi).
    { apply Rle_trans with (ra * (ra ^ n * x + xi) + bx); [apply Rplus_le_compat_r, Rmult_le_compat_l; auto|]. cbn [pow]. lra. }
    split; [lra|]. destruct (pow_mono ra r (S n) ra0 Ra) as [_ PM]. pose proof (pow_le r n ltac:(lra)) as rn.
    eapply Rle_trans; [exact S5|].
    apply Rle_trans with (rb * (rb ^ n * y + c * x * (INR n * r ^ n) + yi) + bh + 84 / 100 * kb * ((204 / 100 * (r ^ S n * x + xi) + mu + 7 / 100000) / h)).
    + apply Rplus_le_compat; [apply Rplus_le_compat_r, Rmult_le_compat_l; auto|]. apply Rmult_le_compat_l; [lra|]. apply Rmult_le_compat_r; [left; apply Rinv_0_lt_compat; lra|].
      assert (ra ^ S n * x <= r ^ S n * x) by (apply Rmult_le_compat_r; auto). lra.
    + replace (84 / 100 * kb * ((204 / 100 * (r ^ S n * x + xi) + mu + 7 / 100000) / h))
        with (84 / 100 * kb * ((204 / 100 * xi + mu + 7 / 100000) / h) + 17136 / 10000 * kb / h * (x * r ^ S n)) by (field; lra).
      assert (rb * (c * x * (INR n * r ^ n)) <= c * x * (INR n * r ^ S n)).
      { cbn [pow]. replace (c * x * (INR n * (r * r ^ n))) with (r * (c * x * (INR n * r ^ n))) by ring. apply Rmult_le_compat_r; [|exact Rb].
        apply Rmult_le_pos; [apply Rmult_le_pos; auto|apply Rmult_le_pos; [apply pos_INR|exact rn]]. }
      assert (17136 / 10000 * kb / h * (x * r ^ S n) <= c * (x * r ^ S n)).
      { apply Rmult_le_compat_r; [apply Rmult_le_pos; [auto|apply pow_le; lra]|]. unfold c. apply Rmult_le_compat_r; [left; apply Rinv_0_lt_compat; lra|lra]. }
      rewrite S_INR. cbn [pow] in *. lra.
Qed.

Lemma npow_small r d : 0 <= r < 1 -> 0 < d -> exists N, forall n, (N <= n)%nat -> r ^ n <= d /\ INR n * r ^ n <= d.
Proof.
  intros [r0 r1] Hd. destruct (Req_dec r 0) as [->|Z].
  { exists 1%nat. intros n Hn. destruct n as [|n]; [lia|]. rewrite pow_i by lia. lra. }
  set (p := sqrt r). assert (p0 : 0 < p) by (apply sqrt_lt_R0; lra). assert (pp : p * p = r) by (apply sqrt_sqrt; lra). assert (p1 : p < 1) by nra.
  set (a := / p - 1). assert (a0 : 0 < a). { unfold a. assert (1 < / p) by (rewrite <- Rinv_1; apply Rinv_lt_contravar; lra). lra. }
  assert (NP : forall n, INR n * p ^ n <= / a).
  { intros n. assert (B : 1 + INR n * a <= / p ^ n).
    { rewrite <- pow_inv by lra. replace (/ p) with (1 + a) by (unfold a; ring). clear - a0. induction n as [|n IH]; [cbn; lra|]. rewrite S_INR. cbn [pow]. pose proof (pos_INR n). assert (0 <= INR n * a) by (apply Rmult_le_pos; lra). nra. }
    assert (q0 : 0 < p ^ n) by (apply pow_lt; auto). apply (Rmult_le_reg_r (a * / p ^ n)); [apply Rmult_lt_0_compat; [auto|apply Rinv_0_lt_compat; auto]|].
    replace (INR n * p ^ n * (a * / p ^ n)) with (INR n * a) by (field; lra). replace (/ a * (a * / p ^ n)) with (/ p ^ n) by (field; lra). lra. }
  destruct (pow_lt_1_zero p ltac:(rewrite Rabs_pos_eq; lra) (Rmin d (d * a))) as (N & HN); [apply Rmin_glb_lt; [auto|apply Rmult_lt_0_compat; auto]|].
  exists N. intros n Hn. specialize (HN n ltac:(lia)). assert (q0 : 0 < p ^ n) by (apply pow_lt; auto). rewrite Rabs_pos_eq in HN by lra.
  assert (L1 : p ^ n < d) by (eapply Rlt_le_trans; [exact HN|apply Rmin_l]). assert (L2 : p ^ n < d * a) by (eapply Rlt_le_trans; [exact HN|apply Rmin_r]).
  assert (E : r ^ n = p ^ n * p ^ n) by (rewrite <- pp, Rpow_mult_distr; reflexivity). rewrite E. split.
  - assert (p ^ n <= 1) by (rewrite <- (pow1 n); apply pow_incr; lra). nra.
  - rewrite <- Rmult_assoc. apply Rle_trans with (/ a * p ^ n); [apply Rmult_le_compat_r; [lra|apply NP]|]. apply Rle_trans with (/ a * (d * a)); [apply Rmult_le_compat_l; [left; apply Rinv_0_lt_compat; auto|lra]|].
    right. field. lra.
Qed.

(*@ C66_settles *)
(** C66: so the filter settles: after a number of updates that depends only on the gains, the horizontal field and the
    margin d, the tilt and heading errors are within d of the remainders, whatever the measurements at rest were *)
Lemma l_rest_settles :
  forall (ka kb h d : R), 0 < ka <= 1 -> 0 < kb <= 1 -> 0 < h -> 0 < d ->
  exists N, forall (lm : Libm) (s : Aqua (A := F32 lm)) (cg ca cm : Config (A := F32 lm)) (q t : quat) (ts ta tm e eta mu : R) (z : nat -> nat -> T (Arith := F32 lm)),
  marg32 s cg ca cm q ts ka ta kb tm -> unitq t -> (forall n, resting cg ca cm t h ts e eta mu (z n)) -> quiet ka kb h e eta mu -> near_truth q t h ->
  forall n, (N <= n)%nat -> exists s' v q', run_with z n s = Some s' /\ aq_get_attitude s' = Ok v /\ quat_f v q' /\ Rabs (qnorm q' - 1) < / 1000000 /\
    tilt_error q' t <= tilt_rest ka e eta + d /\ heading_error q' t <= heading_rest ka kb h e eta mu + d.
Proof.
  intros ka kb h d KA KB Hh Hd. set (r := Rmax (1 - 4 / 5 * ka) (1 - 4 / 5 * kb)). assert (Hr : 0 <= r < 1) by (unfold r; split; [eapply Rle_trans; [|apply Rmax_l]; lra|apply Rmax_lub_lt; lra]).
  destruct (npow_small r (d / 2) Hr ltac:(lra)) as (N & HN). exists N. intros lm s cg ca cm q t ts ta tm e eta mu z M U R Q NT n Hn.
  destruct (l_rest_run lm s cg ca cm q t ts ka ta kb tm h e eta mu z M U R Q NT n) as (s' & q' & R1 & M1 & _ & X & Y). fold r in Y. destruct (HN n Hn) as [P1 P2].
  destruct (m32_att _ _ _ _ _ _ _ _ _ _ M1) as (v & Ev & Qv). exists s', v, q'. split; [exact R1|]. split; [exact Ev|]. split; [exact Qv|]. split; [exact (m32_norm _ _ _ _ _ _ _ _ _ _ M1)|].
  destruct NT as [N1 N2]. destruct Q as [Hh1 _]. assert (x0 : 0 <= tilt_error q t) by (rewrite tilt_tx; apply tx_pos). set (x := tilt_error q t) in *. set (y := heading_error q t) in *.
  assert (y1 : y <= 1) by lra.
  destruct (pow_mono (1 - 4 / 5 * ka) r n ltac:(lra) (Rmax_l _ _)) as [A0 A1]. destruct (pow_mono (1 - 4 / 5 * kb) r n ltac:(lra) (Rmax_r _ _)) as [B0 B1]. split.
  - assert ((1 - 4 / 5 * ka) ^ n * x <= d / 2 * 1) by (apply Rmult_le_compat; lra). lra.
  - assert ((1 - 4 / 5 * kb) ^ n * y <= d / 2 * 1).
    { destruct (Rle_lt_dec 0 y) as [P|P]; [apply Rmult_le_compat; lra|]. assert ((1 - 4 / 5 * kb) ^ n * y <= 0) by nra. lra. }
    assert (CX : 172 / 100 * kb / h * x <= 1).
    { apply Rle_trans with (172 / 100 * kb / h * (9 / 100 * h)); [apply Rmult_le_compat_l; [apply Rmult_le_pos; [lra|left; apply Rinv_0_lt_compat; lra]|lra]|].
      replace (172 / 100 * kb / h * (9 / 100 * h)) with (1548 / 10000 * kb) by (field; lra). lra. }
    assert (I0 : 0 <= INR n * r ^ n) by (apply Rmult_le_pos; [apply pos_INR|apply pow_le; lra]).
    assert (172 / 100 * kb / h * x * (INR n * r ^ n) <= 1 * (d / 2)). { apply Rmult_le_compat; auto. apply Rmult_le_pos; [apply Rmult_le_pos; [lra|left; apply Rinv_0_lt_compat; lra]|auto]. }
    lra.
Qed.

(** ** an example *)
Lemma sf_val (x : f32) m e : B2SF x = S754_finite false m e -> is_finite x = true /\ B2R x = IZR (Zpos m) * bpow radix2 e.
Proof. intros H. destruct x as [s|s| |s m' e' B]; cbn in H; try discriminate. injection H as -> -> ->. split; [reflexivity|]. cbn. unfold F2R. cbn. reflexivity. Qed.
Definition ex_t : quat := Quat (40 / 41) 0 0 (9 / 41).
Definition ex_z (lm : Libm) (i : nat) : T (Arith := F32 lm) := nth i [z32 0; z32 0; z32 0; z32 0; z32 0; z32 (-1); z32 4557; z32 2160; z32 6724]%Z (z32 0).
Lemma r_gyr_ex lm : reading (lm := lm) Gyr default_config (z32 0) (z32 0) (z32 0) (triple 0 0 0). Proof. apply (reading_z lm Gyr 0 0 0); [lia|lia|lia|]. rz. Qed.
Lemma r_acc_ex lm : reading (lm := lm) Acc default_config (z32 0) (z32 0) (z32 (-1)) (triple 0 0 (-1)). Proof. apply (reading_z lm Acc 0 0 (-1)); [lia|lia|lia|]. rz. Qed.
Lemma r_mag_ex lm : reading (lm := lm) Mag default_config (z32 4557) (z32 2160) (z32 6724) (triple 4557 2160 6724). Proof. apply (reading_z lm Mag 4557 2160 6724); [lia|lia|lia|]. rz. Qed.
Lemma vdist_0 x y : (forall i, (i < 3)%nat -> x i = y i) -> vdist 3 x y <= 0.
Proof.
  intros H. apply le_sqrt_of; [lra|]. unfold vdist. rewrite rnorm_sqr. unfold rdot. cbn [Rsum]. rewrite !H by lia. lra.
Qed.
Lemma rest_ex_h : forall lm, exists (s : Aqua (A := F32 lm)) ts ka ta kb tm,
  marg32 s default_config default_config default_config qone ts ka ta kb tm /\ unitq ex_t /\
  resting (lm := lm) default_config default_config default_config ex_t (3 / 5) ts 0 0 0 (ex_z lm) /\
  quiet ka kb (3 / 5) 0 0 0 /\ near_truth qone ex_t (3 / 5) /\ heading_error qone ex_t = 9 / 41 /\ 99 / 10000 <= ka < 2 / 100 /\ 99 / 10000 <= kb.
Proof.
  intros lm. destruct (new_ok (A := F32 lm) Gyr) as (g & Eg & _ & Ig).
  assert (N : exists s0, aq_new (A := F32 lm) = Ok s0) by (unfold aq_new; rewrite Eg; cbn [rbind]; eauto). destruct N as (s0 & N).
  pose proof (qh_new (A := F32 lm) s0 N) as H0. set (ar := args32 lm MARG (Some default_config)).
  assert (OKa : args_ok ar).
  { split; [intros _; exists default_config; split; [reflexivity|apply default_finite]|]. split; [apply default_finite|]. split; [apply default_finite|]. left. split; [reflexivity|]. split; [reflexivity|]. split; reflexivity. }
  pose proof (qh_call s0 Fresh (QInit ar) Live H0 (qn_init _ OKa)) as HL. cbn [aq_do] in HL.
  pose proof (l_aq_lifecycle (F32 lm) _ s0 Fresh H0 ar None None None f0 f0 f0 f0 f0 f0 default_config) as LC. cbv beta iota in LC.
  destruct LC as (_ & _ & _ & _ & _ & _ & _ & _ & LC). destruct (aq_init_with ar s0) as [s' o]. cbn [fst] in HL.
  destruct (proj1 LC OKa) as (_ & (v & Ev & Hv) & L1 & L2 & L3 & L4 & L5 & _ & _ & L6 & L7 & _ & _ & L8 & L9 & L10). clear LC.
  destruct (L8 eq_refl) as (c & Ec & Gc). injection Ec as <-.
  set (k1 := lit (Arith := F32 lm) 1 100 : f32) in *. set (k9 := lit (Arith := F32 lm) 9 10 : f32).
  assert (V1 : is_finite k1 = true /\ B2R k1 = IZR 10737418 * bpow radix2 (-30)) by (apply sf_val; vm_compute; reflexivity).
  assert (V9 : is_finite k9 = true /\ B2R k9 = IZR 15099494 * bpow radix2 (-24)) by (apply sf_val; vm_compute; reflexivity).
  destruct V1 as [F1 E1]. destruct V9 as [F9 E9]. 
  assert (P30 : bpow radix2 (-30) = / 1073741824) by (cbn; lra). assert (P24 : bpow radix2 (-24) = / 16777216) by (cbn; lra). rewrite P30 in E1. rewrite P24 in E9.
  exists s', (B2R k1), (B2R k1), (B2R k9), (B2R k1), (B2R k9).
  assert (B1 : 99 / 10000 <= B2R k1 <= 101 / 10000) by (rewrite E1; lra). assert (B9 : 8 / 10 <= B2R k9 <= 9 / 10) by (rewrite E9; lra).
  split; [|split; [|split; [|split; [|split; [|split]]]]].
  - constructor; try assumption; try lra; try (rewrite ?L2, ?L4, ?L5, ?L6, ?L7; first [exact (conj F1 eq_refl)|exact (conj F9 eq_refl)]).
    + exists v. split; [exact Ev|]. pose proof (quat_f_of lm v _ Hv) as Q.
      pose proof (z32_R 1 ltac:(lia)) as [_ Z1]. match type of Q with quat_f _ ?X => replace qone with X; [exact Q|] end. apply quat_eta; [exact Z1|reflexivity|reflexivity|reflexivity].
    + replace (qnorm qone) with 1 by (symmetry; apply unit_norm; unfold unitq, qnorm2; cbn; ring). rewrite Rminus_diag_eq, Rabs_R0 by reflexivity. lra.
    + rewrite Rabs_pos_eq; lra.
  - unfold unitq, qnorm2, ex_t. cbn [Qw Qx Qy Qz]. lra.
  - exists (triple 0 0 0), (triple 0 0 (-1)), (triple 4557 2160 6724). split; [apply r_gyr_ex|]. split; [apply r_acc_ex|]. split; [apply r_mag_ex|].
    assert (B : 8405 <= bpow radix2 60) by (apply Rle_trans with (bpow radix2 14); [cbn; lra|apply bpow_le; lia]).
    assert (NM : rnorm 3 (triple 4557 2160 6724) = 8405) by (apply norm_tri; lra).
    assert (N0 : rnorm 3 (triple 0 0 0) = 0) by (apply norm_tri; lra). constructor.
    + rewrite N0. split; lra.
    + exists 1. split; [rewrite Rminus_diag_eq, Rabs_R0 by reflexivity; lra|]. apply vdist_0. intros i Hi. destruct i as [|[|[|i]]]; [| | |lia]; unfold ex_t; cbn; field.
    + rewrite NM. unfold eps. lra.
    + exists (4 / 5). split; [lra|]. rewrite NM. apply vdist_0. intros i Hi. destruct i as [|[|[|i]]]; [| | |lia]; unfold ex_t; cbn; field.
  - unfold quiet, tilt_drift, heading_drift. repeat split; lra.
  - assert (EM : missing qone ex_t = ex_t).
    { unfold missing. rewrite qunit_of_unit by (unfold unitq, qnorm2; cbn; ring). apply quat_eta; unfold ex_t; cbn; ring. }
    unfold near_truth, tilt_error, heading_error. rewrite EM. unfold ex_t. cbn [Qw Qx Qy Qz].
    replace (40 / 41 * (40 / 41) + 9 / 41 * (9 / 41)) with 1 by field. replace (0 * 0 + 0 * 0) with 0 by ring. rewrite sqrt_0, sqrt_1, Rabs_pos_eq; lra.
  - assert (EM : missing qone ex_t = ex_t).
    { unfold missing. rewrite qunit_of_unit by (unfold unitq, qnorm2; cbn; ring). apply quat_eta; unfold ex_t; cbn; ring. }
    unfold heading_error. rewrite EM. unfold ex_t. cbn [Qw Qx Qy Qz].
    replace (40 / 41 * (40 / 41) + 9 / 41 * (9 / 41)) with 1 by field. rewrite sqrt_1, Rabs_pos_eq; lra.
  - lra.
Qed.

(*@ example *)
(** a filter with gains 0.01 whose attitude is the identity while the true one is turned by 25 degrees about the vertical *)
Example C66_example : forall lm, exists (s : Aqua (A := F32 lm)) ts ka ta kb tm,
  marg32 s default_config default_config default_config qone ts ka ta kb tm /\ unitq ex_t /\
  resting (lm := lm) default_config default_config default_config ex_t (3 / 5) ts 0 0 0 (ex_z lm) /\
  quiet ka kb (3 / 5) 0 0 0 /\ near_truth qone ex_t (3 / 5) /\ heading_error qone ex_t = 9 / 41 /\ 99 / 10000 <= ka < 2 / 100 /\ 99 / 10000 <= kb.
Proof. exact rest_ex_h. Qed.
