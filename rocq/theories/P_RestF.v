(** The stages of an update of the Aqua filter in mode MARG, in f32. *)
From Coq Require Import List Arith ZArith NArith Reals Lia Bool Lra SpecFloat.
From Flocq Require Import Core BinarySingleNaN.
From Verif Require Import M_Base M_Arith M_Utils M_Vector M_Matrix M_Quaternion M_Sensors M_Ar M_Aqua M_F32
  S_Spec S_Linalg S_Norm S_Quat S_Sensors S_Ar S_Aqua S_F32 S_Reading S_Rest P_Inst P_InstF.
Import ListNotations.
Local Open Scope R_scope.
From Coq Require Import Psatz.
From Verif Require Import P_Hoare P_Cont P_Float P_Norm P_FErr P_Norm32 P_Quat P_Rot P_Sensors P_Ar P_Aqua P_ArR P_AquaR P_AquaM P_FAcc P_F32Mul P_F32Rot
  P_Product P_F32App P_F32Ar P_F32Am P_AmGeo P_Am32 P_RestGeo P_MargRun.

Section Stages.
  Variable lm : Libm.
  Notation F := (F32 lm).
  Implicit Types f g h c : nat -> f32.
  Notation idq := (quad (X := T (Arith := F)) f1 f0 f0 f0).
  Lemma fin4 f : (forall i, (i < 4)%nat -> valid (A := F) (f i)) <-> (forall i, (i < 4)%nat -> is_finite (f i) = true).
  Proof. split; intros H i Hi; specialize (H i Hi); apply (valid_finite lm); exact H. Qed.

  (** ** normalising *)
  Lemma renorm2 h : (forall i, (i < 4)%nat -> is_finite (h i) = true) -> 1 / 2 <= qnorm (qof h) <= 2 ->
    exists g, vunit (A := F) 4 h = g /\ (forall i, (i < 4)%nat -> is_finite (g i) = true) /\ Rabs (qnorm (qof g) - 1) < / 1000000 /\
      qdist (qunit (qof g)) (qunit (qof h)) <= 3 / 1000000.
  Proof.
    intros Fh NH. pose proof (qof_norm h) as EN.
    assert (B60 : 4 <= bpow radix2 60) by (apply Rle_trans with (bpow radix2 2); [cbn; lra|apply bpow_le; lia]).
    pose proof (unit32 lm 4 h ltac:(lia) Fh) as NE. cbv zeta in NE. rewrite EN in NE. destruct (NE ltac:(unfold eps; lra)) as (g & EG & _ & G1 & G2 & G3). clear NE.
    exists g. split; [exact EG|]. split; [exact G1|]. rewrite (qof_norm g) in G2. split; [exact G2|].
    assert (D1 : qdist (qof g) (qunit (qof h)) <= 2 * / 1000000).
    { assert (CC : forall i, (i < 4)%nat -> Rabs (B2R (g i) - qf (qunit (qof h)) i) <= / 1000000).
      { intros i Hi. replace (qf (qunit (qof h)) i) with (B2R (h i) / qnorm (qof h)); [apply G3; exact Hi|].
        destruct i as [|[|[|[|i]]]]; [| | | |lia]; unfold qunit, qscale; cbn; field; lra. }
      apply qdist_comp; [apply (CC 0%nat)|apply (CC 1%nat)|apply (CC 2%nat)|apply (CC 3%nat)]; lia. }
    apply Rabs_def2 in G2 as NG'.
    eapply Rle_trans; [apply (qdist_tri _ (qof g))|]. rewrite (qdist_sym (qunit (qof g)) (qof g)), qunit_dist by lra. lra.
  Qed.
  Lemma div_zero (x y : f32) : is_finite x = true -> B2R x = 0 -> B2R (Bdiv mode_NE x y) = 0.
  Proof. 
    intros Fx E. destruct x as [s|s| |s m e B]; try discriminate.
    - destruct y as [s'|s'| |s' m e B]; reflexivity.
    - exfalso. cbn [B2R] in E. apply eq_0_F2R in E. cbn in E. destruct s; discriminate.
  Qed.
  Lemma vunit_zero n h i : is_finite (h i) = true -> B2R (h i) = 0 -> B2R (vunit (A := F) n h i : f32) = 0.
  Proof. intros Fh E. unfold vunit. destruct (fltb _ _); [|reflexivity]. apply (div_zero (h i)); auto. Qed.

  (** ** mixing with the identity *)
  Lemma range01 (x : f32) k : is_finite x = true -> B2R x = k -> 0 <= k <= 1 -> in_range (A := F) x f0 f1 = true.
  Proof.
    intros Fx Ex Hk. unfold in_range. pose proof (z32_R 1 ltac:(lia)) as [F1 E1]. change (z32 1) with (f1 (A := F) : f32) in *.
    change (fleb (Arith := F) f0 x) with (Bleb (f0 (A := F) : f32) x). change (fleb (Arith := F) x f1) with (Bleb x (f1 (A := F) : f32)).
    rewrite !Bleb_ok by (auto; apply (z0 lm)). rewrite (proj2 (z0 lm)), E1, Ex, !Rle_bool_true by lra. reflexivity.
  Qed.
  Lemma id_app i : (i < 4)%nat -> app (idq i) (qf qone i) 1 0.
  Proof.
    intros Hi. destruct i as [|[|[|[|i]]]]; [apply (c1 lm)| | | |lia];
      (split; [apply (z0 lm)|]; split; [cbn; rewrite Rabs_R0; lra|change (Rabs (B2R (f0 (A := F) : f32) - 0) <= 0 * 1); rewrite (proj2 (z0 lm)), Rminus_0_r, Rabs_R0; lra]).
  Qed.
  Lemma mix32 (al : f32) k c : is_finite al = true -> B2R al = k -> 0 <= k <= 1 -> (forall i, (i < 4)%nat -> is_finite (c i) = true) -> qnorm (qof c) <= 2 ->
    exists h, mix (A := F) al c = h /\
    (forall i, (i < 4)%nat -> valid (A := F) (fmul (Arith := F) (quad f1 f0 f0 f0 i) (fsub (Arith := F) f1 al))) /\
    (forall i, (i < 4)%nat -> valid (A := F) (fmul (Arith := F) (c i) al)) /\
    (forall i, (i < 4)%nat -> is_finite (h i) = true) /\ qdist (qof h) (blend (1 - k) k (qof c)) <= / 1000000 /\
    (forall i, (0 < i < 4)%nat -> B2R (c i) = 0 -> B2R (h i) = 0).
  Proof.
    intros Fa Ea Hk Fc Nc. exists (mix (A := F) al c). split; [reflexivity|].
    pose proof (app_exact al 1 Fa ltac:(rewrite Ea, Rabs_pos_eq; lra)) as Aal. rewrite Ea in Aal.
    assert (A1 : app (Bminus mode_NE (f1 (A := F)) al) (1 - k) 1 (0 + ulp1)).
    { eapply app_sub; [apply (c1 lm)|exact Aal|unfold mid; lra|rewrite Rabs_pos_eq; lra|lra|lra]. }
    assert (A2 : forall i, (i < 4)%nat -> app (Bmult mode_NE (idq i) (Bminus mode_NE (f1 (A := F)) al)) (qf qone i * (1 - k)) (1 * 1) (ulp1 + ulp1)).
    { intros i Hi. eapply app_mul; [apply id_app; auto|exact A1|unfold mid; lra|lra|unfold ulp1; lra|lra|unfold ulp1; lra]. }
    assert (CB : forall i, (i < 4)%nat -> Rabs (B2R (c i)) <= 2).
    { intros i Hi. eapply Rle_trans; [|exact Nc]. rewrite <- qof_norm. apply (rnorm_bound 4 (fun i => B2R (c i)) i Hi). }
    assert (A3 : forall i, (i < 4)%nat -> app (Bmult mode_NE (c i) al) (B2R (c i) * k) (2 * 1) (0 + ulp1)).
    { intros i Hi. eapply app_mul; [apply (app_exact (c i) 2); auto|exact Aal|unfold mid; lra|lra|lra|lra|lra]. }
    assert (A4 : forall i, (i < 4)%nat -> app (mix (A := F) al c i) (qf qone i * (1 - k) + B2R (c i) * k) 3 (4 / 3 * ulp1 + ulp1)).
    { intros i Hi. eapply (app_add _ _ _ _ _ _ 3 _ _ (4 / 3 * ulp1) (A2 i Hi) (A3 i Hi)); [unfold mid; lra| |unfold ulp1; lra|unfold ulp1; lra].
      destruct (A2 i Hi) as (_ & B1 & _). destruct (A3 i Hi) as (_ & B2 & _). eapply Rle_trans; [apply Rabs_triang|]. lra. }
    split; [|split; [|split; [|split]]].
    - intros i Hi. apply (valid_finite lm). apply (A2 i Hi).
    - intros i Hi. apply (valid_finite lm). apply (A3 i Hi).
    - intros i Hi. apply (A4 i Hi).
    - assert (CC : forall i, (i < 4)%nat -> Rabs (B2R (mix (A := F) al c i : f32) - qf (blend (1 - k) k (qof c)) i) <= 5 / 10000000).
      { intros i Hi. destruct (A4 i Hi) as (_ & _ & B). replace (qf (blend (1 - k) k (qof c)) i) with (qf qone i * (1 - k) + B2R (c i) * k).
        - eapply Rle_trans; [exact B|]. unfold ulp1. lra.
        - destruct i as [|[|[|[|i]]]]; [| | | |lia]; cbn; ring. }
      eapply Rle_trans; [apply (qdist_comp _ _ (5 / 10000000)); [apply (CC 0%nat)|apply (CC 1%nat)|apply (CC 2%nat)|apply (CC 3%nat)]; lia|lra].
    - intros i Hi Ec. assert (Fi : is_finite (c i) = true) by (apply Fc; lia).
      destruct (mult_zero (c i) al Fi Fa (or_introl Ec)) as [P1 P2].
      assert (QZ : B2R (idq i) = 0 /\ is_finite (idq i) = true) by (destruct i as [|[|[|[|i]]]]; try lia; split; reflexivity).
      destruct (mult_zero (idq i) (Bminus mode_NE (f1 (A := F)) al) (proj2 QZ) ltac:(apply A1) (or_introl (proj1 QZ))) as [P3 P4].
      destruct (plus_zero _ _ P3 P1 (or_introl P4)) as [_ P5]. change (B2R (Bplus mode_NE (Bmult mode_NE (idq i) (Bminus mode_NE (f1 (A := F)) al)) (Bmult mode_NE (c i) al)) = 0).
      rewrite P5, P4, P2. ring.
  Qed.

  (** ** the quaternion of an acceleration close to straight down, of any length close to 1 *)
  Lemma acc32u (x y z : f32) : is_finite x = true -> is_finite y = true -> is_finite z = true ->
    - (108 / 100) <= B2R z <= - (85 / 100) -> Rabs (B2R x) <= 4 / 10 -> Rabs (B2R y) <= 4 / 10 ->
    exists g, quad_of (A := F) (acc_quat_of (A := F) x y z) = g /\ (forall i, (i < 4)%nat -> is_finite (g i) = true) /\
      qdist (qof g) (cacc (B2R x) (B2R y) (B2R z)) <= / 1000000 /\ B2R (g 3%nat) = 0.
  Proof.
    intros Fx Fy Fz Hz Hx Hy. unfold acc_quat_of. change (fltb (Arith := F) z f0) with (Bltb z (f0 (A := F) : f32)). rewrite Bltb_ok by (auto; apply (z0 lm)).
    rewrite (proj2 (z0 lm)), Rlt_bool_true by lra. cbv zeta. eexists. split; [reflexivity|].
    set (S := 1 - B2R z). assert (HS : 185 / 100 <= S <= 208 / 100) by (unfold S; lra). unfold cacc. fold S. set (L := sqrt (S / 2)).
    assert (HL : 96 / 100 <= L <= 102 / 100) by (apply (sqrt_range); lra).
    pose proof (app_exact z (108 / 100) Fz ltac:(apply Rabs_le; lra)) as Az.
    assert (Ac : app (Bminus mode_NE (f1 (A := F)) z) S S (0 + ulp1)).
    { eapply app_sub; [apply (c1 lm)|exact Az|unfold mid; lra|rewrite Rabs_pos_eq; fold S; lra|lra|lra]. }
    assert (A1 : app (Bdiv mode_NE (Bminus mode_NE (f1 (A := F)) z) (f2 (A := F))) (S / 2) (S / 2) (ulp1 + ulp1)).
    { apply (app_div _ (f2 (A := F)) S 2 S (0 + ulp1) 0 _ Ac); try (unfold ulp1; lra); auto using (c2 lm). unfold mid. lra. }
    set (l := Bsqrt mode_NE (Bdiv mode_NE (Bminus mode_NE (f1 (A := F)) z) (f2 (A := F)))).
    assert (A2 : app l L L (51 / 100 * (ulp1 + ulp1) + ulp1)).
    { apply app_sqrt; [exact A1|lra| |unfold ulp1; lra]. fold L. unfold mid. lra. }
    assert (A3 : app (Bmult mode_NE (f2 (A := F)) l) (2 * L) (2 * L) ((51 / 100 * (ulp1 + ulp1) + ulp1) + ulp1)).
    { eapply app_mul; [apply (c2 lm)|exact A2|unfold mid; lra|lra|unfold ulp1; lra|unfold ulp1; lra|unfold ulp1; lra]. }
    assert (ML : 4 / 10 <= 1 / (2 * L) <= 6 / 10).
    { split; apply (Rmult_le_reg_r (2 * L)); try lra; replace (1 / (2 * L) * (2 * L)) with 1 by (field; lra); lra. }
    assert (DV : forall t, is_finite t = true -> Rabs (B2R t) <= 4 / 10 -> is_finite (Bdiv mode_NE t (Bmult mode_NE (f2 (A := F)) l)) = true /\
      Rabs (B2R (Bdiv mode_NE t (Bmult mode_NE (f2 (A := F)) l)) - B2R t / (2 * L)) <= 4 / 10000000).
    { intros t Ft Ht. pose proof (app_exact t 1 Ft ltac:(lra)) as At.
      assert (A4 : app (Bdiv mode_NE t (Bmult mode_NE (f2 (A := F)) l)) (B2R t / (2 * L)) (1 / (2 * L)) (4 * ulp1 + ulp1)).
      { eapply app_div; [exact At|exact A3|lra|unfold mid; lra|lra|unfold ulp1; lra|unfold ulp1; lra|unfold ulp1; lra]. }
      split; [apply A4|]. eapply Rle_trans; [apply app_abs; exact A4|]. unfold ulp1. lra. }
    destruct (DV y Fy Hy) as [F1 E1]. destruct (DV (Bopp x)) as [F2 E2]; [rewrite is_finite_Bopp; auto|rewrite B2R_Bopp, Rabs_Ropp; auto|]. rewrite B2R_Bopp in E2.
    split; [|split].
    - intros i Hi. destruct i as [|[|[|[|i]]]]; [apply A2|exact F1|exact F2|apply (z0 lm)|lia].
    - eapply Rle_trans; [apply (qdist_comp _ _ (4 / 10000000)); cbn [Qw Qx Qy Qz]|lra].
      + eapply Rle_trans; [apply (app_abs _ _ _ _ A2)|]. unfold ulp1. lra.
      + exact E1.
      + exact E2.
      + exact (z0d lm (4 / 10000000) ltac:(lra)).
    - reflexivity.
  Qed.
  (** the quaternion of a field that points forward *)
  Lemma mag32u (lx ly : f32) : is_finite lx = true -> is_finite ly = true -> 0 < B2R lx ->
    1 / 10000000 <= B2R lx * B2R lx + B2R ly * B2R ly <= 4 ->
    exists g, quad_of (A := F) (mag_quat_pos (A := F) lx ly (fadd (Arith := F) (fmul (Arith := F) lx lx) (fmul (Arith := F) ly ly))) = g /\
      (forall i, (i < 4)%nat -> is_finite (g i) = true) /\ qdist (qof g) (qpos (B2R lx) (B2R ly)) <= / 1000000 /\ B2R (g 1%nat) = 0 /\ B2R (g 2%nat) = 0.
  Proof.
    intros Fx Fy Px Hg. pose proof (mag32 lm lx ly Fx Fy Hg) as M. cbv zeta in M. unfold mag_am in M.
    change (fleb (Arith := F) f0 lx) with (Bleb (f0 (A := F) : f32) lx) in M. rewrite Bleb_ok in M by (auto; apply (z0 lm)).
    rewrite (proj2 (z0 lm)), Rle_bool_true in M by lra. unfold qmag in M. rewrite Rle_bool_true in M by lra.
    eexists. split; [reflexivity|]. destruct M as [M1 M2]. split; [exact M1|]. split; [exact M2|]. split; reflexivity.
  Qed.

  (** ** products of quaternions of norm close to 1 *)
  Lemma prod32 f g d1 d2 : (forall i, (i < 4)%nat -> is_finite (f i) = true) -> (forall i, (i < 4)%nat -> is_finite (g i) = true) ->
    Rabs (qnorm (qof f) - 1) <= d1 -> Rabs (qnorm (qof g) - 1) <= d2 -> d1 <= / 100000 -> d2 <= / 100000 ->
    exists h, prodf (A := F) f g = h /\ (forall i, (i < 4)%nat -> is_finite (h i) = true) /\ Rabs (qnorm (qof h) - 1) <= d1 + d2 + 12 / 10000000 /\
      qdist (qunit (qof h)) (qmul (qunit (qof f)) (qunit (qof g))) <= 12 / 10000000.
  Proof.
    intros Ff Fg H1 H2 B1 B2. exists (prodf (A := F) f g). split; [reflexivity|].
    apply Rabs_le_inv in H1 as N1. apply Rabs_le_inv in H2 as N2.
    assert (MB : 99997 / 100000 <= qnorm (qof f) * qnorm (qof g) <= 100003 / 100000) by nra.
    destruct (prod_dist lm f g (qof f) (qof g) (below4f f Ff) (below4f g Fg)) as [V D]; [pose proof huge_1; lra|].
    cbv zeta in D. change (Quat _ _ _ _) with (qof (prodf (A := F) f g)) in D. set (h := prodf (A := F) f g) in *.
    pose proof tiny_small as TS. split; [apply (fin4 h); exact V|].
    assert (D' : qdist (qof h) (qmul (qof f) (qof g)) <= 11 / 10000000) by lra.
    pose proof (qdist_norm_abs (qof h) (qmul (qof f) (qof g))) as NA. rewrite qnorm_mul in NA. split.
    - apply Rabs_le_inv in NA. apply Rabs_le. nra.
    - rewrite <- qunit_mul by lra. eapply Rle_trans; [apply (proj_lip _ _ (99 / 100)); [lra| |rewrite qnorm_mul; lra]|].
      + apply Rabs_le_inv in NA. lra.
      + pose proof (qdist_pos (qof h) (qmul (qof f) (qof g))). lra.
  Qed.

  (** ** the prediction from the rates *)
  Lemma half_R : is_finite (fhalf (A := F) : f32) = true /\ B2R (fhalf (A := F) : f32) = / 2.
  Proof. split; [reflexivity|]. cbn. unfold F2R. cbn. lra. Qed.
  Definition vh (w : nat -> f32) : quat := Quat 0 (B2R (Bmult mode_NE (w 0%nat) (fhalf (A := F)))) (B2R (Bmult mode_NE (w 1%nat) (fhalf (A := F)))) (B2R (Bmult mode_NE (w 2%nat) (fhalf (A := F)))).
  Lemma omega_half (w : nat -> f32) : (forall i, (i < 3)%nat -> is_finite (w i) = true) -> (forall i, (i < 3)%nat -> Rabs (B2R (w i)) <= bpow radix2 60) ->
    forall i j, (i < 4)%nat -> (j < 4)%nat ->
      is_finite (omega_t (A := F) w i j : f32) = true /\
      is_finite (Bmult mode_NE (omega_t (A := F) w i j) (fhalf (A := F))) = true /\ B2R (Bmult mode_NE (omega_t (A := F) w i j) (fhalf (A := F))) = rmat (vh w) i j.
  Proof.
    intros Fw Bw. destruct half_R as [FH EH].
    assert (B127 : forall x, Rabs x <= bpow radix2 60 -> Rabs (x * / 2) <= bpow radix2 127).
    { intros x Hx. rewrite Rabs_mult, (Rabs_pos_eq (/ 2)) by lra. pose proof (bpow_le radix2 60 127 ltac:(lia)). pose proof (Rabs_pos x). lra. }
    assert (P : forall k, (k < 3)%nat -> is_finite (Bmult mode_NE (w k) (fhalf (A := F))) = true).
    { intros k Hk. apply mult_ok; auto. rewrite EH. apply B127; auto. }
    assert (N : forall k, (k < 3)%nat -> is_finite (Bopp (w k)) = true /\ is_finite (Bmult mode_NE (Bopp (w k)) (fhalf (A := F))) = true /\ B2R (Bmult mode_NE (Bopp (w k)) (fhalf (A := F))) = - B2R (Bmult mode_NE (w k) (fhalf (A := F)))).
    { intros k Hk. split; [rewrite is_finite_Bopp; auto|]. apply Bmult_opp_l; auto. rewrite EH. apply B127; auto. }
    assert (Z : is_finite (Bmult mode_NE (f0 (A := F)) (fhalf (A := F))) = true /\ B2R (Bmult mode_NE (f0 (A := F)) (fhalf (A := F))) = 0).
    { apply mult_zero; [reflexivity|exact FH|left; reflexivity]. }
    pose proof (P 0%nat ltac:(lia)) as P0. pose proof (P 1%nat ltac:(lia)) as P1. pose proof (P 2%nat ltac:(lia)) as P2.
    pose proof (N 0%nat ltac:(lia)) as N0. pose proof (N 1%nat ltac:(lia)) as N1. pose proof (N 2%nat ltac:(lia)) as N2.
    pose proof (Fw 0%nat ltac:(lia)) as F0. pose proof (Fw 1%nat ltac:(lia)) as F1. pose proof (Fw 2%nat ltac:(lia)) as F2.
    intros i j Hi Hj. assert (Z' : is_finite (f0 (A := F) : f32) = true /\ is_finite (Bmult mode_NE (f0 (A := F)) (fhalf (A := F))) = true /\ B2R (Bmult mode_NE (f0 (A := F)) (fhalf (A := F))) = 0) by (split; [reflexivity|exact Z]).
    destruct i as [|[|[|[|i]]]]; [| | | |lia]; (destruct j as [|[|[|[|j]]]]; [| | | |lia]); unfold omega_t, rmat; cbn [nth Nat.mul Nat.add]; unfold vh; cbn [Qw Qx Qy Qz];
      first [exact Z'|exact N0|exact N1|exact N2|exact (conj F0 (conj P0 eq_refl))|exact (conj F1 (conj P1 eq_refl))|exact (conj F2 (conj P2 eq_refl))].
  Qed.
  Lemma gyr32 (w f : nat -> f32) (dt : f32) e : (forall i, (i < 3)%nat -> is_finite (w i) = true) -> (forall i, (i < 4)%nat -> is_finite (f i) = true) -> is_finite dt = true ->
    Rabs (qnorm (qof f) - 1) < / 1000000 -> rnorm 3 (fun i => B2R (w i)) <= bpow radix2 60 -> rnorm 3 (fun i => B2R (w i)) * Rabs (B2R dt) / 2 <= e -> e <= 1 / 200 -> Rabs (B2R dt) <= 1000 ->
    (forall i j, (i < 4)%nat -> (j < 4)%nat -> valid (A := F) (omega_t (A := F) w i j)) /\
    (forall i j, (i < 4)%nat -> (j < 4)%nat -> valid (A := F) (fmul (Arith := F) (omega_t (A := F) w i j) fhalf)) /\
    (forall i n, (i < 4)%nat -> (1 <= n <= 4)%nat -> valid (A := F) (fsum (A := F) n (fun j => fmul (Arith := F) (fmul (Arith := F) (omega_t (A := F) w i j) fhalf) (f j)))) /\
    (forall i, (i < 4)%nat -> valid (A := F) (fmul (Arith := F) (fsum (A := F) 4 (fun j => fmul (Arith := F) (fmul (Arith := F) (omega_t (A := F) w i j) fhalf) (f j))) dt)) /\
    exists h, gyr_pred (A := F) w f dt = h /\ (forall i, (i < 4)%nat -> is_finite (h i) = true) /\ qdist (qof h) (qof f) <= e + / 1000000.
  Proof.
    intros Fw Ff Fd NF NW HE He HD.
    assert (Bw : forall i, (i < 3)%nat -> Rabs (B2R (w i)) <= bpow radix2 60) by (intros i Hi; eapply Rle_trans; [apply (rnorm_bound 3 (fun i => B2R (w i)) i Hi)|exact NW]).
    pose proof (omega_half w Fw Bw) as OH. set (V := vh w) in *. set (q := qof f) in *. apply Rabs_def2 in NF.
    set (W := rnorm 3 (fun i => B2R (w i))) in *. assert (W0 : 0 <= W) by apply rnorm_pos.
    pose proof eta_pos as E0. pose proof eta_small2 as E1. pose proof tiny_small as TS. pose proof tiny_pos as TP. pose proof huge_1 as HH.
    (* the halved rates *)
    assert (NV : qnorm V <= W / 2 * (1 + u) + 2 * eta).
    { set (V2 := Quat 0 (B2R (w 0%nat) / 2) (B2R (w 1%nat) / 2) (B2R (w 2%nat) / 2)).
      assert (N2 : qnorm V2 = W / 2).
      { unfold qnorm, qnorm2, V2, W, rnorm, rdot. cbn [Qw Qx Qy Qz Rsum]. set (s := B2R (w 0%nat) * B2R (w 0%nat) + B2R (w 1%nat) * B2R (w 1%nat) + B2R (w 2%nat) * B2R (w 2%nat)).
        transitivity (sqrt (s * (/ 2 * / 2))); [f_equal; unfold s; field|]. rewrite sqrt_mult, sqrt_square by (unfold s; nra).
        unfold s. replace (0 + B2R (w 0%nat) * B2R (w 0%nat)) with (B2R (w 0%nat) * B2R (w 0%nat)) by ring. reflexivity. }
      eapply Rle_trans; [apply (qdist_norm V V2)|]. rewrite N2.
      assert (HB : forall k, (k < 3)%nat -> Rabs (B2R (Bmult mode_NE (w k) (fhalf (A := F))) - B2R (w k) / 2) <= u * (Rabs (B2R (w k)) / 2) + eta).
      { intros k Hk. destruct half_R as [FH EH]. destruct (prod_err (w k) (fhalf (A := F)) (Fw k Hk) FH) as [_ P].
        - rewrite EH, Rabs_mult, (Rabs_pos_eq (/ 2)) by lra. pose proof (bpow_le radix2 60 120 ltac:(lia)). pose proof (Bw k Hk). pose proof (Rabs_pos (B2R (w k))). unfold huge in *. lra.
        - rewrite EH, Rabs_mult, (Rabs_pos_eq (/ 2)) in P by lra. exact P. }
      assert (Dv : qdist V V2 <= u * (W / 2) + 2 * eta).
      { eapply Rle_trans; [apply (qdist_tri _ (qadd V2 (Quat 0 0 0 0)))|]. 
        set (x0 := B2R (w 0%nat)). set (x1 := B2R (w 1%nat)). set (x2 := B2R (w 2%nat)).
        replace (qadd V2 (Quat 0 0 0 0)) with V2 by (apply quat_eta; cbn; ring). rewrite qdist_refl, Rplus_0_r.
        assert (T : qdist V V2 <= qnorm (Quat 0 (u * (Rabs x0 / 2)) (u * (Rabs x1 / 2)) (u * (Rabs x2 / 2))) + qnorm (Quat 0 eta eta eta)).
        { eapply Rle_trans; [|apply qnorm_add]. unfold qdist. unfold qnorm at 1 2. apply sqrt_le_1_alt. unfold qnorm2, qsub, qadd, qneg, qscale, V, vh, V2. cbn [Qw Qx Qy Qz].
          assert (SQ : forall a b, Rabs a <= b -> a * a <= b * b) by (intros a b Hab; pose proof (Rabs_pos a); rewrite <- (Rabs_pos_eq (a * a)) by apply sqr_pos; rewrite Rabs_mult; apply Rmult_le_compat; lra).
          pose proof (SQ _ _ (HB 0%nat ltac:(lia))) as S0. pose proof (SQ _ _ (HB 1%nat ltac:(lia))) as S1. pose proof (SQ _ _ (HB 2%nat ltac:(lia))) as S2. fold x0 in S0. fold x1 in S1. fold x2 in S2. fold x0 x1 x2. lra. }
        eapply Rle_trans; [exact T|]. apply Rplus_le_compat.
        - replace (Quat 0 (u * (Rabs x0 / 2)) (u * (Rabs x1 / 2)) (u * (Rabs x2 / 2))) with (qscale u (Quat 0 (Rabs x0 / 2) (Rabs x1 / 2) (Rabs x2 / 2))) by (apply quat_eta; cbn; ring).
          rewrite qnorm_scale, Rabs_pos_eq by (unfold u; lra). right. f_equal. rewrite <- N2. unfold qnorm, qnorm2, V2. cbn [Qw Qx Qy Qz]. fold x0 x1 x2. f_equal.
          assert (AB : forall a, Rabs a / 2 * (Rabs a / 2) = a / 2 * (a / 2)) by (intros; replace (Rabs a / 2 * (Rabs a / 2)) with (Rabs a * Rabs a / 4) by field; rewrite <- Rabs_mult, Rabs_pos_eq by apply sqr_pos; field).
          rewrite !AB. ring.
        - apply le_sqrt_of; [lra|]. rewrite qnorm_sqr. unfold qnorm2. cbn [Qw Qx Qy Qz]. nra. }
      lra. }
    assert (V0 : 0 <= qnorm V) by apply qnorm_pos.
    assert (NVb : qnorm V <= bpow radix2 61).
    { change 61%Z with (60 + 1)%Z. rewrite bpow_plus. change (bpow radix2 1) with 2. assert (W / 2 * (1 + u) <= W) by (unfold u; nra). assert (1 <= bpow radix2 60) by (change 1 with (bpow radix2 0); apply bpow_le; lia). lra. }
    assert (QV : qnorm q * qnorm V <= huge).
    { apply Rle_trans with (2 * bpow radix2 61); [apply Rmult_le_compat; try lra; apply qnorm_pos|]. change 2 with (bpow radix2 1). rewrite <- bpow_plus. apply bpow_le. lia. }
    (* the products and their sums *)
    assert (ACC : forall i n, (i < 4)%nat -> (n <= 4)%nat ->
      acc (INR n + 1) (fsum (A := F) n (fun j => fmul (Arith := F) (fmul (Arith := F) (omega_t (A := F) w i j) fhalf) (f j)))
        (Rsum n (fun j => rmat V i j * qf q j)) (Rsum n (fun j => Rabs (rmat V i j * qf q j)))).
    { intros i n Hi Hn. set (a := fun j => Bmult mode_NE (omega_t (A := F) w i j) (fhalf (A := F)) : f32).
      assert (E : forall j, (j < n)%nat -> is_finite (a j) = true /\ is_finite (f j) = true /\ rmat V i j = B2R (a j) /\ qf q j = B2R (f j)).
      { intros j Hj. destruct (OH i j Hi ltac:(lia)) as (_ & A1 & A2). split; [exact A1|]. split; [apply Ff; lia|]. split; [symmetry; exact A2|]. symmetry. apply (below4f f Ff). lia. }
      rewrite (Rsum_ext n (fun j => rmat V i j * qf q j) (fun j => B2R (a j) * B2R (f j))) by (intros j Hj; destruct (E j Hj) as (_ & _ & -> & ->); reflexivity).
      rewrite (Rsum_ext n (fun j => Rabs (rmat V i j * qf q j)) (fun j => Rabs (B2R (a j) * B2R (f j)))) by (intros j Hj; destruct (E j Hj) as (_ & _ & -> & ->); reflexivity).
      apply (fsum_acc lm n a f Hn).
      - intros j Hj. split; apply (E j Hj).
      - rewrite (Rsum_ext n _ (fun j => Rabs (rmat V i j * qf q j))) by (intros j Hj; destruct (E j Hj) as (_ & _ & -> & ->); reflexivity).
        eapply Rle_trans; [apply (rmat_abs V q i n Hi Hn)|exact QV]. }
    set (S := fun i => fsum (A := F) 4 (fun j => fmul (Arith := F) (fmul (Arith := F) (omega_t (A := F) w i j) fhalf) (f j)) : f32) in *.
    set (t := B2R dt) in *. set (Z := Rabs t * qnorm V). pose proof (Rabs_pos t) as T0.
    assert (HZ : Z <= e + 1 / 1000000000).
    { unfold Z. apply Rle_trans with (Rabs t * (W / 2 * (1 + u) + 2 * eta)); [apply Rmult_le_compat_l; auto|].
      assert (Rabs t * (2 * eta) <= 1000 * (2 * / 1000000000000 / 1000)). 2:{ assert (W * Rabs t / 2 * u <= 1 / 200 * u) by (apply Rmult_le_compat_r; [unfold u; lra|lra]). unfold u in *. lra. }
      apply Rmult_le_compat; try lra. assert (eta <= / 1000000000000 / 1000); [|lra]. pose proof eta_1. pose proof eta_small. unfold eta. apply Rle_trans with (bpow radix2 (-60)); [apply bpow_le; lia|]. cbn. lra. }
    assert (Z0 : 0 <= Z) by (unfold Z; apply Rmult_le_pos; auto).
    assert (SB : forall i, (i < 4)%nat -> is_finite (S i) = true /\ Rabs (B2R (S i) - qf (qmul q V) i) <= 5 / 16000000 * (qnorm q * qnorm V) + tiny /\ Rabs (qf (qmul q V) i) <= qnorm q * qnorm V).
    { intros i Hi. pose proof (ACC i 4%nat Hi ltac:(lia)) as A. pose proof A as (Fs & AM & _). rewrite rmat_mul in AM by auto.
      assert (M : Rsum 4 (fun j => Rabs (rmat V i j * qf q j)) <= qnorm q * qnorm V) by (apply rmat_abs; auto).
      split; [exact Fs|]. split; [|lra]. pose proof (acc_final (INR 4 + 1) _ _ _ ltac:(cbn; lra) A) as AF. rewrite rmat_mul in AF by auto.
      eapply Rle_trans; [exact AF|]. replace (INR 4 + 1) with 5 by (cbn; ring). lra. }
    assert (PT : forall i, (i < 4)%nat -> is_finite (Bmult mode_NE (S i) dt) = true /\ Rabs (B2R (Bmult mode_NE (S i) dt) - t * qf (qmul q V) i) <= / 100000000).
    { intros i Hi. destruct (SB i Hi) as (Fs & DS & MS). set (X := qf (qmul q V) i) in *. set (M := qnorm q * qnorm V) in *.
      assert (M0 : 0 <= M) by (unfold M; apply Rmult_le_pos; [apply qnorm_pos|auto]).
      assert (TM : Rabs t * M <= 51 / 10000). { unfold M. replace (Rabs t * (qnorm q * qnorm V)) with (qnorm q * Z) by (unfold Z; ring). apply Rle_trans with (1000001 / 1000000 * (1 / 200 + 1 / 1000000000)); [apply Rmult_le_compat; try lra; apply qnorm_pos|lra]. }
      assert (D1 : Rabs (B2R (S i) * t - t * X) <= 5 / 16000000 * (51 / 10000) + 1000 * tiny).
      { replace (B2R (S i) * t - t * X) with (t * (B2R (S i) - X)) by ring. rewrite Rabs_mult. eapply Rle_trans; [apply Rmult_le_compat_l; [auto|exact DS]|].
        assert (Rabs t * tiny <= 1000 * tiny) by (apply Rmult_le_compat_r; lra). lra. }
      assert (D2 : Rabs (t * X) <= 51 / 10000) by (rewrite Rabs_mult; eapply Rle_trans; [apply Rmult_le_compat_l; [auto|exact MS]|exact TM]).
      assert (D3 : Rabs (B2R (S i) * t) <= 52 / 10000). { replace (B2R (S i) * t) with ((B2R (S i) * t - t * X) + t * X) by ring. eapply Rle_trans; [apply Rabs_triang|]. lra. }
      destruct (prod_err (S i) dt Fs Fd) as [P1 P2]; [fold t; lra|]. fold t in P2. split; [exact P1|].
      replace (B2R (Bmult mode_NE (S i) dt) - t * X) with ((B2R (Bmult mode_NE (S i) dt) - B2R (S i) * t) + (B2R (S i) * t - t * X)) by ring.
      eapply Rle_trans; [apply Rabs_triang|]. assert (u * Rabs (B2R (S i) * t) <= u * (52 / 10000)) by (apply Rmult_le_compat_l; [unfold u; lra|auto]). unfold u in *. lra. }
    assert (FB : forall i, (i < 4)%nat -> Rabs (B2R (f i)) <= 2).
    { intros i Hi. eapply Rle_trans; [apply (rnorm_bound 4 (fun i => B2R (f i)) i Hi)|]. rewrite qof_norm. fold q. lra. }
    assert (GP : forall i, (i < 4)%nat -> is_finite (Bplus mode_NE (f i) (Bmult mode_NE (S i) dt)) = true /\
      Rabs (B2R (Bplus mode_NE (f i) (Bmult mode_NE (S i) dt)) - qf (qadd q (qscale t (qmul q V))) i) <= 2 / 10000000).
    { intros i Hi. destruct (PT i Hi) as [Fp Dp]. destruct (SB i Hi) as (_ & _ & MS). set (X := qf (qmul q V) i) in *.
      assert (D2 : Rabs (t * X) <= 1 / 100). { rewrite Rabs_mult. apply Rle_trans with (Rabs t * (qnorm q * qnorm V)); [apply Rmult_le_compat_l; auto|]. replace (Rabs t * (qnorm q * qnorm V)) with (qnorm q * Z) by (unfold Z; ring). apply Rle_trans with (1000001 / 1000000 * (1 / 200 + 1 / 1000000000)); [apply Rmult_le_compat; try lra; apply qnorm_pos|lra]. }
      assert (SUMB : Rabs (B2R (f i) + B2R (Bmult mode_NE (S i) dt)) <= 21 / 10).
      { eapply Rle_trans; [apply Rabs_triang|]. pose proof (FB i Hi). replace (B2R (Bmult mode_NE (S i) dt)) with ((B2R (Bmult mode_NE (S i) dt) - t * X) + t * X) by ring. pose proof (Rabs_triang (B2R (Bmult mode_NE (S i) dt) - t * X) (t * X)). lra. }
      destruct (plus_ok _ _ (Ff i Hi) Fp) as [F3 E3]; [rewrite huge_127; lra|]. split; [exact F3|]. rewrite E3.
      replace (qf (qadd q (qscale t (qmul q V))) i) with (B2R (f i) + t * X).
      2:{ unfold X, q. destruct i as [|[|[|[|i]]]]; [| | | |lia]; cbn; ring. }
      set (Y := B2R (f i) + B2R (Bmult mode_NE (S i) dt)) in *. replace (rnd32 Y - (B2R (f i) + t * X)) with ((rnd32 Y - Y) + (B2R (Bmult mode_NE (S i) dt) - t * X)) by (unfold Y; ring).
      eapply Rle_trans; [apply Rabs_triang|]. pose proof (rnd32_err Y) as RE. assert (u * Rabs Y <= u * (21 / 10)) by (apply Rmult_le_compat_l; [unfold u; lra|auto]). assert (RR : Rabs (rnd32 Y - Y) <= u * Rabs Y + eta).
      { destruct RE as (e1 & h1 & H1 & H2 & ->). replace (Y * (1 + e1) + h1 - Y) with (e1 * Y + h1) by ring. eapply Rle_trans; [apply Rabs_triang|]. rewrite Rabs_mult. apply Rplus_le_compat; [apply Rmult_le_compat_r; [apply Rabs_pos|exact H1]|exact H2]. }
      clear RE. unfold u in *. lra. }
    split; [intros i j Hi Hj; apply (valid_finite lm); apply (OH i j Hi Hj)|].
    split; [intros i j Hi Hj; apply (valid_finite lm); apply (OH i j Hi Hj)|].
    split; [intros i n Hi Hn; apply (valid_finite lm); apply (ACC i n Hi); lia|].
    split; [intros i Hi; apply (valid_finite lm); apply (PT i Hi)|].
    exists (gyr_pred (A := F) w f dt). split; [reflexivity|]. split; [intros i Hi; apply (GP i Hi)|].
    eapply Rle_trans; [apply (qdist_tri _ (qadd q (qscale t (qmul q V))))|].
    assert (D1 : qdist (qof (gyr_pred (A := F) w f dt)) (qadd q (qscale t (qmul q V))) <= 2 * (2 / 10000000)).
    { apply qdist_comp; [apply (GP 0%nat)|apply (GP 1%nat)|apply (GP 2%nat)|apply (GP 3%nat)]; lia. }
    assert (D2 : qdist (qadd q (qscale t (qmul q V))) q = qnorm q * Z).
    { unfold qdist. replace (qsub (qadd q (qscale t (qmul q V))) q) with (qscale t (qmul q V)) by (apply quat_eta; unfold qsub, qadd, qneg, qscale; cbn [Qw Qx Qy Qz]; ring).
      rewrite qnorm_scale, qnorm_mul. unfold Z. ring. }
    rewrite D2. assert (qnorm q * Z <= 1000001 / 1000000 * (e + 1 / 1000000000)) by (apply Rmult_le_compat; try lra; apply qnorm_pos). lra.
  Qed.
End Stages.
