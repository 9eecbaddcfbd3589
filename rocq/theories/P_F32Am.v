(** The stages of an update of the Aqua filter in mode AM, in f32. *)
From Coq Require Import List Arith ZArith NArith Reals Lia Bool Lra SpecFloat.
From Flocq Require Import Core BinarySingleNaN.
From Verif Require Import M_Base M_Arith M_Utils M_Vector M_Matrix M_Quaternion M_Sensors M_Ar M_Aqua M_F32
  S_Spec S_Linalg S_Norm S_Quat S_Sensors S_Ar S_Aqua S_F32 S_Reading P_Inst P_InstF.
Import ListNotations.
Local Open Scope R_scope.
From Coq Require Import Psatz.
From Verif Require Import P_Hoare P_Cont P_Loops P_Access P_Pointwise P_Trans P_Float P_Product P_Diag
  P_Compare P_Dot P_Norm P_FErr P_Norm32 P_Quat P_Rot P_Dcm P_Sensors P_Ar P_Aqua P_ArR P_AquaR P_FAcc P_F32Mul P_F32Rot P_F32App.

Section Stages.
  Variable lm : Libm.
  Notation F := (F32 lm).
  Lemma c1 : app (f1 (A := F)) 1 1 0.
  Proof. pose proof (z32_R 1 ltac:(lia)) as [F1 E1]. change (z32 1) with (f1 (A := F) : f32) in *. pose proof (app_exact _ 1 F1) as H. rewrite E1 in H. apply H. rewrite Rabs_pos_eq; lra. Qed.
  Lemma c2 : app (f2 (A := F)) 2 2 0.
  Proof. pose proof (z32_R 2 ltac:(lia)) as [F1 E1]. change (z32 2) with (f2 (A := F) : f32) in *. pose proof (app_exact _ 2 F1) as H. rewrite E1 in H. apply H. rewrite Rabs_pos_eq; lra. Qed.

  Lemma sqrt_range X a b : 0 <= a -> 0 <= b -> a * a <= X <= b * b -> a <= sqrt X <= b.
  Proof.
    intros Ha Hb H. split; [rewrite <- (sqrt_square a) by auto|rewrite <- (sqrt_square b) by auto]; apply sqrt_le_1_alt; lra.
  Qed.
  (** the halves of a unit vector *)
  Lemma half32 (c x y : f32) (S X Y : R) : app c S S (/ 1000000 + ulp1) -> 1 <= S <= 2 -> app x X 1 (/ 1000000) -> app y Y 1 (/ 1000000) ->
    let l := Bsqrt mode_NE (Bdiv mode_NE c (f2 (A := F))) in
    let L := sqrt (S / 2) in
    (is_finite l = true /\ Rabs (B2R l - L) <= 125 / 100000000) /\
    (is_finite (Bdiv mode_NE x (Bmult mode_NE (f2 (A := F)) l)) = true /\ Rabs (B2R (Bdiv mode_NE x (Bmult mode_NE (f2 (A := F)) l)) - X / (2 * L)) <= 125 / 100000000) /\
    (is_finite (Bdiv mode_NE y (Bmult mode_NE (f2 (A := F)) l)) = true /\ Rabs (B2R (Bdiv mode_NE y (Bmult mode_NE (f2 (A := F)) l)) - Y / (2 * L)) <= 125 / 100000000).
  Proof.
    intros Ac HS Ax Ay l L. assert (HL : 707 / 1000 <= L <= 1) by (apply sqrt_range; lra).
    assert (A1 : app (Bdiv mode_NE c (f2 (A := F))) (S / 2) (S / 2) (/ 1000000 + 2 * ulp1)).
    { replace (/ 1000000 + 2 * ulp1) with ((/ 1000000 + ulp1) + ulp1) by ring.
      apply (app_div c (f2 (A := F)) S 2 S (/ 1000000 + ulp1) 0); try (unfold ulp1; lra); auto using c2. unfold mid. lra. }
    assert (A2 : app l L L (51 / 100 * (/ 1000000 + 2 * ulp1) + ulp1)).
    { apply app_sqrt; [exact A1|lra| |unfold ulp1; lra]. fold L. unfold mid. lra. }
    assert (A3 : app (Bmult mode_NE (f2 (A := F)) l) (2 * L) (2 * L) ((51 / 100 * (/ 1000000 + 2 * ulp1) + ulp1) + ulp1)).
    { eapply app_mul; [apply c2|exact A2|unfold mid; lra|lra|unfold ulp1; lra|unfold ulp1; lra|unfold ulp1; lra]. }
    assert (ML : mid (1 / (2 * L))).
    { assert (/ 2 <= 1 / (2 * L) <= 1); [|unfold mid; lra]. unfold Rdiv. rewrite Rmult_1_l. split; [apply Rinv_le_contravar; lra|].
      rewrite <- Rinv_1. apply Rinv_le_contravar; lra. }
    assert (DV : forall z Z, app z Z 1 (/ 1000000) -> is_finite (Bdiv mode_NE z (Bmult mode_NE (f2 (A := F)) l)) = true /\
      Rabs (B2R (Bdiv mode_NE z (Bmult mode_NE (f2 (A := F)) l)) - Z / (2 * L)) <= 125 / 100000000).
    { intros z Z Az. assert (A4 : app (Bdiv mode_NE z (Bmult mode_NE (f2 (A := F)) l)) (Z / (2 * L)) (1 / (2 * L)) (17 / 10000000 + ulp1)).
      { eapply app_div; [exact Az|exact A3|lra|exact ML|lra|unfold ulp1; lra|unfold ulp1; lra|lra]. }
      split; [apply A4|]. eapply Rle_trans; [apply app_abs; exact A4|].
      assert (1 / (2 * L) <= 1000 / 1414) by (unfold Rdiv; rewrite Rmult_1_l; replace (1000 * / 1414) with (/ (1414 / 1000)) by lra; apply Rinv_le_contravar; lra).
      assert ((17 / 10000000 + ulp1) * (1 / (2 * L)) <= (17 / 10000000 + ulp1) * (1000 / 1414)) by (apply Rmult_le_compat_l; [unfold ulp1; lra|auto]).
      unfold ulp1 in *. lra. }
    split; [|split; [apply (DV x X Ax)|apply (DV y Y Ay)]].
    split; [apply A2|]. eapply Rle_trans; [apply app_abs; exact A2|]. unfold ulp1. lra.
  Qed.

  Definition qof (f : nat -> f32) : quat := Quat (B2R (f 0%nat)) (B2R (f 1%nat)) (B2R (f 2%nat)) (B2R (f 3%nat)).
  Lemma below4f (f : nat -> f32) : (forall i, (i < 4)%nat -> is_finite (f i) = true) -> forall i, (i < 4)%nat -> is_finite (f i) = true /\ B2R (f i) = qf (qof f) i.
  Proof. intros H i Hi. split; [auto|]. destruct i as [|[|[|[|i]]]]; [| | | |lia]; reflexivity. Qed.
  Lemma z0 : is_finite (f0 (A := F) : f32) = true /\ B2R (f0 (A := F) : f32) = 0. Proof. split; reflexivity. Qed.
  Lemma z0d d : 0 <= d -> Rabs (B2R (f0 (A := F) : f32) - 0) <= d. Proof. intros. rewrite (proj2 z0), Rminus_0_r, Rabs_R0. auto. Qed.
  Lemma Rlt_bool_scale z N : 0 < N -> Rlt_bool (z / N) 0 = Rlt_bool z 0.
  Proof.
    intros H. assert (0 < / N) by (apply Rinv_0_lt_compat; auto). destruct (Rlt_bool_spec z 0) as [L|L].
    - apply Rlt_bool_true. unfold Rdiv. nra.
    - apply Rlt_bool_false. unfold Rdiv. nra.
  Qed.
  Lemma unit_app (x y z : f32) N : N * N = B2R x * B2R x + B2R y * B2R y + B2R z * B2R z -> Rabs (N - 1) <= / 1000000 ->
    is_finite x = true -> app x (B2R x / N) 1 (/ 1000000).
  Proof.
    intros E H Fx. apply Rabs_le_inv in H. assert (0 < N) by lra. split; [exact Fx|].
    assert (B : Rabs (B2R x / N) <= 1).
    { unfold Rdiv. rewrite Rabs_mult, (Rabs_pos_eq (/ N)) by (left; apply Rinv_0_lt_compat; auto).
      apply Rmult_le_reg_r with N; auto. rewrite Rmult_assoc, Rinv_l, Rmult_1_l, Rmult_1_r by lra. apply Rabs_le. nra. }
    split; [exact B|]. replace (B2R x - B2R x / N) with (B2R x / N * (N - 1)) by (field; lra). rewrite Rabs_mult, Rmult_1_r.
    rewrite <- (Rmult_1_l (/ 1000000)). apply Rmult_le_compat; auto using Rabs_pos. apply Rabs_le. lra.
  Qed.
  (** the quaternion that brings the measured acceleration down, from an acceleration of length close to 1 *)
  Lemma acc32 (x y z : f32) N : is_finite x = true -> is_finite y = true -> is_finite z = true ->
    N * N = B2R x * B2R x + B2R y * B2R y + B2R z * B2R z -> Rabs (N - 1) <= / 1000000 ->
    let f : nat -> f32 := quad_of (A := F) (acc_quat_of (A := F) x y z) in
    (forall i, (i < 4)%nat -> is_finite (f i) = true) /\ qdist (qof f) (qacc (B2R x / N) (B2R y / N) (B2R z / N)) <= 25 / 10000000.
  Proof.
    intros Fx Fy Fz EN HN. pose proof (unit_app x y z N EN HN Fx) as Ax.
    pose proof (unit_app y x z N ltac:(lra) HN Fy) as Ay. pose proof (unit_app z x y N ltac:(lra) HN Fz) as Az.
    assert (N0 : 0 < N) by (apply Rabs_le_inv in HN; lra).
    unfold acc_quat_of. change (fltb (Arith := F) z f0) with (Bltb z (f0 (A := F) : f32)). rewrite Bltb_ok by (auto; apply z0).
    rewrite (proj2 z0), <- (Rlt_bool_scale _ N N0). unfold qacc. set (X := B2R x / N) in *. set (Y := B2R y / N) in *. set (Z := B2R z / N) in *.
    pose proof (app_neg _ _ _ _ Ax) as Anx. pose proof Az as (_ & BZ & _). apply Rabs_le_inv in BZ.
    destruct (Rlt_bool_spec Z 0) as [L|L].
    - assert (Ac : app (Bminus mode_NE (f1 (A := F)) z) (1 - Z) (1 - Z) (/ 1000000 + ulp1)).
      { eapply app_sub; [apply c1|exact Az|unfold mid; lra|rewrite Rabs_pos_eq; lra|lra|lra]. }
      destruct (half32 _ _ _ _ _ _ Ac ltac:(lra) Ay Anx) as ((F0 & E0) & (F1 & E1) & (F2 & E2)).
      cbv zeta. split.
      + intros i Hi. destruct i as [|[|[|[|i]]]]; [exact F0|exact F1|exact F2|apply z0|lia].
      + eapply Rle_trans; [apply (qdist_comp _ _ (125 / 100000000)); cbn [Qw Qx Qy Qz]|lra]; [exact E0|exact E1|exact E2|].
        exact (z0d (125 / 100000000) ltac:(lra)).
    - assert (Ac : app (Bplus mode_NE (f1 (A := F)) z) (1 + Z) (1 + Z) (/ 1000000 + ulp1)).
      { eapply app_add; [apply c1|exact Az|unfold mid; lra|rewrite Rabs_pos_eq; lra|lra|lra]. }
      destruct (half32 _ _ _ _ _ _ Ac ltac:(lra) Ay Anx) as ((F0 & E0) & (F1 & E1) & (F2 & E2)).
      cbv zeta. split.
      + intros i Hi. destruct i as [|[|[|[|i]]]]; [exact F1|exact F0|apply z0|exact F2|lia].
      + eapply Rle_trans; [apply (qdist_comp _ _ (125 / 100000000)); cbn [Qw Qx Qy Qz]|lra]; [exact E1|exact E0| |exact E2].
        exact (z0d (125 / 100000000) ltac:(lra)).
  Qed.

  Lemma mid_of a b X : / 1000000000000 <= a -> b <= 1000000000000 -> a <= X <= b -> mid X.
  Proof. unfold mid. lra. Qed.
  (** square root of a sum of terms of the same sign, and what is divided by it *)
  Lemma part32 (h ly : f32) (g S : R) (gm : f32) : 1 / 10000000 <= g <= 4 -> g <= S <= 2 * g -> app gm g g (2 * ulp1 + ulp1 * / 100) ->
    app h S S (7 * ulp1) -> is_finite ly = true -> Rabs (B2R ly) <= sqrt g ->
    let p := Bsqrt mode_NE h in
    (is_finite (Bdiv mode_NE p (Bsqrt mode_NE (Bmult mode_NE (f2 (A := F)) gm))) = true /\
     Rabs (B2R (Bdiv mode_NE p (Bsqrt mode_NE (Bmult mode_NE (f2 (A := F)) gm))) - sqrt S / sqrt (2 * g)) <= 5 / 10000000) /\
    (is_finite (Bdiv mode_NE ly (Bmult mode_NE (Bsqrt mode_NE (f2 (A := F))) p)) = true /\
     Rabs (B2R (Bdiv mode_NE ly (Bmult mode_NE (Bsqrt mode_NE (f2 (A := F))) p)) - B2R ly / (sqrt 2 * sqrt S)) <= 5 / 10000000).
  Proof.
    intros Hg HS Ag Ah Fl Bl p.
    assert (RG : 3 / 10000 <= sqrt g <= 2) by (apply sqrt_range; lra).
    assert (RS : 3 / 10000 <= sqrt S <= 3) by (apply sqrt_range; lra).
    assert (R2 : 3 / 10000 <= sqrt (2 * g) <= 3) by (apply sqrt_range; lra).
    assert (RT : 14 / 10 <= sqrt 2 <= 15 / 10) by (apply sqrt_range; lra).
    assert (GS : sqrt g <= sqrt S) by (apply sqrt_le_1_alt; lra).
    assert (S2 : sqrt S <= sqrt (2 * g)) by (apply sqrt_le_1_alt; lra).
    assert (Ap : app p (sqrt S) (sqrt S) (46 / 10 * ulp1)).
    { eapply app_weak; [lra|apply (app_sqrt h S (7 * ulp1) Ah); [lra|unfold mid; lra|unfold ulp1; lra]|unfold ulp1; lra]. }
    assert (A2g : app (Bmult mode_NE (f2 (A := F)) gm) (2 * g) (2 * g) (302 / 100 * ulp1)).
    { eapply app_weak; [lra|apply (app_mul _ _ _ _ _ _ 0 (2 * ulp1 + ulp1 * / 100) (201 / 100 * ulp1) c2 Ag); unfold mid, ulp1; lra|unfold ulp1; lra]. }
    assert (Ar : app (Bsqrt mode_NE (Bmult mode_NE (f2 (A := F)) gm)) (sqrt (2 * g)) (sqrt (2 * g)) (26 / 10 * ulp1)).
    { eapply app_weak; [lra|apply (app_sqrt _ _ _ A2g); [lra|unfold mid; lra|unfold ulp1; lra]|unfold ulp1; lra]. }
    assert (A2 : app (Bsqrt mode_NE (f2 (A := F))) (sqrt 2) (sqrt 2) ulp1).
    { eapply app_weak; [lra|apply (app_sqrt _ _ _ c2); [lra|unfold mid; lra|lra]|lra]. }
    assert (Aq : app (Bmult mode_NE (Bsqrt mode_NE (f2 (A := F))) p) (sqrt 2 * sqrt S) (sqrt 2 * sqrt S) (661 / 100 * ulp1)).
    { eapply app_weak; [|eapply (app_mul _ _ _ _ _ _ _ _ (5605 / 1000 * ulp1) A2 Ap)|unfold ulp1; lra]; try (unfold ulp1; nra). apply (mid_of (1 / 10000) 10); nra. }
    assert (Q1 : 0 <= sqrt S / sqrt (2 * g) <= 1 /\ / 1000000 <= sqrt S / sqrt (2 * g)).
    { assert (I : / 3 <= / sqrt (2 * g)) by (apply Rinv_le_contravar; lra). unfold Rdiv. split; [split|].
      - apply Rmult_le_pos; lra.
      - apply Rmult_le_reg_r with (sqrt (2 * g)); [lra|]. rewrite Rmult_assoc, Rinv_l by lra. lra.
      - apply Rle_trans with (3 / 10000 * / 3); [lra|]. apply Rmult_le_compat; lra. }
    assert (Q2 : sqrt S / (sqrt 2 * sqrt S) = / sqrt 2) by (field; lra).
    assert (Q3 : 6 / 10 <= / sqrt 2 <= 8 / 10).
    { split; [apply Rle_trans with (/ (15 / 10)); [lra|apply Rinv_le_contravar; lra]|apply Rle_trans with (/ (14 / 10)); [apply Rinv_le_contravar; lra|lra]]. }
    split.
    - assert (Z : app (Bdiv mode_NE p (Bsqrt mode_NE (Bmult mode_NE (f2 (A := F)) gm))) (sqrt S / sqrt (2 * g)) (sqrt S / sqrt (2 * g)) (721 / 100 * ulp1 + ulp1)).
      { apply (app_div _ _ _ _ _ (46 / 10 * ulp1) (26 / 10 * ulp1) _ Ap Ar); try (unfold ulp1; lra). unfold mid. lra. }
      split; [apply Z|]. eapply Rle_trans; [apply app_abs; exact Z|]. unfold ulp1. lra.
    - pose proof (app_exact ly (sqrt S) Fl ltac:(lra)) as Al.
      assert (Z : app (Bdiv mode_NE ly (Bmult mode_NE (Bsqrt mode_NE (f2 (A := F))) p)) (B2R ly / (sqrt 2 * sqrt S)) (sqrt S / (sqrt 2 * sqrt S)) (662 / 100 * ulp1 + ulp1)).
      { apply (app_div _ _ _ _ _ 0 (661 / 100 * ulp1) _ Al Aq); try (unfold ulp1; lra); [nra|]. rewrite Q2. unfold mid. lra. }
      split; [apply Z|]. eapply Rle_trans; [apply app_abs; exact Z|]. rewrite Q2. unfold ulp1. lra.
  Qed.
  (** the quaternion that brings the horizontal part of the field to the first axis *)
  Lemma mag32 (lx ly : f32) : is_finite lx = true -> is_finite ly = true ->
    let g := B2R lx * B2R lx + B2R ly * B2R ly in
    1 / 10000000 <= g <= 4 ->
    let gm : T (Arith := F) := (fadd (Arith := F) (fmul (Arith := F) lx lx) (fmul (Arith := F) ly ly)) in
    let f : nat -> f32 := quad_of (A := F) (mag_am (A := F) lx ly gm) in
    (forall i, (i < 4)%nat -> is_finite (f i) = true) /\ qdist (qof f) (qmag (B2R lx) (B2R ly)) <= / 1000000.
  Proof.
    intros Fx Fy g Hg gm.
    assert (PP : forall t, 0 <= t * t) by (intros; apply Rle_0_sqr). pose proof (PP (B2R lx)) as PX. pose proof (PP (B2R ly)) as PY.
    assert (RG : 3 / 10000 <= sqrt g <= 2) by (apply sqrt_range; lra).
    assert (SG : sqrt g * sqrt g = g) by (apply sqrt_sqrt; lra).
    assert (BX : Rabs (B2R lx) <= sqrt g). { apply sqr_le_abs; [lra|]. rewrite <- Rabs_mult, Rabs_pos_eq, SG by lra. unfold g. lra. }
    assert (BY : Rabs (B2R ly) <= sqrt g). { apply sqr_le_abs; [lra|]. rewrite <- Rabs_mult, Rabs_pos_eq, SG by lra. unfold g. lra. }
    assert (Ag : app gm g g (2 * ulp1 + ulp1 * / 100)).
    { pose proof huge_1 as HH.
      assert (Sq : forall t : f32, is_finite t = true -> B2R t * B2R t <= g -> is_finite (Bmult mode_NE t t) = true /\ Rabs (B2R (Bmult mode_NE t t) - B2R t * B2R t) <= u * (B2R t * B2R t) + eta).
      { intros t Ft Ht. pose proof (PP (B2R t)). destruct (prod_err t t Ft Ft) as [P1 P2]; [rewrite Rabs_pos_eq; lra|]. rewrite (Rabs_pos_eq (B2R t * B2R t)) in P2 by lra. auto. }
      destruct (Sq lx Fx ltac:(unfold g; lra)) as [F1 E1]. destruct (Sq ly Fy ltac:(unfold g; lra)) as [F2 E2].
      pose proof (eta_mid g ltac:(unfold mid; lra)) as EM.
      assert (D : Rabs (B2R (Bmult mode_NE lx lx) + B2R (Bmult mode_NE ly ly) - g) <= (ulp1 + ulp1 * / 100) * g).
      { replace (B2R (Bmult mode_NE lx lx) + B2R (Bmult mode_NE ly ly) - g) with ((B2R (Bmult mode_NE lx lx) - B2R lx * B2R lx) + (B2R (Bmult mode_NE ly ly) - B2R ly * B2R ly)) by (unfold g; ring).
        eapply Rle_trans; [apply Rabs_triang|]. assert (u * (B2R lx * B2R lx) + u * (B2R ly * B2R ly) = u * g) by (unfold g; ring).
        assert ((u + 2 * (/ 1000000000000 * ulp1)) * g <= (ulp1 + ulp1 * / 100) * g) by (apply Rmult_le_compat_r; [lra|unfold u, ulp1; lra]). lra. }
      assert (MG : mid g) by (unfold mid; lra).
      assert (AG : Rabs g <= g) by (rewrite Rabs_pos_eq; lra).
      destruct (plus_ok _ _ F1 F2) as [F3 E3].
      { apply (mid_big g _ MG). pose proof (near_le _ _ g (ulp1 + ulp1 * / 100) ltac:(lra) ltac:(unfold ulp1; lra) AG D). lra. }
      split; [exact F3|]. split; [exact AG|]. change (Rabs (B2R (Bplus mode_NE (Bmult mode_NE lx lx) (Bmult mode_NE ly ly)) - g) <= (2 * ulp1 + ulp1 * / 100) * g).
      rewrite E3. replace (2 * ulp1 + ulp1 * / 100) with ((ulp1 + ulp1 * / 100) + ulp1) by ring. apply rnd_app; auto. unfold ulp1; lra. }
    assert (Ar : app (Bsqrt mode_NE gm) (sqrt g) (sqrt g) (203 / 100 * ulp1)).
    { eapply app_weak; [lra|apply (app_sqrt _ _ _ Ag); [lra|unfold mid; lra|unfold ulp1; lra]|unfold ulp1; lra]. }
    assert (Am : app (Bmult mode_NE lx (Bsqrt mode_NE gm)) (B2R lx * sqrt g) g (304 / 100 * ulp1)).
    { rewrite <- SG at 2. eapply app_weak; [nra|apply (app_mul _ _ _ _ _ _ 0 (203 / 100 * ulp1) (203 / 100 * ulp1) (app_exact lx _ Fx BX) Ar); try (unfold ulp1; lra)|unfold ulp1; lra].
      rewrite SG. unfold mid. lra. }
    unfold mag_am. change (fleb (Arith := F) f0 lx) with (Bleb (f0 (A := F) : f32) lx). rewrite Bleb_ok by (auto; apply z0).
    rewrite (proj2 z0). unfold qmag. fold g.
    assert (SB : - sqrt g <= B2R lx <= sqrt g) by (apply Rabs_le_inv; exact BX).
    destruct (Rle_bool_spec 0 (B2R lx)) as [L|L].
    - set (S := g + B2R lx * sqrt g). assert (HS : g <= S <= 2 * g) by (unfold S; nra).
      assert (As : app (Bplus mode_NE gm (Bmult mode_NE lx (Bsqrt mode_NE gm))) S S (7 * ulp1)).
      { eapply app_weak; [lra|eapply (app_add _ _ _ _ _ _ S _ _ (505 / 100 * ulp1 + ulp1 * / 100) Ag Am)|unfold ulp1; lra].
        - unfold mid; lra.
        - rewrite Rabs_pos_eq; unfold S in *; lra.
        - assert ((2 * ulp1 + ulp1 * / 100) * g + 304 / 100 * ulp1 * g = (505 / 100 * ulp1) * g) by (unfold ulp1; lra).
          assert ((505 / 100 * ulp1) * g <= (505 / 100 * ulp1) * S) by (apply Rmult_le_compat_l; [unfold ulp1; lra|lra]).
          assert (0 <= (ulp1 * / 100) * S) by (apply Rmult_le_pos; [unfold ulp1; lra|lra]). lra.
        - unfold ulp1; lra. }
      destruct (part32 _ ly g S gm Hg HS Ag As Fy BY) as [[G1 H1] [G2 H2]].
      cbv zeta. split.
      + intros i Hi. destruct i as [|[|[|[|i]]]]; [exact G1|apply z0|apply z0|exact G2|lia].
      + eapply Rle_trans; [apply (qdist_comp _ _ (5 / 10000000)); cbn [Qw Qx Qy Qz]|lra]; [exact H1| | |exact H2];
        exact (z0d (5 / 10000000) ltac:(lra)).
    - set (S := g - B2R lx * sqrt g). assert (HS : g <= S <= 2 * g) by (unfold S; nra).
      assert (As : app (Bminus mode_NE gm (Bmult mode_NE lx (Bsqrt mode_NE gm))) S S (7 * ulp1)).
      { eapply app_weak; [lra|eapply (app_sub _ _ _ _ _ _ S _ _ (505 / 100 * ulp1 + ulp1 * / 100) Ag Am)|unfold ulp1; lra].
        - unfold mid; lra.
        - rewrite Rabs_pos_eq; unfold S in *; lra.
        - assert ((2 * ulp1 + ulp1 * / 100) * g + 304 / 100 * ulp1 * g = (505 / 100 * ulp1) * g) by (unfold ulp1; lra).
          assert ((505 / 100 * ulp1) * g <= (505 / 100 * ulp1) * S) by (apply Rmult_le_compat_l; [unfold ulp1; lra|lra]).
          assert (0 <= (ulp1 * / 100) * S) by (apply Rmult_le_pos; [unfold ulp1; lra|lra]). lra.
        - unfold ulp1; lra. }
      destruct (part32 _ ly g S gm Hg HS Ag As Fy BY) as [[G1 H1] [G2 H2]].
      cbv zeta. split.
      + intros i Hi. destruct i as [|[|[|[|i]]]]; [exact G2|apply z0|apply z0|exact G1|lia].
      + eapply Rle_trans; [apply (qdist_comp _ _ (5 / 10000000)); cbn [Qw Qx Qy Qz]|lra]; [exact H2| | |exact H1];
        exact (z0d (5 / 10000000) ltac:(lra)).
  Qed.

  Lemma rotmat_conj q i j : (i < 3)%nat -> (j < 3)%nat -> rotmat (qconj q) i j = rotmat q j i.
  Proof.
    intros Hi Hj. destruct q as [w x y z]. destruct i as [|[|[|i]]]; [| | |lia]; (destruct j as [|[|[|j]]]; [| | |lia]); cbn; ring.
  Qed.
  (** what the field becomes under the transposed matrix of a quaternion of norm close to 1 *)
  Lemma tog32 (aq : Vec (T (Arith := F))) (f x : nat -> f32) d : vec_is (A := F) aq 4 f -> Rabs (qnorm (qof f) - 1) <= d -> d <= / 100 ->
    (forall i, (i < 3)%nat -> is_finite (x i) = true) -> rnorm 3 (fun i => B2R (x i)) <= 2 ->
    let b : nat -> f32 := tog (A := F) f x in
    let X := fun i => B2R (x i) in
    (forall i n, (i < 3)%nat -> (1 <= n <= 3)%nat -> valid (A := F) (fsum (A := F) n (fun k => fmul (Arith := F) (grid (dcm_l (A := F) f) k i) (x k)))) /\
    Forall (valid (A := F)) (dcm_l (A := F) f) /\
    (forall i, (i < 3)%nat -> is_finite (b i) = true) /\
    vdist 3 (fun i => B2R (b i)) (qrot (qconj (qunit (qof f))) X) <= (15 * d + 4 / 1000000) * rnorm 3 X + 2 * tiny.
  Proof.
    intros Hq HN Hd Fx HX b X.
    destruct (l_dcm32 lm aq (qof f) d (quat_f_of lm aq f Hq) HN Hd) as (m & a & Em & (gm & Hm & Ea) & ROT & B).
    pose proof (dcm_rwp (A := F) aq f Hq) as W. rewrite Em in W. cbn [rwp] in W. destruct W as [Hm' VD].
    destruct (mat_is_fun _ _ _ _ _ _ _ Hm Hm') as (_ & _ & Eg).
    assert (G : forall i j, (i < 3)%nat -> (j < 3)%nat -> is_finite (grid (dcm_l (A := F) f) i j : f32) = true /\ B2R (grid (dcm_l (A := F) f) i j : f32) = a i j).
    { intros i j Hi Hj. rewrite <- Eg by auto. split; [apply (mat_f_finite lm m 3 3 gm Hm); auto|apply Ea; auto]. }
    assert (AL : forall i j, (i < 3)%nat -> (j < 3)%nat -> Rabs (a i j) <= 106 / 100).
    { intros i j Hi Hj. pose proof (B i j Hi Hj) as Bij. pose proof (rotation_le1 _ i j ROT Hi Hj) as L.
      apply Rabs_le_inv in Bij. apply Rabs_le_inv in L. apply Rabs_le. lra. }
    assert (D0 : 0 <= d) by (eapply Rle_trans; [apply Rabs_pos|exact HN]).
    destruct (sum3 X) as (S0 & SS & S2). set (S := Rabs (X 0%nat) + _ + _) in *.
    assert (MS : forall i, (i < 3)%nat -> Rsum 3 (fun t => Rabs (a t i * X t)) <= 106 / 100 * S).
    { intros i Hi. unfold S. cbn [Rsum]. rewrite !Rabs_mult.
      pose proof (AL 0%nat i ltac:(lia) Hi) as L0. pose proof (AL 1%nat i ltac:(lia) Hi) as L1. pose proof (AL 2%nat i ltac:(lia) Hi) as L2.
      assert (forall t k, Rabs t <= 106 / 100 -> Rabs t * Rabs k <= 106 / 100 * Rabs k) as L
        by (intros; apply Rmult_le_compat_r; auto using Rabs_pos).
      pose proof (L _ (X 0%nat) L0). pose proof (L _ (X 1%nat) L1). pose proof (L _ (X 2%nat) L2). lra. }
    pose proof huge_1 as HH. fold X in HX.
    assert (ACC : forall i n, (i < 3)%nat -> (n <= 3)%nat ->
      acc (INR n + 1) (fsum (A := F) n (fun k => fmul (Arith := F) (grid (dcm_l (A := F) f) k i) (x k)))
        (Rsum n (fun t => a t i * X t)) (Rsum n (fun t => Rabs (a t i * X t)))).
    { intros i n Hi Hn.
      rewrite (Rsum_ext n (fun t => a t i * X t) (fun t => B2R (grid (dcm_l (A := F) f) t i : f32) * B2R (x t))).
      2:{ intros t Ht. rewrite (proj2 (G t i ltac:(lia) Hi)). reflexivity. }
      rewrite (Rsum_ext n (fun t => Rabs (a t i * X t)) (fun t => Rabs (B2R (grid (dcm_l (A := F) f) t i : f32) * B2R (x t)))).
      2:{ intros t Ht. rewrite (proj2 (G t i ltac:(lia) Hi)). reflexivity. }
      apply (fsum_acc lm n (fun t => grid (dcm_l (A := F) f) t i) x); [lia| |].
      - intros t Ht. split; [apply G; lia|apply Fx; lia].
      - apply Rle_trans with (106 / 100 * S); [|lra]. eapply Rle_trans; [|apply (MS i Hi)].
        assert (LE : forall k, (n <= k)%nat -> (k <= 3)%nat -> Rsum n (fun t => Rabs (B2R (grid (dcm_l (A := F) f) t i : f32) * B2R (x t))) <= Rsum k (fun t => Rabs (a t i * X t))).
        { clear - G Hi. intros k Hk. induction Hk as [|k Hk IH]; intros K3.
          - right. apply Rsum_ext. intros t Ht. rewrite (proj2 (G t i ltac:(lia) Hi)). reflexivity.
          - cbn [Rsum]. pose proof (Rabs_pos (a k i * X k)). specialize (IH ltac:(lia)). lra. }
        apply LE; lia. }
    split; [intros i n Hi Hn; apply (valid_finite lm); apply (ACC i n); [auto|lia]|].
    split; [exact VD|]. split; [intros i Hi; apply (ACC i 3%nat Hi); lia|].
    eapply Rle_trans; [apply (norm3_bound _ X (5 * d + 13 / 10000000) tiny); [lra|left; apply tiny_pos|]|].
    2:{ assert (3 * (5 * d + 13 / 10000000) * rnorm 3 X <= (15 * d + 4 / 1000000) * rnorm 3 X).
        { apply Rmult_le_compat_r; [apply rnorm_pos|lra]. } lra. }
    intros i Hi. fold S. rewrite <- rotmat_apply by auto. unfold rmv. rewrite (Rsum_ext 3 _ (fun k => rotmat (qunit (qof f)) k i * X k)).
    2:{ intros k Hk. rewrite rotmat_conj by auto. reflexivity. }
    replace (B2R (b i) - Rsum 3 (fun k => rotmat (qunit (qof f)) k i * X k)) with
      ((B2R (b i) - Rsum 3 (fun t => a t i * X t)) + ((a 0%nat i - rotmat (qunit (qof f)) 0%nat i) * X 0%nat
        + (a 1%nat i - rotmat (qunit (qof f)) 1%nat i) * X 1%nat + (a 2%nat i - rotmat (qunit (qof f)) 2%nat i) * X 2%nat)).
    2:{ cbn [Rsum]. ring. }
    eapply Rle_trans; [apply Rabs_triang|].
    pose proof (acc_final (INR 3 + 1) _ _ _ ltac:(cbn; lra) (ACC i 3%nat Hi ltac:(lia))) as B1. pose proof (MS i Hi) as M1.
    replace (INR 3 + 1) with 4 in B1 by (cbn; ring). change (fsum (A := F) 3 _) with (b i) in B1.
    assert (L : forall j, (j < 3)%nat -> Rabs ((a j i - rotmat (qunit (qof f)) j i) * X j) <= (5 * d + / 1000000) * Rabs (X j)).
    { intros j Hj. rewrite Rabs_mult. apply Rmult_le_compat_r; auto using Rabs_pos. }
    pose proof (L 0%nat ltac:(lia)) as L0. pose proof (L 1%nat ltac:(lia)) as L1. pose proof (L 2%nat ltac:(lia)) as L2.
    assert (T3 : forall a b c, Rabs (a + b + c) <= Rabs a + Rabs b + Rabs c).
    { intros a1 b1 c1. eapply Rle_trans; [apply Rabs_triang|]. pose proof (Rabs_triang a1 b1). lra. }
    eapply Rle_trans; [apply Rplus_le_compat; [exact B1|apply T3]|]. unfold S in *. lra.
  Qed.
End Stages.

Section Run.
  Context {A : Arith} {OK : ArithOk A}.
  Lemma quad_of_valid p : (forall i, (i < 4)%nat -> valid (quad_of p i)) -> let '(w, x, y, z) := p in quat_finite w x y z.
  Proof. destruct p as [[[w x] y] z]. intros H. exact (conj (H 0%nat ltac:(lia)) (conj (H 1%nat ltac:(lia)) (conj (H 2%nat ltac:(lia)) (H 3%nat ltac:(lia))))). Qed.
  Lemma quat4_run p : (forall i, (i < 4)%nat -> valid (quad_of p i)) -> exists v, quat4 p = Ok v /\ vec_is v 4 (quad_of p).
  Proof.
    intros H. pose proof (quad_of_valid p H) as V. destruct p as [[[w x] y] z]. pose proof (quat4_ok w x y z) as Q.
    destruct (quat4 (w, x, y, z)) as [v|e|]; cbn [rwp] in Q; [|tauto|tauto]. exists v. split; [reflexivity|apply Q].
  Qed.
  Lemma pw_run n f g out : (forall i, (i < n)%nat -> valid (g i)) -> pointwise_v n f g out -> exists v, out = (v, Ok tt) /\ vec_is v n g.
  Proof.
    intros V [(_ & E & H)|(i & k & Hi & B & _)]; [destruct out as [v o]; cbn [fst snd] in *; subst; eauto|].
    exfalso. apply (bad_Some_not _ _ B). apply V. exact Hi.
  Qed.
  Lemma am_run gx gy gz ax ay az mx my mz s ca cm : aq_inv s Live -> aq_mode s = AM ->
    sensor_get_config Acc (aq_acc s) = Ok ca -> sensor_get_config Mag (aq_mag s) = Ok cm ->
    finite_update Acc ca (raw3 ax ay az) -> finite_update Mag cm (raw3 mx my mz) ->
    let a := corrected Acc ca (raw3 ax ay az) 3 in
    let m := corrected Mag cm (raw3 mx my mz) 3 in
    let qa := quad_of (let '(x, y, z) := a_unit a in acc_quat_of x y z) in
    let b := tog qa (vunit 3 m) in
    let qm := quad_of (mag_am (b 0%nat) (b 1%nat) (b 0%nat * b 0%nat + b 1%nat * b 1%nat)%F) in
    let g := prodf qa qm in
    (forall i, (i < 3)%nat -> valid (vunit 3 m i)) ->
    (forall i, (i < 4)%nat -> valid (qa i)) ->
    Forall valid (dcm_l qa) -> (forall i n, (i < 3)%nat -> (1 <= n <= 3)%nat -> valid (fsum n (fun k => grid (dcm_l qa) k i * vunit 3 m k)%F)) ->
    (forall i, (i < 4)%nat -> valid (qm i)) -> (forall i, (i < 4)%nat -> valid (g i)) -> (forall i, (i < 4)%nat -> valid (vunit 4 g i)) ->
    exists s', aq_update gx gy gz ax ay az mx my mz s = (s', Ok tt) /\ aq_initialized s' = true /\ vec_is (aq_attitude s') 4 (vunit 4 g).
  Proof.
    intros IV EM Ha Hm FA FM a m qa b qm g V1 V2 V3 V4 V5 V6 V7.
    pose proof (update_split gx gy gz ax ay az mx my mz s ca cm IV Ha Hm) as U. cbv zeta in U. fold a m in U.
    destruct U as [(X & _)|[(X & _)|[(s1 & e & _ & _ & _ & _ & _ & X)|(s3 & K & EA & EL & _ & _ & _ & U)]]]; [congruence|congruence| |].
    { exfalso. destruct X as [X|[X|X]]; [|auto|auto]. unfold gyr_fails in X. rewrite EM in X. exact X. }
    pose proof K as (IV3 & SS & SC).
    assert (VA : forall i, (i < 3)%nat -> valid (a i)) by (intros i Hi; apply FA; lia).
    assert (VM : forall i, (i < 3)%nat -> valid (m i)) by (intros i Hi; apply FM; lia).
    pose proof (loc_rwp _ _ VA VM) as L. unfold rthen in U.
    destruct (st_loc a m) as [[[[a3 al] ml] t]|e|]; cbn [rwp] in L; [|tauto|tauto].
    destruct L as (-> & Hal & Hml & gt & Ht). rewrite EM in U. unfold st_mode in U. subst qa.
    destruct (a_unit a) as [[x y] z]. rewrite am_eq in U.
    destruct (quat4_run _ V2) as (aq & Eq & Hq). rewrite Eq in U. rewrite la_Ok in U. cbn [rthen] in U.
    set (qa := quad_of (acc_quat_of x y z)) in *.
    unfold st_mag in U. pose proof (to_global_rwp aq ml t qa (vunit 3 m) gt Hq Hml Ht) as G.
    destruct (to_global aq ml t) as [[mg t3]|e|]; cbn [rwp fst snd] in G; [|tauto|tauto]. destruct G as (Hmg & _ & _). fold b in Hmg.
    rewrite la_Ok in U. cbn [rbind] in U. rewrite !(vi_get _ _ _ Hmg) in U by lia. rewrite !la_Ok in U. cbn [rbind] in U.
    destruct (quat4_run _ V5) as (mq & Em & Hmq). rewrite Em in U. rewrite la_Ok in U. cbn [rthen] in U. fold qm in Hmq.
    pose proof IV3 as (_ & I3 & _ & _ & _ & f & Hf).
    destruct (pw_run _ _ _ _ V6 (q_mul_pw (aq_attitude s3) aq mq f qa qm Hf Hq Hmq)) as (v & Ev & Hv).
    unfold on_att in U. rewrite Ev in U. rewrite la_Ok in U. unfold st_end, on_att in U. cbn [aq_attitude aq_put_attitude] in U.
    destruct (pw_run _ _ _ _ V7 (v_normalize_pw v 4 g Hv)) as (v' & Ev' & Hv').
    change (aq_attitude (aq_put_attitude v s3)) with v in U. rewrite Ev' in U. rewrite la_Ok in U.
    eexists. split; [exact U|]. split; [exact I3|exact Hv'].
  Qed.
End Run.
