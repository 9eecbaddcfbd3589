(** C57: repeated updates of the Aqua filter in mode MARG with a sensor at rest, in exact arithmetic. *)
(*@+*)
From Coq Require Import List Arith ZArith NArith Reals Lia Bool Lra.
From Flocq Require Import Core.
From Verif Require Import M_Base M_Arith M_Utils M_Vector M_Matrix M_Quaternion M_Sensors M_Ar M_Aqua M_RX
  S_Spec S_Linalg S_Norm S_Quat S_Sensors S_Ar S_Aqua S_AquaM P_Inst.
Import ListNotations.
Local Open Scope R_scope.
(*@-*)
From Verif Require Import P_Quat P_Rot P_Norm P_Ar P_Aqua P_ArR P_AquaR P_AquaM.

Lemma sqr0 x : x * x = 0 -> x = 0.
Proof. intros H. destruct (Rmult_integral _ _ H); assumption. Qed.
Lemma pow_01 x n : 0 <= x <= 1 -> 0 <= x ^ n <= 1.
Proof. intros X. split; [apply pow_le; lra|]. replace 1 with (1 ^ n) by apply pow1. apply pow_incr. lra. Qed.
Lemma qnormalized_is_unit q : 1 / 10000 < qnorm q -> unitq (qnormalized q).
Proof. intros N. rewrite <- (predicted_still q (fun _ => 0) 0) by reflexivity. apply predicted_unit. lra. Qed.
(** one update with the sensor at rest *)
Lemma still_step s cg ca cm gx gy gz ax ay az mx my mz w a m q ts k ta kb tm :
  marg_state s cg ca cm q ts ta kb tm -> aq_adaptive s = false -> aq_alpha s = Some k -> 0 <= k <= 1 ->
  measures Gyr cg gx gy gz w -> measures Acc ca ax ay az a -> measures Mag cm mx my mz m ->
  (forall i, (i < 3)%nat -> w i = 0) -> rnorm 3 a = 1 ->
  let g := qrot (qconj (qnormalized q)) a in g 2%nat < 0 ->
  exists p, let b := qrot (qconj p) m in let r := sqrt (b 0%nat * b 0%nat + b 1%nat * b 1%nat) in
    unitq p /\ 0 <= 1 + qrot (qconj p) a 2%nat <= (1 - k * k) * (1 + g 2%nat) /\
    (g 2%nat = -1 -> forall u i, (i < 3)%nat -> qrot (qconj p) u i = qrot (qconj (qnormalized q)) u i) /\
    let (s', o) := aq_update (Some gx) (Some gy) (Some gz) ax ay az mx my mz s in
    (o = Ok tt -> 1 / 10000 < rnorm 3 m /\ (0 < b 0%nat \/ b 1%nat <> 0)) /\
    (1 / 10000 < rnorm 3 m -> 0 < b 0%nat \/ b 1%nat <> 0 ->
       o = Ok tt /\ aq_adaptive s' = false /\ aq_alpha s' = Some k /\
       exists q', marg_state s' cg ca cm q' ts ta kb tm /\ unitq q' /\ (forall u, qrot (qconj q') u 2%nat = qrot (qconj p) u 2%nat) /\
       r - qrot (qconj q') m 0%nat <= (1 - kb * kb) * (r - b 0%nat)).
Proof.
  intros M EA EK K Hw Ha Hm Zw NA g G2.
  assert (GK : gain_for s 1 k) by (unfold gain_for; rewrite EA; exact EK).
  destruct (l_marg s cg ca cm gx gy gz ax ay az mx my mz w a m q ts k ta kb tm M GK K Hw Ha Hm NA) as (c & R). cbv zeta in R.
  rewrite (predicted_still q w ts Zw) in R. fold g in R. set (qh := qnormalized q) in *.
  assert (Uh : unitq qh) by (apply qnormalized_is_unit; exact (ms_norm _ _ _ _ _ _ _ _ _ M)).
  destruct R as (Up & _ & Et & Dir & R). set (p := qmul qh c) in *. exists p. cbv zeta. split; [exact Up|].
  assert (Ug : g 0%nat * g 0%nat + g 1%nat * g 1%nat + g 2%nat * g 2%nat = 1).
  { rewrite <- (rdot3 g g). unfold g. rewrite (qrot_dot qh a a Uh), <- rnorm_sqr, NA. ring. }
  assert (F := l_factor g k ta (half_cos g) Ug K (ms_ta _ _ _ _ _ _ _ _ _ M)). assert (HC : 0 <= half_cos g <= 1).
  { destruct (l_factor g k ta 0 Ug K (ms_ta _ _ _ _ _ _ _ _ _ M) ltac:(lra)) as (_ & _ & _ & X & _ & _ & Y). split; [apply Y; left; exact G2|lra]. }
  destruct (F HC) as (RB & _). clear F. assert (N1 : 0 <= 1 + g 2%nat) by nra.
  split; [rewrite Et; split; [apply Rmult_le_pos; lra|apply Rmult_le_compat_r; lra]|].
  split.
  { intros E u i Hi. destruct (Dir G2) as (Cz & _). assert (Uc : unitq c).
    { unfold unitq in *. unfold p in Up. rewrite qnorm2_mul, Uh in Up. lra. }
    assert (T : qrot (qconj p) a 2%nat = -1) by (rewrite E in Et; replace (1 + -1) with 0 in Et by ring; rewrite Rmult_0_r in Et; lra).
    unfold p in T. rewrite qrot_mul_conj in T by lia. fold g in T. assert (G01 : g 0%nat * g 0%nat + g 1%nat * g 1%nat = 0) by (rewrite E in Ug; lra).
    assert (G0 : g 0%nat = 0) by (apply sqr0; pose proof (Rle_0_sqr (g 0%nat)) as X; pose proof (Rle_0_sqr (g 1%nat)) as Y; unfold Rsqr in X, Y; lra).
    assert (G1 : g 1%nat = 0) by (apply sqr0; rewrite G0 in G01; lra).
    unfold p. rewrite qrot_mul_conj by exact Hi. destruct c as [cw cx cy cz]. cbn [Qz] in Cz. subst cz. rewrite qrc2, G0, G1, E in T.
    unfold unitq, qnorm2 in Uc. cbn [Qw Qx Qy Qz] in Uc. 
    assert (XY : cx * cx + cy * cy = 0) by lra. assert (X0 : cx = 0) by (apply sqr0; pose proof (Rle_0_sqr cx) as X; pose proof (Rle_0_sqr cy) as Y; unfold Rsqr in X, Y; lra).
    assert (Y0 : cy = 0) by (apply sqr0; rewrite X0 in XY; lra). subst cx cy.
    assert (W : cw * cw = 1) by lra. set (v := qrot (qconj qh) u). transitivity (cw * cw * v i); [|rewrite W; ring]. destruct i as [|[|[|i]]]; [rewrite qrc0|rewrite qrc1|rewrite qrc2|lia]; ring. }
  set (b := qrot (qconj p) m) in *. set (r := sqrt (b 0%nat * b 0%nat + b 1%nat * b 1%nat)) in *.
  destruct (aq_update _ _ _ _ _ _ _ _ _ s) as [s' o]. destruct R as (Al & (S1 & S2 & S3 & _) & R1 & R2). split.
  - intros ->. destruct (Rle_lt_dec (rnorm 3 m) (1 / 10000)) as [L|L]; [destruct (R2 (or_introl L)) as ((e & X & _) & _); discriminate X|].
    split; [exact L|]. destruct (Rle_lt_dec (b 0%nat) 0) as [L0|L0]; [|left; exact L0]. right. intros L1. destruct (R2 (or_intror (conj L0 L1))) as ((e & X & _) & _). discriminate X.
  - intros L H. destruct (R1 L H) as (-> & q' & MS & Uq & _ & Z & HD & _). split; [reflexivity|]. split; [congruence|]. split; [exact Al|]. exists q'. split; [exact MS|]. split; [exact Uq|]. split; [exact Z|].
    rewrite HD. assert (Rp : 0 < r) by (apply sqrt_lt_R0; destruct H; nra). assert (Rr : r * r = b 0%nat * b 0%nat + b 1%nat * b 1%nat) by (apply sqrt_sqrt; nra).
    assert (LE : -1 <= b 0%nat / r <= 1). { split; [apply Rmult_le_reg_r with r|apply Rmult_le_reg_r with r]; try exact Rp; unfold Rdiv; rewrite Rmult_assoc, Rinv_l by lra; nra. }
    assert (CB : 0 <= sqrt ((1 + b 0%nat / r) / 2) <= 1). { split; [apply sqrt_pos|]. rewrite <- sqrt_1 at 2. apply sqrt_le_1_alt. lra. }
    pose proof (remaining_bound kb tm _ (ms_kb _ _ _ _ _ _ _ _ _ MS) (ms_tm _ _ _ _ _ _ _ _ _ MS) CB) as RM. apply Rmult_le_compat_r; [nra|lra].
Qed.

(*@ C57_tilt *)
(** C57: while the sensor is at rest, with a fixed accelerometer gain k, the tilt error (one plus the z
    component of the measured gravity turned by the attitude) shrinks at least by the factor 1 - k^2 at
    every update, as long as it starts below a quarter turn. *)
Lemma l_tilt_converges :
  forall (s s' : Aqua (A := RX)) (cg ca cm : Config (A := RX)) (gx gy gz ax ay az mx my mz : T (Arith := RX)) (w a m : nat -> R)
    (q : quat) (ts k ta kb tm : R) (n : nat),
  marg_state s cg ca cm q ts ta kb tm -> aq_adaptive s = false -> aq_alpha s = Some k -> 0 <= k <= 1 ->
  measures Gyr cg gx gy gz w -> measures Acc ca ax ay az a -> measures Mag cm mx my mz m ->
  (forall i, (i < 3)%nat -> w i = 0) -> rnorm 3 a = 1 ->
  qrot (qconj (qnormalized q)) a 2%nat < 0 ->
  aq_run gx gy gz ax ay az mx my mz n s s' ->
  exists q', marg_state s' cg ca cm q' ts ta kb tm /\ aq_adaptive s' = false /\ aq_alpha s' = Some k /\
    0 <= 1 + qrot (qconj (qnormalized q')) a 2%nat <= (1 - k * k) ^ n * (1 + qrot (qconj (qnormalized q)) a 2%nat).
Proof.
  intros s s' cg ca cm gx gy gz ax ay az mx my mz w a m q ts k ta kb tm n M EA EK K Hw Ha Hm Zw NA G2 RUN.
  assert (KK : 0 <= 1 - k * k <= 1) by nra. revert q M EA EK G2. induction RUN as [s|n s s1 s' RUN IH US]; intros q M EA EK G2.
  - exists q. split; [exact M|]. split; [exact EA|]. split; [exact EK|]. rewrite pow_O, Rmult_1_l. split; [|lra].
    pose proof (qnormalized_is_unit q (ms_norm _ _ _ _ _ _ _ _ _ M)) as Uh. pose proof (qrot_dot (qnormalized q) a a Uh) as D. rewrite <- (rnorm_sqr 3 a), NA, rdot3 in D. nra.
  - destruct (IH q M EA EK G2) as (q1 & M1 & A1 & K1 & B1 & B2). clear IH. set (e0 := 1 + qrot (qconj (qnormalized q)) a 2%nat) in *.
    assert (E0 : e0 < 1) by (unfold e0; lra). clearbody e0.
    assert (PW : 0 <= (1 - k * k) ^ n <= 1) by (apply pow_01; lra).
    assert (G1 : qrot (qconj (qnormalized q1)) a 2%nat < 0).
    { assert (PE : (1 - k * k) ^ n * e0 < 1); [|lra]. destruct (Rle_lt_dec 0 e0); nra. }
    destruct (still_step s1 cg ca cm gx gy gz ax ay az mx my mz w a m q1 ts k ta kb tm M1 A1 K1 K Hw Ha Hm Zw NA G1) as (p & Up & Tp & _ & R).
    rewrite US in R. destruct R as (R1 & R2). destruct (R1 eq_refl) as (L & H). destruct (R2 L H) as (_ & A' & K' & q' & M' & U' & Z & _).
    exists q'. split; [exact M'|]. split; [exact A'|]. split; [exact K'|]. rewrite (qnormalized_unit q' U'), Z. split; [lra|]. cbn [pow]. apply Rle_trans with ((1 - k * k) * (1 + qrot (qconj (qnormalized q1)) a 2%nat)); [lra|].
    rewrite Rmult_assoc. apply Rmult_le_compat_l; lra.
Qed.

(*@ C57_heading *)
(** C57: if moreover the attitude is level (the measured gravity turned by it is straight down) and the
    turned field has a horizontal part that does not point exactly backwards, then any number of updates
    succeeds, the attitude stays level, and the heading error (horizontal field strength minus the x
    component of the turned field) shrinks at least by the factor 1 - beta^2 at every update. *)
Lemma l_heading_converges :
  forall (s : Aqua (A := RX)) (cg ca cm : Config (A := RX)) (gx gy gz ax ay az mx my mz : T (Arith := RX)) (w a m : nat -> R)
    (q : quat) (ts k ta kb tm : R) (n : nat),
  marg_state s cg ca cm q ts ta kb tm -> aq_adaptive s = false -> aq_alpha s = Some k -> 0 <= k <= 1 ->
  measures Gyr cg gx gy gz w -> measures Acc ca ax ay az a -> measures Mag cm mx my mz m ->
  (forall i, (i < 3)%nat -> w i = 0) -> rnorm 3 a = 1 -> 1 / 10000 < rnorm 3 m ->
  qrot (qconj (qnormalized q)) a 2%nat = -1 ->
  let b := qrot (qconj (qnormalized q)) m in
  let r := sqrt (b 0%nat * b 0%nat + b 1%nat * b 1%nat) in
  0 < b 0%nat \/ b 1%nat <> 0 ->
  exists s' q', aq_run gx gy gz ax ay az mx my mz n s s' /\ marg_state s' cg ca cm q' ts ta kb tm /\
    qrot (qconj (qnormalized q')) a 2%nat = -1 /\ qrot (qconj (qnormalized q')) m 2%nat = b 2%nat /\
    0 <= r - qrot (qconj (qnormalized q')) m 0%nat <= (1 - kb * kb) ^ n * (r - b 0%nat).
Proof.
  intros s cg ca cm gx gy gz ax ay az mx my mz w a m q ts k ta kb tm n M EA EK K Hw Ha Hm Zw NA NM G2 b r HB.
  assert (KB : 0 <= kb <= 1) by exact (ms_kb _ _ _ _ _ _ _ _ _ M). assert (KK : 0 <= 1 - kb * kb <= 1) by nra.
  assert (Rr : r * r = b 0%nat * b 0%nat + b 1%nat * b 1%nat) by (apply sqrt_sqrt; nra). assert (Rp : 0 < r) by (apply sqrt_lt_R0; destruct HB; nra).
  assert (FR : forall q', 1 / 10000 < qnorm q' -> qrot (qconj (qnormalized q')) m 2%nat = b 2%nat -> let b' := qrot (qconj (qnormalized q')) m in b' 0%nat * b' 0%nat + b' 1%nat * b' 1%nat = r * r).
  { intros q' N' Z b'. pose proof (qnormalized_is_unit q' N') as U1. pose proof (qnormalized_is_unit q (ms_norm _ _ _ _ _ _ _ _ _ M)) as U2.
    pose proof (qrot_dot _ m m U1) as D1. pose proof (qrot_dot _ m m U2) as D2. rewrite <- D2 in D1. rewrite !rdot3 in D1. fold b in D1. fold b' in D1. fold b' in Z. rewrite Z in D1. lra. }
  assert (GEN : exists s' q', aq_run gx gy gz ax ay az mx my mz n s s' /\ marg_state s' cg ca cm q' ts ta kb tm /\ aq_adaptive s' = false /\ aq_alpha s' = Some k /\
    qrot (qconj (qnormalized q')) a 2%nat = -1 /\ qrot (qconj (qnormalized q')) m 2%nat = b 2%nat /\
    r - qrot (qconj (qnormalized q')) m 0%nat <= (1 - kb * kb) ^ n * (r - b 0%nat)).
  { induction n as [|n (s1 & q1 & RUN & M1 & A1 & K1 & G1 & Z1 & B1)].
    - exists s, q. split; [constructor|]. split; [exact M|]. split; [exact EA|]. split; [exact EK|]. split; [exact G2|]. split; [reflexivity|]. rewrite pow_O. fold b. lra.
    - destruct (still_step s1 cg ca cm gx gy gz ax ay az mx my mz w a m q1 ts k ta kb tm M1 A1 K1 K Hw Ha Hm Zw NA ltac:(lra)) as (p & Up & Tp & Lv & R). cbv zeta in R.
      specialize (Lv G1). pose proof (FR q1 (ms_norm _ _ _ _ _ _ _ _ _ M1) Z1) as F1. cbv zeta in F1.
      rewrite !(Lv m) in R by lia. set (b1 := qrot (qconj (qnormalized q1)) m) in *.
      assert (PW : 0 <= (1 - kb * kb) ^ n <= 1) by (apply pow_01; lra).
      assert (HB1 : 0 < b1 0%nat \/ b1 1%nat <> 0).
      { destruct (Rle_lt_dec (b1 0%nat) 0) as [L|L]; [right|left; exact L]. intros E. rewrite E in F1. assert (X : b1 0%nat = - r) by nra.
        rewrite X in B1.
        assert (C : (1 - kb * kb) ^ n * (r - b 0%nat) <= r - b 0%nat). { rewrite <- (Rmult_1_l (r - b 0%nat)) at 2. apply Rmult_le_compat_r; [|lra]. nra. }
        assert (Y : b 0%nat <= - r) by lra. destruct HB as [HB|HB]; [lra|]. apply HB. apply sqr0. nra. }
      replace (sqrt (b1 0%nat * b1 0%nat + b1 1%nat * b1 1%nat)) with r in R by (rewrite F1; symmetry; apply sqrt_square; lra).
      destruct (aq_update (Some gx) (Some gy) (Some gz) ax ay az mx my mz s1) as [s' o] eqn:US. destruct R as (_ & R2). destruct (R2 NM HB1) as (-> & A' & K' & q' & M' & U' & Z & HD).
      exists s', q'. split; [eapply run_S; [exact RUN|exact US]|]. split; [exact M'|]. split; [exact A'|]. split; [exact K'|]. rewrite (qnormalized_unit q' U').
      split; [rewrite Z, (Lv a) by lia; exact G1|]. split; [rewrite Z, (Lv m) by lia; exact Z1|]. cbn [pow]. apply Rle_trans with (1 := HD). rewrite Rmult_assoc. apply Rmult_le_compat_l; lra. }
  destruct GEN as (s' & q' & RUN & M' & _ & _ & G' & Z' & B'). exists s', q'. split; [exact RUN|]. split; [exact M'|]. split; [exact G'|]. split; [exact Z'|]. split; [|exact B'].
  pose proof (FR q' (ms_norm _ _ _ _ _ _ _ _ _ M') Z') as F. cbv zeta in F. nra.
Qed.

Lemma qmul_1_l c : qmul qone c = c.
Proof. destruct c as [w x y z]. unfold qmul, qone. cbn [Qw Qx Qy Qz]. f_equal; ring. Qed.
Lemma qone_unit : unitq qone.
Proof. unfold unitq, qnorm2, qone. cbn. ring. Qed.
Lemma qrot_one u i : (i < 3)%nat -> qrot (qconj qone) u i = u i.
Proof. intros Hi. do 3 (destruct i as [|i]; [cbn; ring|]). lia. Qed.
Lemma still_ex_h : exists s s' : Aqua (A := RX), marg_state s default_config default_config default_config qone (1 / 100) (9 / 10) (1 / 2) (9 / 10) /\
  aq_adaptive s = false /\ aq_alpha s = Some (1 / 3) /\ rnorm 3 (triple (3 / 5) 0 (- (4 / 5))) = 1 /\
  qrot (qconj (qnormalized qone)) (triple (3 / 5) 0 (- (4 / 5))) 2%nat < 0 /\
  measures Gyr (default_config (A := RX)) (Some 0) (Some 0) (Some 0) (triple 0 0 0) /\
  measures Acc (default_config (A := RX)) (Some (3 / 5)) (Some 0) (Some (- (4 / 5))) (triple (3 / 5) 0 (- (4 / 5))) /\
  measures Mag (default_config (A := RX)) (Some 0) (Some 1) (Some 0) (triple 0 1 0) /\
  aq_run (Some 0) (Some 0) (Some 0) (Some (3 / 5)) (Some 0) (Some (- (4 / 5))) (Some 0) (Some 1) (Some 0) 1 s s'.
Proof.
  destruct (started_marg qone (1 / 100) (1 / 3) (9 / 10) (1 / 2) (9 / 10)) as (s & M & EA & EK); try lra; [rewrite (unit_norm _ qone_unit); lra|].
  assert (NA : rnorm 3 (triple (3 / 5) 0 (- (4 / 5))) = 1).
  { unfold rnorm; rewrite rdot3; cbn [triple]. replace (3 / 5 * (3 / 5) + 0 * 0 + - (4 / 5) * - (4 / 5)) with 1 by field. apply sqrt_1. }
  assert (NM : rnorm 3 (triple 0 1 0) = 1).
  { unfold rnorm; rewrite rdot3; cbn [triple]. replace (0 * 0 + 1 * 1 + 0 * 0) with 1 by ring. apply sqrt_1. }
  assert (GK : gain_for s 1 (1 / 3)) by (unfold gain_for; rewrite EA; exact EK).
  destruct (l_marg s _ _ _ _ _ _ _ _ _ _ _ _ (triple 0 0 0) (triple (3 / 5) 0 (- (4 / 5))) (triple 0 1 0) qone (1 / 100) (1 / 3) (9 / 10) (1 / 2) (9 / 10) M GK ltac:(lra)
    (measures_default Gyr 0 0 0) (measures_default Acc (3 / 5) 0 (- (4 / 5))) (measures_default Mag 0 1 0) NA) as (c & Up & _ & _ & Dir & R).
  cbv zeta in Up, Dir, R. rewrite predicted_still, (qnormalized_unit _ qone_unit), !qmul_1_l in Up, Dir, R by (intros i Hi; do 3 (destruct i as [|i]; [reflexivity|]); lia).
  rewrite !qrot_one in Dir by lia. cbn [triple] in Dir. destruct Dir as (Cz & Cx & _); [lra|]. assert (X0 : Qx c = 0) by lra.
  assert (B1 : qrot (qconj c) (triple 0 1 0) 1%nat <> 0).
  { destruct c as [cw cx cy cz]. cbn [Qx Qz] in *. subst cx cz. unfold unitq, qnorm2 in Up. cbn [Qw Qx Qy Qz] in Up. rewrite qrc1. cbn [triple]. nra. }
  destruct (aq_update _ _ _ _ _ _ _ _ _ s) as [s' o] eqn:US. destruct R as (_ & _ & R1 & _). destruct R1 as (-> & _); [lra|right; exact B1|].
  exists s, s'. split; [exact M|]. split; [exact EA|]. split; [exact EK|]. split; [exact NA|]. split; [rewrite (qnormalized_unit _ qone_unit), qrot_one by lia; cbn [triple]; lra|].
  do 3 (split; [apply measures_default|]). eapply run_S; [constructor|exact US].
Qed.
(*@ example *)
(** a filter, measurements and a run meeting the hypotheses of C57_tilt *)
Example C57_example : exists s s' : Aqua (A := RX), marg_state s default_config default_config default_config qone (1 / 100) (9 / 10) (1 / 2) (9 / 10) /\
  aq_adaptive s = false /\ aq_alpha s = Some (1 / 3) /\ rnorm 3 (triple (3 / 5) 0 (- (4 / 5))) = 1 /\
  qrot (qconj (qnormalized qone)) (triple (3 / 5) 0 (- (4 / 5))) 2%nat < 0 /\
  measures Gyr (default_config (A := RX)) (Some 0) (Some 0) (Some 0) (triple 0 0 0) /\
  measures Acc (default_config (A := RX)) (Some (3 / 5)) (Some 0) (Some (- (4 / 5))) (triple (3 / 5) 0 (- (4 / 5))) /\
  measures Mag (default_config (A := RX)) (Some 0) (Some 1) (Some 0) (triple 0 1 0) /\
  aq_run (Some 0) (Some 0) (Some 0) (Some (3 / 5)) (Some 0) (Some (- (4 / 5))) (Some 0) (Some 1) (Some 0) 1 s s'.
Proof. exact still_ex_h. Qed.
Lemma still_ex_heading_h : exists s : Aqua (A := RX), marg_state s default_config default_config default_config qone (1 / 100) (9 / 10) (1 / 2) (9 / 10) /\
  aq_adaptive s = false /\ aq_alpha s = Some (1 / 3) /\ rnorm 3 (triple 0 0 (-1)) = 1 /\ 1 / 10000 < rnorm 3 (triple 1 2 2) /\
  qrot (qconj (qnormalized qone)) (triple 0 0 (-1)) 2%nat = -1 /\ 0 < qrot (qconj (qnormalized qone)) (triple 1 2 2) 0%nat /\
  measures Gyr (default_config (A := RX)) (Some 0) (Some 0) (Some 0) (triple 0 0 0) /\
  measures Acc (default_config (A := RX)) (Some 0) (Some 0) (Some (-1)) (triple 0 0 (-1)) /\
  measures Mag (default_config (A := RX)) (Some 1) (Some 2) (Some 2) (triple 1 2 2).
Proof.
  destruct (started_marg qone (1 / 100) (1 / 3) (9 / 10) (1 / 2) (9 / 10)) as (s & M & EA & EK); try lra; [rewrite (unit_norm _ qone_unit); lra|].
  exists s. split; [exact M|]. split; [exact EA|]. split; [exact EK|]. rewrite (qnormalized_unit _ qone_unit), !qrot_one by lia. unfold rnorm; rewrite !rdot3; cbn [triple].
  split; [replace (0 * 0 + 0 * 0 + -1 * -1) with 1 by ring; apply sqrt_1|]. split; [replace (1 * 1 + 2 * 2 + 2 * 2) with (3 * 3) by ring; rewrite sqrt_square; lra|].
  split; [reflexivity|]. split; [lra|]. do 2 (split; [apply measures_default|]). apply measures_default.
Qed.
(*@ example *)
(** a filter and measurements meeting the hypotheses of C57_heading *)
Example C57_example_heading : exists s : Aqua (A := RX), marg_state s default_config default_config default_config qone (1 / 100) (9 / 10) (1 / 2) (9 / 10) /\
  aq_adaptive s = false /\ aq_alpha s = Some (1 / 3) /\ rnorm 3 (triple 0 0 (-1)) = 1 /\ 1 / 10000 < rnorm 3 (triple 1 2 2) /\
  qrot (qconj (qnormalized qone)) (triple 0 0 (-1)) 2%nat = -1 /\ 0 < qrot (qconj (qnormalized qone)) (triple 1 2 2) 0%nat /\
  measures Gyr (default_config (A := RX)) (Some 0) (Some 0) (Some 0) (triple 0 0 0) /\
  measures Acc (default_config (A := RX)) (Some 0) (Some 0) (Some (-1)) (triple 0 0 (-1)) /\
  measures Mag (default_config (A := RX)) (Some 1) (Some 2) (Some 2) (triple 1 2 2).
Proof. exact still_ex_heading_h. Qed.
