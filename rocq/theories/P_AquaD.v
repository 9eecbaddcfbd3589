(** C59: the gyrometer prediction of the Aqua filter in mode MARG, in exact arithmetic. *)
(*@+*)
From Coq Require Import List Arith ZArith NArith Reals Lia Bool Lra.
From Flocq Require Import Core.
From Verif Require Import M_Base M_Arith M_Utils M_Vector M_Matrix M_Quaternion M_Sensors M_Ar M_Aqua M_RX
  S_Spec S_Linalg S_Norm S_Quat S_Sensors S_Ar S_Aqua S_AquaM P_Inst.
Import ListNotations.
Local Open Scope R_scope.
(*@-*)
From Verif Require Import P_Quat P_Rot P_Norm P_Ar P_Aqua P_ArR P_AquaR P_AquaM P_AquaN.

(*@ C59_gyro *)
(** C59: with both correction gains zero an update is the prediction alone, whatever the other sensors
    measure and whether or not the update reports an error. *)
Lemma l_gyro_only :
  forall (s : Aqua (A := RX)) (cg ca cm : Config (A := RX)) (gx gy gz ax ay az mx my mz : T (Arith := RX)) (w a m : nat -> R)
    (q : quat) (ts ta tm : R),
  marg_state s cg ca cm q ts ta 0 tm -> gain_for s 1 0 ->
  measures Gyr cg gx gy gz w -> measures Acc ca ax ay az a -> measures Mag cm mx my mz m -> rnorm 3 a = 1 ->
  marg_state (fst (aq_update (Some gx) (Some gy) (Some gz) ax ay az mx my mz s)) cg ca cm (predicted q w ts) ts ta 0 tm.
Proof.
  intros s cg ca cm gx gy gz ax ay az mx my mz w a m q ts ta tm M GK Hw Ha Hm NA.
  destruct (l_marg s cg ca cm gx gy gz ax ay az mx my mz w a m q ts 0 ta 0 tm M GK ltac:(lra) Hw Ha Hm NA) as (c & _ & Ep & _ & _ & R). cbv zeta in Ep, R.
  rewrite (Ep eq_refl) in R. clear Ep. set (p := predicted q w ts) in *. set (b := qrot (qconj p) m) in *.
  destruct (aq_update _ _ _ _ _ _ _ _ _ s) as [s' o]. cbn [fst]. destruct R as (_ & _ & R1 & R2).
  destruct (Rle_lt_dec (rnorm 3 m) (1 / 10000)) as [L|L]; [exact (proj2 (R2 (or_introl L)))|].
  assert (S : 0 < b 0%nat \/ b 1%nat <> 0 -> marg_state s' cg ca cm p ts ta 0 tm) by (intros H; destruct (R1 L H) as (_ & q' & MS & _ & E & _); rewrite <- (E eq_refl); exact MS).
  destruct (Rle_lt_dec (b 0%nat) 0) as [L0|L0]; [|apply S; left; exact L0].
  destruct (Req_dec (b 1%nat) 0) as [L1|L1]; [exact (proj2 (R2 (or_intror (conj L0 L1))))|apply S; right; exact L1].
Qed.

(** y - y^3/3 <= atan y <= y *)
Lemma atan_bounds y : 0 <= y -> y - y * y * y / 3 <= atan y <= y.
Proof.
  intros Y. destruct (Rle_lt_or_eq_dec 0 y Y) as [P|P]; [|subst y; rewrite atan_0; lra].
  assert (D : forall c, 0 <= c <= y -> derivable_pt_lim atan c (/ (1 + c ^ 2))) by (intros c _; apply derivable_pt_lim_atan).
  destruct (MVT_cor2 atan (fun c => / (1 + c ^ 2)) 0 y P D) as (c & E & C). rewrite atan_0, !Rminus_0_r in E.
  split.
  - assert (D' : forall c, 0 <= c <= y -> derivable_pt_lim (plus_fct (minus_fct atan id) (mult_real_fct (/ 3) (fun x => x ^ 3))) c (/ (1 + c ^ 2) - 1 + / 3 * (INR 3 * c ^ 2))).
    { intros d Hd. apply derivable_pt_lim_plus; [apply derivable_pt_lim_minus; [apply derivable_pt_lim_atan|apply derivable_pt_lim_id]|].
      apply derivable_pt_lim_scal. exact (derivable_pt_lim_pow d 3). }
    destruct (MVT_cor2 _ _ 0 y P D') as (d & E' & C'). unfold plus_fct, minus_fct, mult_real_fct, id in E'. rewrite atan_0 in E'. cbn [pow INR] in E'.
    assert (G : 0 <= / (1 + d * (d * 1)) - 1 + / 3 * ((1 + 1 + 1) * (d * (d * 1)))).
    { replace (/ (1 + d * (d * 1)) - 1 + / 3 * ((1 + 1 + 1) * (d * (d * 1)))) with (d * d * (d * d) * / (1 + d * d)) by (field; nra).
      apply Rmult_le_pos; [nra|]. left. apply Rinv_0_lt_compat. nra. }
    assert (0 <= (/ (1 + d * (d * 1)) - 1 + / 3 * ((1 + 1 + 1) * (d * (d * 1)))) * (y - 0)) by (apply Rmult_le_pos; lra). lra.
  - rewrite E. rewrite <- (Rmult_1_l y) at 2. apply Rmult_le_compat_r; [lra|]. rewrite <- Rinv_1. apply Rinv_le_contravar; [lra|]. cbn [pow]. nra.
Qed.

(*@ C59_turn *)
(** C59: the prediction is a turn about the measured rate, and its angle 2 atan(|w| t / 2) is the angle
    |w| t of the sensor up to a third-order term.  It multiplies the attitude on the right, as in the
    AngularRate filter. *)
Lemma l_predicted_turn :
  forall (q : quat) (w : nat -> R) (t : R), 0 < qnorm q -> 0 < rnorm 3 w -> 0 <= t ->
  let x := rnorm 3 w * t in let a := 2 * atan (x / 2) in
  predicted q w t = qmul (qnormalized q) (turn w (a / rnorm 3 w)) /\ x - x * x * x / 12 <= a <= x.
Proof.
  intros q w t Nq Nw T x a. assert (X : 0 <= x) by (apply Rmult_le_pos; lra). split.
  - assert (E : w 0%nat * w 0%nat + w 1%nat * w 1%nat + w 2%nat * w 2%nat = rnorm 3 w * rnorm 3 w) by (rewrite rnorm_sqr, rdot3; reflexivity).
    unfold turn. rewrite E, sqrt_square by lra. set (n := rnorm 3 w) in *. cbv zeta.
    replace (n * (a / n) / 2) with (atan (x / 2)) by (unfold a; field; lra). rewrite cos_atan, sin_atan. set (d := sqrt (1 + (x / 2)²)).
    assert (PD : 0 < d) by (apply sqrt_lt_R0; unfold Rsqr; nra).
    assert (N : qnorm (qadd q (qscale (t / 2) (qmul q (purer w)))) = qnorm q * d).
    { unfold qnorm at 1. replace (qnorm2 (qadd q (qscale (t / 2) (qmul q (purer w))))) with (qnorm2 q * (1 + (x / 2)²)).
      - rewrite sqrt_mult; [reflexivity| |unfold Rsqr; nra]. unfold qnorm2. nra.
      - unfold Rsqr. replace (x / 2 * (x / 2)) with (t * t / 4 * (n * n)) by (unfold x; field). rewrite <- E. unfold qnorm2, qadd, qscale, qmul, purer. cbn [Qw Qx Qy Qz]. field. }
    unfold predicted, qnormalized at 1. rewrite N. unfold qnormalized. replace (x / 2 / d) with (t / 2 * n / d) by (unfold x; field; lra).
    destruct q as [qw qx qy qz]. unfold qadd, qscale, qmul, purer. cbn [Qw Qx Qy Qz]. f_equal; field; lra.
  - destruct (atan_bounds (x / 2) ltac:(lra)) as [B1 B2]. unfold a. split; lra.
Qed.

(*@ C59_wrong_way_refuted *)
(** C59: the corrections treat the attitude as the rotation from the global to the sensor frame (they aim
    at R(q)^T a = (0, 0, -1)), for which the rate acts on the left with the opposite sign.  So the
    prediction moves the attitude away from the truth: the filter is initialised level, the sensor turns
    about its x axis by the angle whose cosine is 4/5 and the gyrometer reports exactly that turn.
    Without gyrometer the tilt error would be 1 - 4/5 = 1/5; after the update it is 18/25; with the
    opposite rate it would be 0. *)
Lemma l_gyro_wrong_way :
  exists s : Aqua (A := RX), marg_state s default_config default_config default_config qone 1 (9 / 10) 0 (9 / 10) /\ gain_for s 1 0 /\
  let a := triple 0 (- (3 / 5)) (- (4 / 5)) in
  rnorm 3 a = 1 /\ cos (2 * atan (2 / 3 / 2)) = 4 / 5 /\
  (forall i, (i < 3)%nat -> qrot (qconj (turn (triple (2 / 3) 0 0) (2 * atan (2 / 3 / 2) / (2 / 3)))) (triple 0 0 (-1)) i = a i) /\
  1 + qrot (qconj qone) a 2%nat = 1 / 5 /\
  forall mx my mz : R, exists p r : quat,
  marg_state (fst (aq_update (A := RX) (Some (Some (2 / 3))) (Some (Some 0)) (Some (Some 0)) (Some 0) (Some (- (3 / 5))) (Some (- (4 / 5))) (Some mx) (Some my) (Some mz) s))
    default_config default_config default_config p 1 (9 / 10) 0 (9 / 10) /\
  marg_state (fst (aq_update (A := RX) (Some (Some (- (2 / 3)))) (Some (Some 0)) (Some (Some 0)) (Some 0) (Some (- (3 / 5))) (Some (- (4 / 5))) (Some mx) (Some my) (Some mz) s))
    default_config default_config default_config r 1 (9 / 10) 0 (9 / 10) /\
  unitq p /\ unitq r /\ 1 + qrot (qconj p) a 2%nat = 18 / 25 /\ 1 + qrot (qconj r) a 2%nat = 0.
Proof.
  destruct (started_marg qone 1 0 (9 / 10) 0 (9 / 10)) as (s & M & EA & EK); try lra; [rewrite (unit_norm _ qone_unit); lra|].
  assert (GK : gain_for s 1 0) by (unfold gain_for; rewrite EA; exact EK).
  exists s. split; [exact M|]. split; [exact GK|]. intros a.
  assert (NA : rnorm 3 a = 1).
  { unfold a, rnorm; rewrite rdot3; cbn [triple]. replace (0 * 0 + - (3 / 5) * - (3 / 5) + - (4 / 5) * - (4 / 5)) with 1 by field. apply sqrt_1. }
  set (d := sqrt (10 / 9)). assert (PD : 0 < d) by (apply sqrt_lt_R0; lra). assert (D2 : d * d = 10 / 9) by (apply sqrt_sqrt; lra).
  assert (CA : cos (atan (2 / 3 / 2)) = 1 / d) by (rewrite cos_atan; replace (1 + (2 / 3 / 2)²) with (10 / 9) by (unfold Rsqr; field); reflexivity).
  assert (SA : sin (atan (2 / 3 / 2)) = / 3 / d). { rewrite sin_atan. replace (1 + (2 / 3 / 2)²) with (10 / 9) by (unfold Rsqr; field). fold d. field. lra. }
  split; [exact NA|]. split.
  { rewrite cos_2a_cos, CA. replace (2 * (1 / d) * (1 / d) - 1) with (2 / (d * d) - 1) by (field; lra). rewrite D2. field. }
  assert (PT : forall sg, sg * sg = 1 -> predicted qone (triple (sg * (2 / 3)) 0 0) 1 = Quat (1 / d) (sg / 3 / d) 0 0).
  { intros sg SG. unfold predicted, qnormalized. assert (N : qnorm (qadd qone (qscale (1 / 2) (qmul qone (purer (triple (sg * (2 / 3)) 0 0))))) = d).
    { unfold qnorm, d. f_equal. unfold qnorm2, qadd, qscale, qmul, purer, qone. cbn [Qw Qx Qy Qz triple]. transitivity (1 + sg * sg / 9); [field|]. rewrite SG. field. }
    rewrite N. unfold qadd, qscale, qmul, purer, qone. cbn [Qw Qx Qy Qz triple]. f_equal; field; lra. }
  assert (I2 : forall x, x / d / d = x * (9 / 10)) by (intros x; transitivity (x / (d * d)); [field; lra|rewrite D2; field]).
  split.
  { intros i Hi. unfold turn. cbn [triple]. replace (2 / 3 * (2 / 3) + 0 * 0 + 0 * 0) with (2 / 3 * (2 / 3)) by ring. rewrite sqrt_square by lra. cbv zeta.
    replace (2 / 3 * (2 * atan (2 / 3 / 2) / (2 / 3)) / 2) with (atan (2 / 3 / 2)) by field. rewrite CA, SA.
    replace (0 / (2 / 3)) with 0 by field. replace (2 / 3 / (2 / 3)) with 1 by field. rewrite Rmult_0_r, Rmult_1_r.
    destruct i as [|[|[|i]]]; [rewrite qrc0|rewrite qrc1|rewrite qrc2|lia]; unfold a; cbn [triple]; [ring| |].
    - transitivity (-2 / 3 / d / d); [field; lra|]. rewrite I2. field.
    - transitivity (- (8 / 9) / d / d); [field; lra|]. rewrite I2. field. }
  split; [rewrite qrot_one by lia; unfold a; cbn [triple]; field|].
  intros mx my mz. exists (Quat (1 / d) (1 / 3 / d) 0 0), (Quat (1 / d) (-1 / 3 / d) 0 0).
  split; [rewrite <- (PT 1) by ring; rewrite Rmult_1_l; apply (l_gyro_only s _ _ _ _ _ _ _ _ _ _ _ _ _ a (triple mx my mz)); auto using measures_default; apply measures_default|].
  split; [rewrite <- (PT (-1)) by ring; replace (-1 * (2 / 3)) with (- (2 / 3)) by ring; apply (l_gyro_only s _ _ _ _ _ _ _ _ _ _ _ _ _ a (triple mx my mz)); auto using measures_default; apply measures_default|].
  unfold unitq, qnorm2. cbn [Qw Qx Qy Qz]. rewrite !qrc2. unfold a. cbn [triple].
  split; [transitivity (10 / 9 / d / d); [field; lra|rewrite I2; field]|]. split; [transitivity (10 / 9 / d / d); [field; lra|rewrite I2; field]|].
  split; [transitivity (1 + - (14 / 45) / d / d)|transitivity (1 + - (10 / 9) / d / d)]; try (field; lra); rewrite I2; field.
Qed.

Lemma gyro_ex_h : exists s : Aqua (A := RX), marg_state s default_config default_config default_config qone 1 (9 / 10) 0 (9 / 10) /\ gain_for s 1 0 /\
  measures Gyr (default_config (A := RX)) (Some (1 / 10)) (Some 2) (Some 0) (triple (1 / 10) 2 0) /\
  measures Acc (default_config (A := RX)) (Some (3 / 5)) (Some 0) (Some (- (4 / 5))) (triple (3 / 5) 0 (- (4 / 5))) /\
  measures Mag (default_config (A := RX)) (Some 1) (Some 2) (Some 2) (triple 1 2 2) /\ rnorm 3 (triple (3 / 5) 0 (- (4 / 5))) = 1.
Proof.
  destruct (started_marg qone 1 0 (9 / 10) 0 (9 / 10)) as (s & M & EA & EK); try lra; [rewrite (unit_norm _ qone_unit); lra|].
  exists s. split; [exact M|]. split; [unfold gain_for; rewrite EA; exact EK|]. do 3 (split; [apply measures_default|]).
  unfold rnorm; rewrite rdot3; cbn [triple]. replace (3 / 5 * (3 / 5) + 0 * 0 + - (4 / 5) * - (4 / 5)) with 1 by field. apply sqrt_1.
Qed.
(*@ example *)
(** a filter and measurements meeting the hypotheses of C59_gyro *)
Example C59_example : exists s : Aqua (A := RX), marg_state s default_config default_config default_config qone 1 (9 / 10) 0 (9 / 10) /\ gain_for s 1 0 /\
  measures Gyr (default_config (A := RX)) (Some (1 / 10)) (Some 2) (Some 0) (triple (1 / 10) 2 0) /\
  measures Acc (default_config (A := RX)) (Some (3 / 5)) (Some 0) (Some (- (4 / 5))) (triple (3 / 5) 0 (- (4 / 5))) /\
  measures Mag (default_config (A := RX)) (Some 1) (Some 2) (Some 2) (triple 1 2 2) /\ rnorm 3 (triple (3 / 5) 0 (- (4 / 5))) = 1.
Proof. exact gyro_ex_h. Qed.
