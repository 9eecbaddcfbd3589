(** C58: the Aqua filter in mode MARG uses the acceleration as measured, without normalising it. *)
(*@+*)
From Coq Require Import List Arith ZArith NArith Reals Lia Bool Lra.
From Flocq Require Import Core.
From Verif Require Import M_Base M_Arith M_Utils M_Vector M_Matrix M_Quaternion M_Sensors M_Ar M_Aqua M_RX
  S_Spec S_Linalg S_Norm S_Quat S_Sensors S_Ar S_Aqua S_AquaM P_Inst.
Import ListNotations.
Local Open Scope R_scope.
(*@-*)
From Verif Require Import P_Hoare P_Cont P_Loops P_Access P_Pointwise P_Trans P_Product P_Diag P_Quat P_Rot P_Norm P_Dcm P_Sensors P_Ar P_Interp P_Aqua P_ArR P_AquaR P_AquaM P_AquaN.

(** the straight interpolation with a quaternion that need not be of norm one *)
Lemma interp_lerp mq c k t : quat_r mq c -> 0 <= k <= 1 -> 0 <= t < Qw c -> t <= 1 -> / 2 < Qw c -> let d := blend (1 - k) k c in
  exists v, aq_interpolate (A := RX) mq (Some k) (Some t) = Ok v /\ quat_r v (qscale (/ qnorm d) d) /\ / 2 <= qnorm d /\ unitq (qscale (/ qnorm d) d).
Proof.
  intros Hq K T T1 C d. unfold aq_interpolate. rewrite in_range_RX by lra. cbn [negb].
  destruct (identity_q (A := RX)) as (i & -> & Hi). cbn [rbind]. unfold exec at 1.
  destruct (v_init_new (A := RX) 4 ltac:(lia)) as (s0 & -> & H0). cbn [rbind]. unfold q_get_qw. rewrite (q_get_is _ _ _ Hq) by lia. cbn [rbind qf quad].
  assert (Hi' : vec_r i 4 (qf qone)). { eapply vec_is_ext; [exact Hi|]. intros j Hj. rewrite f0_RX, f1_RX. do 4 (destruct j as [|j]; [reflexivity|]). lia. }
  assert (Hs : vec_r s0 4 (fun _ => 0)). { eapply vec_is_ext; [exact H0|]. intros j Hj. exact f0_RX. }
  cbn [fltb RX rxcmp]. rewrite Rlt_bool_true by lra.
  destruct (l_lerp s0 i mq 4 _ _ _ k Hs Hi' Hq K) as (u & Eu & Hu).
  rewrite (exec_step _ _ _ _ Eu). unfold exec.
  assert (Hu' : quat_r u d). { eapply vec_is_ext; [exact Hu|]. intros j Hj. cbv beta. apply (f_equal (@Some R)). unfold d. do 4 (destruct j as [|j]; [cbn; ring|]). lia. }
  assert (NP : / 2 <= qnorm d).
  { unfold qnorm. rewrite <- (sqrt_square (/ 2)) by lra. apply sqrt_le_1_alt. unfold d, qnorm2, blend. cbn [Qw Qx Qy Qz].
    assert (/ 2 <= 1 - k + k * Qw c) by nra. assert (0 <= (k * Qx c) * (k * Qx c)) by nra. assert (0 <= (k * Qy c) * (k * Qy c)) by nra. assert (0 <= (k * Qz c) * (k * Qz c)) by nra.
    assert (/ 2 * / 2 <= (1 - k + k * Qw c) * (1 - k + k * Qw c)) by (apply Rmult_le_compat; lra). lra. }
  destruct (quat_normalize_r u _ Hu') as (v & -> & Hv); [unfold eps; lra|]. las.
  exists v. split; [reflexivity|]. split; [exact Hv|]. split; [exact NP|].
  unfold unitq. transitivity (/ qnorm d * / qnorm d * (qnorm d * qnorm d)); [rewrite qnorm_sqr; unfold qnorm2, qscale; cbn [Qw Qx Qy Qz]; ring|]. field. lra.
Qed.
(** the interpolation along the arc fails if the scalar part is below -1 *)
Lemma interp_nan mq c k t : quat_r mq c -> 0 <= k <= 1 -> 0 <= t <= 1 -> Qw c < -1 ->
  aq_interpolate (A := RX) mq (Some k) (Some t) = Err (LinErr (UtilsErr Nan)).
Proof.
  intros Hq K T C. unfold aq_interpolate. rewrite in_range_RX by lra. cbn [negb].
  destruct (identity_q (A := RX)) as (i & -> & Hi). cbn [rbind]. unfold exec at 1.
  destruct (v_init_new (A := RX) 4 ltac:(lia)) as (s0 & -> & H0). cbn [rbind]. unfold q_get_qw. rewrite (q_get_is _ _ _ Hq) by lia. cbn [rbind qf quad].
  assert (Hi' : vec_r i 4 (qf qone)). { eapply vec_is_ext; [exact Hi|]. intros j Hj. rewrite f0_RX, f1_RX. do 4 (destruct j as [|j]; [reflexivity|]). lia. }
  assert (Hs : vec_r s0 4 (fun _ => 0)). { eapply vec_is_ext; [exact H0|]. intros j Hj. exact f0_RX. }
  cbn [fltb RX rxcmp]. rewrite Rlt_bool_false by lra.
  assert (E : v_slerp (A := RX) i mq (Some k) s0 = (s0, Err (UtilsErr Nan))).
  { destruct (slerp_prefix (A := RX) s0 i mq 4 _ _ _ (Some k) Hs Hi' Hq (in_range_RX _ K)) as (x & y & Hx & Hy & ->).
    assert (Eth : facos (Arith := RX) (fsum (A := RX) 4 (fun j => fmul (Arith := RX) (Some (qf qone j)) (Some (qf c j)))) = None).
    { change (fun j => fmul (Arith := RX) (Some (qf qone j)) (Some (qf c j))) with (fun j => Some (qf qone j * qf c j)%R). rewrite fsum_RX. cbn.
      unfold in_unit. rewrite (Rle_bool_false (- (1))) by (cbn; lra). reflexivity. }
    rewrite Eth. eapply (combine_bad1 s0 x y 4 _ _ _ 0%nat Nan); try (intros; lia); try exact Hx. reflexivity. }
  unfold exec. rewrite E. reflexivity.
Qed.

(*@ C58_scaled *)
(** C58: mode MARG in exact arithmetic with an acceleration of any norm above EPSILON.  If the predicted
    gravity g has a negative z component and the half-angle sqrt((1 - g_z)/2) computed from it is above the
    threshold, the tilt correction is a turn about a horizontal axis perpendicular to g
    that lowers (never raises) the z component of g; what is left of the horizontal part is given by a
    formula that depends on the norm of the acceleration, and with gain 1 it is zero exactly when the norm is 1
    or g is vertical. *)
Lemma l_scaled :
  forall (s : Aqua (A := RX)) (cg ca cm : Config (A := RX)) (gx gy gz ax ay az mx my mz : T (Arith := RX)) (w a m : nat -> R)
    (q : quat) (ts k ta kb tm : R),
  marg_state s cg ca cm q ts ta kb tm -> gain_for s (rnorm 3 a) k -> 0 <= k <= 1 ->
  measures Gyr cg gx gy gz w -> measures Acc ca ax ay az a -> measures Mag cm mx my mz m -> 1 / 10000 < rnorm 3 a ->
  let qh := predicted q w ts in
  let g := qrot (qconj qh) a in
  let l := sqrt ((1 - g 2%nat) / 2) in
  g 2%nat < 0 -> ta < l ->
  let h := g 0%nat * g 0%nat + g 1%nat * g 1%nat in let x := 1 - k + k * l in let y := k / (2 * l) in
  exists c : quat, let p := qmul qh c in let ga := qrot (qconj p) a in let b := qrot (qconj p) m in
    unitq p /\ Qz c = 0 /\ Qx c * g 0%nat + Qy c * g 1%nat = 0 /\
    (forall i, (i < 2)%nat -> (x * x + y * y * h) * ga i = (x * x - y * y * h + 2 * x * y * g 2%nat) * g i) /\
    (x * x + y * y * h) * ga 2%nat = (x * x - y * y * h) * g 2%nat - 2 * x * y * h /\
    ga 2%nat <= g 2%nat /\ (0 < k -> 0 < h -> ga 2%nat < g 2%nat) /\
    (k = 1 -> 0 < h -> (ga 0%nat = 0 /\ ga 1%nat = 0 <-> rnorm 3 a = 1)) /\
    let (s', o) := aq_update (Some gx) (Some gy) (Some gz) ax ay az mx my mz s in
    (1 / 10000 < rnorm 3 m -> 0 < b 0%nat \/ b 1%nat <> 0 ->
       o = Ok tt /\ exists q', marg_state s' cg ca cm q' ts ta kb tm /\ unitq q' /\ forall u, qrot (qconj q') u 2%nat = qrot (qconj p) u 2%nat) /\
    (rnorm 3 m <= 1 / 10000 \/ (b 0%nat <= 0 /\ b 1%nat = 0) ->
       (exists e, o = Err e /\ is_utils e) /\ marg_state s' cg ca cm p ts ta kb tm).
Proof.
  intros s cg ca cm gx gy gz ax ay az mx my mz w a m q ts k ta kb tm M Hk K Hw Ha Hm NA qh g l G2 TL h x y.
  destruct (marg_any s cg ca cm gx gy gz ax ay az mx my mz w a m q ts k ta kb tm M Hk K Hw Ha Hm NA) as [R _].
  fold qh in R. fold g in R. set (c := qacc (g 0%nat) (g 1%nat) (g 2%nat)) in *.
  destruct (predicted_unit q w ts) as [Uh _]; [pose proof (ms_norm _ _ _ _ _ _ _ _ _ M); lra|]. fold qh in Uh.
  assert (PL : / 2 < l). { unfold l. rewrite <- (sqrt_square (/ 2)) by lra. apply sqrt_lt_1_alt. lra. }
  assert (L2 : l * l = (1 - g 2%nat) / 2) by (apply sqrt_sqrt; lra).
  assert (Ec : c = Quat l (g 1%nat / (2 * l)) (- g 0%nat / (2 * l)) 0) by (unfold c, qacc; rewrite Rlt_bool_true by exact G2; reflexivity).
  assert (NG : h + g 2%nat * g 2%nat = rnorm 3 a * rnorm 3 a).
  { rewrite rnorm_sqr, <- (qrot_dot qh a a Uh), rdot3. reflexivity. }
  set (d := blend (1 - k) k c) in *.
  assert (Ed : d = Quat x (y * g 1%nat) (- (y * g 0%nat)) 0). { unfold d, blend. rewrite Ec. cbn [Qw Qx Qy Qz]. unfold x, y. f_equal; field; lra. }
  destruct (R (fun e => e = qscale (/ qnorm d) d /\ / 2 <= qnorm d)) as (e & _ & (-> & ND) & Up & RR); [|clear R].
  { pose proof (ms_ta _ _ _ _ _ _ _ _ _ M) as TA. intros aq Haq. destruct (interp_lerp aq c k ta Haq K) as (ai & E & Hai & NP & U); [rewrite Ec; cbn [Qw]; lra|lra|rewrite Ec; exact PL|].
    exists ai, (qscale (/ qnorm d) d). split; [exact E|]. split; [exact Hai|]. split; [exact U|]. split; [reflexivity|exact NP]. }
  set (e := qscale (/ qnorm d) d) in *. exists e. cbv zeta. set (p := qmul qh e) in *. split; [exact Up|].
  set (n := qnorm d) in *.
  assert (Ee : e = Quat (x / n) (y * g 1%nat / n) (- (y * g 0%nat) / n) 0). { unfold e. rewrite Ed. unfold qscale. cbn [Qw Qx Qy Qz]. f_equal; field; lra. }
  split; [rewrite Ee; reflexivity|]. split; [rewrite Ee; cbn [Qx Qy]; field; lra|].
  assert (N2 : n * n = x * x + y * y * h). { unfold n. rewrite qnorm_sqr, Ed. unfold qnorm2, h. cbn [Qw Qx Qy Qz]. ring. }
  assert (EG : forall i, (i < 3)%nat -> qrot (qconj p) a i = qrot (qconj e) g i) by (intros i Hi; apply qrot_mul_conj; exact Hi).
  assert (XY : forall i, (i < 2)%nat -> (x * x + y * y * h) * qrot (qconj p) a i = (x * x - y * y * h + 2 * x * y * g 2%nat) * g i).
  { intros i Hi. rewrite EG by lia. rewrite <- N2, Ee. unfold h. destruct i as [|[|i]]; [rewrite qrc0|rewrite qrc1|lia]; field; lra. }
  assert (ZZ : (x * x + y * y * h) * qrot (qconj p) a 2%nat = (x * x - y * y * h) * g 2%nat - 2 * x * y * h).
  { rewrite EG by lia. rewrite <- N2, Ee, qrc2. unfold h. field. lra. }
  assert (NN : / 4 <= x * x + y * y * h) by (rewrite <- N2; nra).
  assert (H0 : 0 <= h) by (unfold h; nra). assert (Y0 : 0 <= y) by (unfold y; apply Rmult_le_pos; [lra|apply Rlt_le, Rinv_0_lt_compat; lra]).
  assert (PX : 0 < x + y * g 2%nat).
  { replace (x + y * g 2%nat) with (1 - k + k * (1 / (2 * l))).
    - assert (0 < 1 / (2 * l)) by (apply Rdiv_lt_0_compat; lra). nra.
    - unfold x, y. transitivity (1 - k + k * ((2 * (l * l) + g 2%nat) / (2 * l))); [rewrite L2; field; lra|field; lra]. }
  split; [exact XY|]. split; [exact ZZ|].
  assert (DZ : (x * x + y * y * h) * (g 2%nat - qrot (qconj p) a 2%nat) = 2 * (y * h * (x + y * g 2%nat))) by (rewrite Rmult_minus_distr_l, ZZ; ring).
  split.
  { assert (0 <= y * h * (x + y * g 2%nat)) by (apply Rmult_le_pos; [apply Rmult_le_pos; lra|lra]). apply Rnot_lt_le. intros C. nra. }
  split.
  { intros KP HP. assert (0 < y) by (apply Rdiv_lt_0_compat; lra). assert (0 < y * h * (x + y * g 2%nat)) by (apply Rmult_lt_0_compat; [apply Rmult_lt_0_compat; lra|lra]). apply Rnot_le_lt. intros C. nra. }
  split.
  { intros -> HP. assert (X1 : x * x - y * y * h + 2 * x * y * g 2%nat = (1 - rnorm 3 a * rnorm 3 a) / (4 * (l * l))).
    { replace (x * x) with (l * l) by (unfold x; ring). transitivity (((2 * (l * l)) * (2 * (l * l)) - h + (2 * (l * l)) * 2 * g 2%nat) / (4 * (l * l))).
      - unfold x, y. field. lra.
      - rewrite <- NG. f_equal. rewrite L2. field. }
    assert (L4 : 0 < / (4 * (l * l))) by (apply Rinv_0_lt_compat; nra).
    pose proof (XY 0%nat ltac:(lia)) as X0. pose proof (XY 1%nat ltac:(lia)) as Y1. rewrite X1 in X0, Y1. split.
    - intros [E0 E1]. rewrite E0, Rmult_0_r in X0. rewrite E1, Rmult_0_r in Y1.
      assert (F : (1 - rnorm 3 a * rnorm 3 a) / (4 * (l * l)) = 0).
      { destruct (Req_dec (g 0%nat) 0) as [Z|Z]; [destruct (Req_dec (g 1%nat) 0) as [Z1|Z1]|].
        - exfalso. unfold h in HP. rewrite Z, Z1 in HP. lra.
        - symmetry in Y1. destruct (Rmult_integral _ _ Y1); [assumption|contradiction].
        - symmetry in X0. destruct (Rmult_integral _ _ X0); [assumption|contradiction]. }
      unfold Rdiv in F. destruct (Rmult_integral _ _ F); [|lra]. nra.
    - intros E. rewrite E in X0, Y1. replace ((1 - 1 * 1) / (4 * (l * l))) with 0 in X0, Y1 by (field; lra). rewrite Rmult_0_l in X0, Y1.
      split; [destruct (Rmult_integral _ _ X0); [lra|assumption]|destruct (Rmult_integral _ _ Y1); [lra|assumption]]. }
  destruct (aq_update _ _ _ _ _ _ _ _ _ s) as [s' o]. destruct RR as (_ & _ & R1 & R2). split; [|exact R2].
  intros Lm HB. destruct (R1 Lm HB) as (Eo & q' & MS & U' & _ & Z & _). split; [exact Eo|]. exists q'. auto.
Qed.

(*@ C58_fails *)
(** C58: with a strong acceleration (far from norm one) whose predicted z component is not negative and whose
    predicted y component is below -sqrt(2 (1 + g_z)), every update fails with a NaN error and leaves the attitude as it was. *)
Lemma l_strong_fails :
  forall (s : Aqua (A := RX)) (cg ca cm : Config (A := RX)) (gx gy gz ax ay az mx my mz : T (Arith := RX)) (w a m : nat -> R)
    (q : quat) (ts k ta kb tm : R),
  marg_state s cg ca cm q ts ta kb tm -> gain_for s (rnorm 3 a) k -> 0 <= k <= 1 ->
  measures Gyr cg gx gy gz w -> measures Acc ca ax ay az a -> measures Mag cm mx my mz m ->
  let g := qrot (qconj (predicted q w ts)) a in
  0 <= g 2%nat -> g 1%nat < - sqrt (2 * (1 + g 2%nat)) ->
  let (s', o) := aq_update (Some gx) (Some gy) (Some gz) ax ay az mx my mz s in
  o = Err (LinErr (UtilsErr Nan)) /\ aq_attitude s' = aq_attitude s.
Proof.
  intros s cg ca cm gx gy gz ax ay az mx my mz w a m q ts k ta kb tm M Hk K Hw Ha Hm g G2 G1.
  destruct (predicted_unit q w ts) as [Uh _]; [pose proof (ms_norm _ _ _ _ _ _ _ _ _ M); lra|].
  assert (SP : 0 < sqrt (2 * (1 + g 2%nat))) by (apply sqrt_lt_R0; lra). assert (SS : sqrt (2 * (1 + g 2%nat)) * sqrt (2 * (1 + g 2%nat)) = 2 * (1 + g 2%nat)) by (apply sqrt_sqrt; lra).
  assert (NA : 1 / 10000 < rnorm 3 a).
  { unfold rnorm. rewrite <- (qrot_dot _ a a Uh), rdot3. fold g. apply Rlt_le_trans with (sqrt 1); [rewrite sqrt_1; lra|]. apply sqrt_le_1_alt. nra. }
  destruct (marg_any s cg ca cm gx gy gz ax ay az mx my mz w a m q ts k ta kb tm M Hk K Hw Ha Hm NA) as [_ R]. fold g in R.
  specialize (R (fun e => e = LinErr (UtilsErr Nan))). destruct (aq_update _ _ _ _ _ _ _ _ _ s) as [s' o].
  destruct R as (_ & _ & EA & _ & e & -> & ->); [|auto].
  intros aq Haq. eexists. split; [|reflexivity]. apply (interp_nan aq _ k ta Haq K); [pose proof (ms_ta _ _ _ _ _ _ _ _ _ M); lra|].
  unfold qacc. rewrite Rlt_bool_false by exact G2. cbn [Qw]. set (l := sqrt ((1 + g 2%nat) / 2)). assert (P : 0 < l) by (apply sqrt_lt_R0; lra).
  assert (E : sqrt (2 * (1 + g 2%nat)) = 2 * l).
  { unfold l. replace (2 * (1 + g 2%nat)) with ((2 * 2) * ((1 + g 2%nat) / 2)) by field. rewrite sqrt_mult by lra. rewrite sqrt_square by lra. reflexivity. }
  rewrite E in G1. apply Rmult_lt_reg_r with (2 * l); [lra|]. unfold Rdiv. rewrite Rmult_assoc, Rinv_l by lra. lra.
Qed.

Lemma default_marg k kb : 0 <= kb <= 1 -> exists s : Aqua (A := RX),
  marg_state s default_config default_config default_config qone (1 / 100) (9 / 10) kb (9 / 10) /\ aq_adaptive s = false /\ aq_alpha s = Some k.
Proof. intros KB. apply started_marg; try lra. rewrite (unit_norm _ qone_unit); lra. Qed.
Lemma still_one : predicted qone (triple 0 0 0) (1 / 100) = qone.
Proof. rewrite predicted_still; [apply qnormalized_unit, qone_unit|]. intros i Hi. do 3 (destruct i as [|i]; [reflexivity|]). lia. Qed.

(*@ C58_gravity_refuted *)
(** C58: a sensor that reports m/s^2, at rest on its side: every update of a filter started with the identity
    fails with a NaN error, whatever the magnetometer measures and whatever the gain. *)
Lemma l_gravity_fails :
  exists a : R, a = - (981 / 100) /\ forall k kb : R, 0 <= k <= 1 -> 0 <= kb <= 1 ->
  exists s : Aqua (A := RX), marg_state s default_config default_config default_config qone (1 / 100) (9 / 10) kb (9 / 10) /\ aq_alpha s = Some k /\
  forall mx my mz : R, let (s', o) := aq_update (A := RX) (Some (Some 0)) (Some (Some 0)) (Some (Some 0)) (Some 0) (Some a) (Some 0) (Some mx) (Some my) (Some mz) s in
  o = Err (LinErr (UtilsErr Nan)) /\ aq_attitude s' = aq_attitude s.
Proof.
  exists (- (981 / 100)). split; [reflexivity|]. intros k kb K KB. destruct (default_marg k kb KB) as (s & M & EA & EK).
  exists s. split; [exact M|]. split; [exact EK|]. intros mx my mz.
  apply (l_strong_fails s _ _ _ _ _ _ _ _ _ _ _ _ (triple 0 0 0) (triple 0 (- (981 / 100)) 0) (triple mx my mz) _ _ k _ _ _ M); try apply measures_default; try assumption.
  - unfold gain_for. rewrite EA. exact EK.
  - rewrite still_one, qrot_one by lia. cbn [triple]. lra.
  - rewrite still_one, !qrot_one by lia. cbn [triple]. replace (2 * (1 + 0)) with 2 by ring. assert (sqrt 2 < 2); [|lra]. rewrite <- (sqrt_square 2) at 2 by lra. apply sqrt_lt_1_alt. lra.
Qed.

(*@ C58_level_refuted *)
(** C58: with a sensor that reports m/s^2, even gain 1 does not level the attitude in one update (with an
    acceleration of norm one it does, C56). *)
Lemma l_gravity_not_level :
  exists s : Aqua (A := RX), marg_state s default_config default_config default_config qone (1 / 100) (9 / 10) (1 / 2) (9 / 10) /\ aq_adaptive s = false /\ aq_alpha s = Some 1 /\
  let a := triple (981 / 100 * (3 / 5)) 0 (- (981 / 100 * (4 / 5))) in rnorm 3 a = 981 / 100 /\
  forall mx my mz : R, exists q', marg_state (fst (aq_update (A := RX) (Some (Some 0)) (Some (Some 0)) (Some (Some 0))
      (Some (981 / 100 * (3 / 5))) (Some 0) (Some (- (981 / 100 * (4 / 5)))) (Some mx) (Some my) (Some mz) s))
      default_config default_config default_config q' (1 / 100) (9 / 10) (1 / 2) (9 / 10) /\
    unitq q' /\ - (981 / 100) < qrot (qconj q') a 2%nat.
Proof.
  destruct (default_marg 1 (1 / 2) ltac:(lra)) as (s & M & EA & EK). exists s. split; [exact M|]. split; [exact EA|]. split; [exact EK|]. intros a.
  assert (NA : rnorm 3 a = 981 / 100).
  { unfold a, rnorm; rewrite rdot3; cbn [triple]. replace (981 / 100 * (3 / 5) * (981 / 100 * (3 / 5)) + 0 * 0 + - (981 / 100 * (4 / 5)) * - (981 / 100 * (4 / 5))) with (981 / 100 * (981 / 100)) by field. apply sqrt_square. lra. }
  split; [exact NA|]. intros mx my mz.
  assert (L9 : 9 / 10 < sqrt ((1 - - (981 / 100 * (4 / 5))) / 2)). { rewrite <- (sqrt_square (9 / 10)) by lra. apply sqrt_lt_1_alt. lra. }
  destruct (l_scaled s _ _ _ _ _ _ _ _ _ _ _ _ (triple 0 0 0) a (triple mx my mz) qone (1 / 100) 1 (9 / 10) (1 / 2) (9 / 10) M ltac:(unfold gain_for; rewrite EA; exact EK) ltac:(lra)
    (measures_default Gyr 0 0 0) (measures_default Acc (981 / 100 * (3 / 5)) 0 (- (981 / 100 * (4 / 5)))) (measures_default Mag mx my mz) ltac:(lra)) as (c & Up & _ & _ & _ & _ & _ & _ & F & R);
    [rewrite still_one, qrot_one by lia; unfold a; cbn [triple]; lra|rewrite still_one, qrot_one by lia; unfold a; cbn [triple]; lra|].
  rewrite still_one in Up, F, R. cbv zeta in Up, F, R. set (p := qmul qone c) in *.
  assert (HZ : - (981 / 100) < qrot (qconj p) a 2%nat).
  { specialize (F eq_refl). rewrite !qrot_one in F by lia. specialize (F ltac:(unfold a; cbn [triple]; lra)). rewrite NA in F.
    pose proof (qrot_dot p a a Up) as D. rewrite <- (rnorm_sqr 3 a), NA, rdot3 in D. set (u := qrot (qconj p) a) in *.
    apply Rnot_le_lt. intros C. assert (Z : u 0%nat * u 0%nat + u 1%nat * u 1%nat <= 0) by nra.
    assert (Z0 : u 0%nat = 0) by (apply sqr0; nra). assert (Z1 : u 1%nat = 0) by (apply sqr0; nra). destruct F as [F _]. specialize (F (conj Z0 Z1)). lra. }
  destruct (aq_update _ _ _ _ _ _ _ _ _ s) as [s' o]. cbn [fst]. destruct R as (R1 & R2). set (b := qrot (qconj p) (triple mx my mz)) in *.
  assert (S : 1 / 10000 < rnorm 3 (triple mx my mz) -> 0 < b 0%nat \/ b 1%nat <> 0 -> exists q', marg_state s' default_config default_config default_config q' (1 / 100) (9 / 10) (1 / 2) (9 / 10) /\ unitq q' /\ - (981 / 100) < qrot (qconj q') a 2%nat).
  { intros L H. destruct (R1 L H) as (_ & q' & MS & U' & Z). exists q'. rewrite Z. auto. }
  assert (E : marg_state s' default_config default_config default_config p (1 / 100) (9 / 10) (1 / 2) (9 / 10) -> exists q', marg_state s' default_config default_config default_config q' (1 / 100) (9 / 10) (1 / 2) (9 / 10) /\ unitq q' /\ - (981 / 100) < qrot (qconj q') a 2%nat) by eauto.
  destruct (Rle_lt_dec (rnorm 3 (triple mx my mz)) (1 / 10000)) as [L|L]; [apply E; exact (proj2 (R2 (or_introl L)))|].
  destruct (Rle_lt_dec (b 0%nat) 0) as [L0|L0]; [|apply S; auto].
  destruct (Req_dec (b 1%nat) 0) as [L1|L1]; [apply E; exact (proj2 (R2 (or_intror (conj L0 L1))))|apply S; auto].
Qed.

Lemma scaled_ex_h : exists s : Aqua (A := RX), marg_state s default_config default_config default_config qone (1 / 100) (9 / 10) (1 / 2) (9 / 10) /\
  let a := triple (981 / 100 * (3 / 5)) 0 (- (981 / 100 * (4 / 5))) in gain_for s (rnorm 3 a) (1 / 10) /\
  measures Gyr (default_config (A := RX)) (Some 0) (Some 0) (Some 0) (triple 0 0 0) /\
  measures Acc (default_config (A := RX)) (Some (981 / 100 * (3 / 5))) (Some 0) (Some (- (981 / 100 * (4 / 5)))) a /\
  measures Mag (default_config (A := RX)) (Some 1) (Some 2) (Some 2) (triple 1 2 2) /\ 1 / 10000 < rnorm 3 a /\
  let g := qrot (qconj (predicted qone (triple 0 0 0) (1 / 100))) a in g 2%nat < 0 /\ 9 / 10 < sqrt ((1 - g 2%nat) / 2).
Proof.
  destruct (default_marg (1 / 10) (1 / 2) ltac:(lra)) as (s & M & EA & EK). exists s. split; [exact M|]. intros a. split; [unfold gain_for; rewrite EA; exact EK|].
  do 3 (split; [apply measures_default|]). split.
  { unfold a, rnorm; rewrite rdot3; cbn [triple]. apply Rlt_le_trans with (sqrt 1); [rewrite sqrt_1; lra|apply sqrt_le_1_alt; lra]. }
  cbv zeta. rewrite still_one, qrot_one by lia. unfold a. cbn [triple]. split; [lra|]. rewrite <- (sqrt_square (9 / 10)) by lra. apply sqrt_lt_1_alt. lra.
Qed.
(*@ example *)
(** a filter and measurements meeting the hypotheses of C58_scaled *)
Example C58_example : exists s : Aqua (A := RX), marg_state s default_config default_config default_config qone (1 / 100) (9 / 10) (1 / 2) (9 / 10) /\
  let a := triple (981 / 100 * (3 / 5)) 0 (- (981 / 100 * (4 / 5))) in gain_for s (rnorm 3 a) (1 / 10) /\
  measures Gyr (default_config (A := RX)) (Some 0) (Some 0) (Some 0) (triple 0 0 0) /\
  measures Acc (default_config (A := RX)) (Some (981 / 100 * (3 / 5))) (Some 0) (Some (- (981 / 100 * (4 / 5)))) a /\
  measures Mag (default_config (A := RX)) (Some 1) (Some 2) (Some 2) (triple 1 2 2) /\ 1 / 10000 < rnorm 3 a /\
  let g := qrot (qconj (predicted qone (triple 0 0 0) (1 / 100))) a in g 2%nat < 0 /\ 9 / 10 < sqrt ((1 - g 2%nat) / 2).
Proof. exact scaled_ex_h. Qed.
