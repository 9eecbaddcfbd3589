(** C90 in exact arithmetic: a filter with an adaptive gain converges at rest. *)
(*@+*)
From Coq Require Import List Arith ZArith Reals Lia Bool Lra.
From Verif Require Import M_Base M_Arith M_Utils M_Vector M_Matrix M_Quaternion M_Sensors M_Ar M_Aqua M_RX
  S_Spec S_Linalg S_Norm S_Quat S_Sensors S_Ar S_Aqua S_AquaM S_Twin P_Inst.
Import ListNotations.
Local Open Scope R_scope.
(*@-*)
From Coq Require Import Psatz.
From Flocq Require Import Core.
From Verif Require Import P_Hoare P_Cont P_AquaN P_Quat P_Float P_Norm P_Product P_Dot P_Sensors P_Aqua P_AquaR P_AquaM P_AquaN P_Twin.

Lemma calm_R (s : Aqua (A := RX)) ca gx gy gz ax ay az mx my mz a g t1 t2 : aq_get_accelerometer_config s = Ok ca -> measures Acc ca ax ay az a -> rnorm 3 a = 1 ->
  aq_g s = Some g -> aq_t1 s = Some t1 -> aq_t2 s = Some t2 -> t1 < t2 -> 0 < g -> Rabs (1 - g) <= t1 * g ->
  calm s (QUpdate (A := RX) (Some gx) (Some gy) (Some gz) ax ay az mx my mz).
Proof.
  intros EC HM HN Eg E1 E2 HT Hg HB. cbn [calm]. intros _. rewrite Eg, E1, E2. split; [cbn [fleb RX rxcmp]; apply Rle_bool_false; lra|].
  intros c Ec. rewrite EC in Ec. injection Ec as <-.
  assert (N : acc_norm (A := RX) (corrected Acc ca (raw3 ax ay az) 3) = Some 1).
  { unfold acc_norm. assert (ES : fsum (A := RX) 3 (fun i => fmul (Arith := RX) (corrected Acc ca (raw3 ax ay az) 3 i) (corrected Acc ca (raw3 ax ay az) 3 i)) = Some (rdot 3 a a)).
    { unfold rdot. rewrite <- fsum_RX. apply fsum_ext. intros i Hi. rewrite (HM i Hi). reflexivity. }
    rewrite ES. cbv zeta. cbn [fsqrt RX rx_sqrt]. pose proof (rnorm_sqr 3 a) as SQ. rewrite HN in SQ. rewrite Rlt_bool_false by lra.
    replace (rdot 3 a a) with 1 by lra. rewrite sqrt_1, eps_RX. cbn [fleb RX rxcmp]. unfold eps. rewrite Rle_bool_false by lra. reflexivity. }
  rewrite N. cbn [fleb fabs fdiv fsub RX rx2 rx1 rx_div rxcmp]. rewrite Req_bool_false by lra. cbn [rx1 rxcmp]. apply Rle_bool_true.
  unfold Rdiv. rewrite Rabs_mult, (Rabs_pos_eq (/ g)) by (left; apply Rinv_0_lt_compat; lra). apply Rmult_le_reg_r with g; [lra|]. rewrite Rmult_assoc, Rinv_l by lra. lra.
Qed.

Lemma run_twin_R (s s0 : Aqua (A := RX)) ca gx gy gz ax ay az mx my mz a g t1 t2 : aq_hist s Live -> alike s s0 -> aq_get_accelerometer_config s = Ok ca ->
  measures Acc ca ax ay az a -> rnorm 3 a = 1 -> aq_g s = Some g -> aq_t1 s = Some t1 -> aq_t2 s = Some t2 -> t1 < t2 -> 0 < g -> Rabs (1 - g) <= t1 * g ->
  forall n s0', aq_run gx gy gz ax ay az mx my mz n s0 s0' -> exists s', aq_run gx gy gz ax ay az mx my mz n s s' /\ aq_hist s' Live /\ alike s' s0' /\
    aq_alpha s' = aq_alpha s /\ aq_get_accelerometer_config s' = Ok ca /\ aq_g s' = Some g /\ aq_t1 s' = Some t1 /\ aq_t2 s' = Some t2.
Proof.
  intros H AL EC HM HN Eg E1 E2 HT Hg HB n s0' RN. induction RN as [x|n x x1 x2 RN IH EU].
  - exists s. split; [constructor|]. auto 10.
  - destruct (IH AL) as (s1 & R1 & H1 & AL1 & EA & C1 & G1 & T1 & T2).
    pose proof (calm_R s1 ca gx gy gz ax ay az mx my mz a g t1 t2 C1 HM HN G1 T1 T2 HT Hg HB) as CA. set (call := QUpdate (A := RX) (Some gx) (Some gy) (Some gz) ax ay az mx my mz) in CA.
    pose proof (do_put (aq_adaptive x1) call s1 (aq_hist_inv s1 Live H1) CA) as P. rewrite <- (alike_put s1 x1 AL1) in P. cbn [aq_do call] in P. rewrite EU in P.
    pose proof (alpha_do call s1 (aq_hist_inv s1 Live H1) CA) as PA. cbn [aq_do call] in PA.
    pose proof (hist_do s1 call H1) as H2. cbn [aq_do call] in H2.
    assert (AR : exists z : aq_args (A := RX), True) by (eexists (mkArgs (A := RX) AM None None None None None default_config default_config (Some 0) false (Some 0) (Some 0) (Some 0) (Some 0) (Some 0) (Some 0) None None); exact I). destruct AR as (ar & _).
    pose proof (l_aq_lifecycle RX _ s1 Live H1 ar (Some gx) (Some gy) (Some gz) ax ay az mx my mz default_config) as LC. cbv beta iota in LC. destruct LC as (_ & _ & LC).
    destruct (aq_update (Some gx) (Some gy) (Some gz) ax ay az mx my mz s1) as [s2 o] eqn:E3. unfold lift2 in P. cbn [fst snd] in *. injection P as P1 P2. subst o.
    destruct LC as (_ & SS & (SG & SA & SM) & _). unfold aq_same_settings in SS. decompose [and] SS.
    exists s2. split; [econstructor; [exact R1|exact E3]|]. split; [exact H2|]. split; [rewrite P1; apply put_alike|]. repeat split; congruence.
Qed.

Lemma run_back_R (s s0 : Aqua (A := RX)) ca gx gy gz ax ay az mx my mz a g t1 t2 : aq_hist s Live -> alike s s0 -> aq_get_accelerometer_config s = Ok ca ->
  measures Acc ca ax ay az a -> rnorm 3 a = 1 -> aq_g s = Some g -> aq_t1 s = Some t1 -> aq_t2 s = Some t2 -> t1 < t2 -> 0 < g -> Rabs (1 - g) <= t1 * g ->
  forall n s', aq_run gx gy gz ax ay az mx my mz n s s' -> exists s0', aq_run gx gy gz ax ay az mx my mz n s0 s0' /\ alike s' s0' /\ aq_alpha s' = aq_alpha s /\
    aq_hist s' Live /\ aq_get_accelerometer_config s' = Ok ca /\ aq_g s' = Some g /\ aq_t1 s' = Some t1 /\ aq_t2 s' = Some t2.
Proof.
  intros H AL EC HM HN Eg E1 E2 HT Hg HB n s' RN. induction RN as [x|n x s1 s2 RN IH EU].
  - exists s0. split; [constructor|]. auto 10.
  - destruct (IH H AL EC Eg E1 E2) as (x1 & R1 & AL1 & EA & H1 & C1 & G1 & T1 & T2).
    pose proof (calm_R s1 ca gx gy gz ax ay az mx my mz a g t1 t2 C1 HM HN G1 T1 T2 HT Hg HB) as CA. set (call := QUpdate (A := RX) (Some gx) (Some gy) (Some gz) ax ay az mx my mz) in CA.
    pose proof (do_put (aq_adaptive x1) call s1 (aq_hist_inv s1 Live H1) CA) as P. rewrite <- (alike_put s1 x1 AL1) in P. cbn [aq_do call] in P. rewrite EU in P.
    pose proof (alpha_do call s1 (aq_hist_inv s1 Live H1) CA) as PA. cbn [aq_do call] in PA.
    pose proof (hist_do s1 call H1) as H2. cbn [aq_do call] in H2.
    assert (AR : exists z : aq_args (A := RX), True) by (eexists (mkArgs (A := RX) AM None None None None None default_config default_config (Some 0) false (Some 0) (Some 0) (Some 0) (Some 0) (Some 0) (Some 0) None None); exact I). destruct AR as (ar & _).
    pose proof (l_aq_lifecycle RX _ s1 Live H1 ar (Some gx) (Some gy) (Some gz) ax ay az mx my mz default_config) as LC. cbv beta iota in LC. destruct LC as (_ & _ & LC).
    rewrite EU in *. unfold lift2 in P. cbn [fst snd] in *.
    destruct LC as (_ & SS & (SG & SA & SM) & _). unfold aq_same_settings in SS. decompose [and] SS.
    exists (put_ad (aq_adaptive x1) s2). split; [econstructor; [exact R1|exact P]|]. split; [apply put_alike|]. repeat split; congruence.
Qed.

(*@ C90_tilt *)
(** C90 in exact arithmetic: a filter with an adaptive gain, thresholds in order and a reference g with |1 - g| <= t1 g settles its tilt at rest
    as one with a fixed gain does (C57_tilt), and its gain stays as it was *)
Lemma l_twin_tilt :
  forall (s s0 s' : Aqua (A := RX)) (cg ca cm : Config (A := RX)) (gx gy gz ax ay az mx my mz : T (Arith := RX)) (w a m : nat -> R)
    (q : quat) (ts k ta kb tm g t1 t2 : R) (n : nat),
  aq_hist s Live -> alike s s0 -> aq_g s = Some g -> aq_t1 s = Some t1 -> aq_t2 s = Some t2 -> t1 < t2 -> 0 < g -> Rabs (1 - g) <= t1 * g ->
  marg_state s0 cg ca cm q ts ta kb tm -> aq_adaptive s0 = false -> aq_alpha s0 = Some k -> 0 <= k <= 1 ->
  measures Gyr cg gx gy gz w -> measures Acc ca ax ay az a -> measures Mag cm mx my mz m ->
  (forall i, (i < 3)%nat -> w i = 0) -> rnorm 3 a = 1 ->
  qrot (qconj (qnormalized q)) a 2%nat < 0 ->
  aq_run gx gy gz ax ay az mx my mz n s s' ->
  exists q', marg_state s' cg ca cm q' ts ta kb tm /\ aq_alpha s' = Some k /\
    0 <= 1 + qrot (qconj (qnormalized q')) a 2%nat <= (1 - k * k) ^ n * (1 + qrot (qconj (qnormalized q)) a 2%nat).
Proof.
  intros s s0 s' cg ca cm gx gy gz ax ay az mx my mz w a m q ts k ta kb tm g t1 t2 n H AL Eg E1 E2 HT Hg HB M AD EK HK MG MA MM W0 NA LV RN.
  assert (EC : aq_get_accelerometer_config s = Ok ca) by (pose proof (ms_acc _ _ _ _ _ _ _ _ _ M) as K; unfold aq_get_accelerometer_config in *; destruct AL as (_ & _ & EA & _); rewrite <- EA; exact K).
  destruct (run_back_R s s0 ca gx gy gz ax ay az mx my mz a g t1 t2 H AL EC MA NA Eg E1 E2 HT Hg HB n s' RN) as (s0' & R0 & AL' & EA' & H' & _).
  destruct (l_tilt_converges s0 s0' cg ca cm gx gy gz ax ay az mx my mz w a m q ts k ta kb tm n M AD EK HK MG MA MM W0 NA LV R0) as (q' & M' & _ & _ & L).
  exists q'. split.
  { destruct M' as [h1 h2 h3 h4 h5 h6 h7 h8 h9 h10 h11 h12 h13 h14]. unfold alike in AL'. decompose [and] AL'.
    constructor; try assumption; try congruence; unfold aq_get_gyrometer_config, aq_get_accelerometer_config, aq_get_magnetometer_config in *; congruence. }
  split; [rewrite EA'; unfold alike in AL; decompose [and] AL; congruence|exact L].
Qed.

(*@ C90_heading *)
(** C90 in exact arithmetic: so a filter with an adaptive gain, thresholds in order and a reference g with |1 - g| <= t1 g converges at rest
    from a level attitude as one with a fixed gain does (C57_heading), and its gain stays as it was *)
Lemma l_twin_heading :
  forall (s s0 : Aqua (A := RX)) (cg ca cm : Config (A := RX)) (gx gy gz ax ay az mx my mz : T (Arith := RX)) (w a m : nat -> R)
    (q : quat) (ts k ta kb tm g t1 t2 : R) (n : nat),
  aq_hist s Live -> alike s s0 -> aq_g s = Some g -> aq_t1 s = Some t1 -> aq_t2 s = Some t2 -> t1 < t2 -> 0 < g -> Rabs (1 - g) <= t1 * g ->
  marg_state s0 cg ca cm q ts ta kb tm -> aq_adaptive s0 = false -> aq_alpha s0 = Some k -> 0 <= k <= 1 ->
  measures Gyr cg gx gy gz w -> measures Acc ca ax ay az a -> measures Mag cm mx my mz m ->
  (forall i, (i < 3)%nat -> w i = 0) -> rnorm 3 a = 1 -> 1 / 10000 < rnorm 3 m ->
  qrot (qconj (qnormalized q)) a 2%nat = -1 ->
  let b := qrot (qconj (qnormalized q)) m in
  let r := sqrt (b 0%nat * b 0%nat + b 1%nat * b 1%nat) in
  0 < b 0%nat \/ b 1%nat <> 0 ->
  exists s' q', aq_run gx gy gz ax ay az mx my mz n s s' /\ marg_state s' cg ca cm q' ts ta kb tm /\ aq_alpha s' = Some k /\
    qrot (qconj (qnormalized q')) a 2%nat = -1 /\ qrot (qconj (qnormalized q')) m 2%nat = b 2%nat /\
    0 <= r - qrot (qconj (qnormalized q')) m 0%nat <= (1 - kb * kb) ^ n * (r - b 0%nat).
Proof.
  intros s s0 cg ca cm gx gy gz ax ay az mx my mz w a m q ts k ta kb tm g t1 t2 n H AL Eg E1 E2 HT Hg HB M AD EK HK MG MA MM W0 NA NM LV b r HBB.
  destruct (l_heading_converges s0 cg ca cm gx gy gz ax ay az mx my mz w a m q ts k ta kb tm n M AD EK HK MG MA MM W0 NA NM LV HBB) as (s0' & q' & RN & M' & L1 & L2 & L3).
  assert (EC : aq_get_accelerometer_config s = Ok ca) by (pose proof (ms_acc _ _ _ _ _ _ _ _ _ M) as K; unfold aq_get_accelerometer_config in *; destruct AL as (_ & _ & EA & _); rewrite <- EA; exact K).
  destruct (run_twin_R s s0 ca gx gy gz ax ay az mx my mz a g t1 t2 H AL EC MA NA Eg E1 E2 HT Hg HB n s0' RN) as (s' & R' & H' & AL' & EA' & _).
  exists s', q'. split; [exact R'|]. split.
  { destruct M' as [h1 h2 h3 h4 h5 h6 h7 h8 h9 h10 h11 h12 h13 h14]. unfold alike in AL'. decompose [and] AL'.
    constructor; try assumption; try congruence; unfold aq_get_gyrometer_config, aq_get_accelerometer_config, aq_get_magnetometer_config in *; congruence. }
  split; [rewrite EA'; unfold alike in AL; decompose [and] AL; congruence|]. split; [exact L1|]. split; [exact L2|exact L3].
Qed.

Lemma started_twin q ts k ta kb tm t1 t2 g : 1 / 10000 < qnorm q -> 0 <= ta < 1 -> 0 <= kb <= 1 -> 0 <= tm < 1 ->
  exists s s0 : Aqua (A := RX), aq_hist s Live /\ aq_adaptive s = true /\ alike s s0 /\ aq_g s = Some g /\ aq_t1 s = Some t1 /\ aq_t2 s = Some t2 /\
    marg_state s0 default_config default_config default_config q ts ta kb tm /\ aq_adaptive s0 = false /\ aq_alpha s0 = Some k.
Proof.
  intros Nq TA KB TM. destruct (new_ok (A := RX) Gyr) as (gg & Eg & _ & Ig).
  assert (N : exists s0, aq_new (A := RX) = Ok s0) by (unfold aq_new; rewrite Eg; cbn [rbind]; eauto). destruct N as (s0 & N).
  pose proof (qh_new (A := RX) s0 N) as H0.
  set (a := mkArgs (A := RX) MARG (Some (Some (Qw q))) (Some (Some (Qx q))) (Some (Some (Qy q))) (Some (Some (Qz q))) (Some default_config) default_config default_config
    (Some ts) false (Some k) (Some kb) (Some t1) (Some t2) (Some ta) (Some tm) (Some (Some g)) None).
  assert (OKa : args_ok a).
  { split; [intros _; exists default_config; split; [reflexivity|apply default_finite_r]|]. split; [apply default_finite_r|]. split; [apply default_finite_r|]. right.
    do 4 eexists. do 4 (split; [reflexivity|]). repeat split; apply valid_RX. }
  pose proof (l_twin_start RX _ s0 a true H0 OKa) as TW.
  pose proof (qh_call s0 Fresh (QInit a) Live H0 (qn_init _ OKa)) as H1. cbn [aq_do] in H1. pose proof (aq_init_fresh a s0 (aq_hist_inv s0 Fresh H0)) as W. unfold wp in W.
  destruct (aq_init_with (with_flag true a) s0) as [s2 o2].
  destruct (aq_init_with a s0) as [s' [[]|e|]]; [|tauto|tauto]. cbn [fst] in H1. destruct TW as (_ & _ & _ & H2 & AL & _ & F2).
  destruct W as (_ & _ & V & E1 & E2 & E3 & E4 & E5 & W1 & W2 & E6 & E7 & W3 & W4 & E8 & E9 & E10). destruct (E8 eq_refl) as (c & Ec & E8'). injection Ec as <-.
  assert (AL' : alike s2 s') by (unfold alike in AL |- *; decompose [and] AL; repeat split; congruence).
  exists s2, s'. split; [exact H2|]. split; [exact F2|]. split; [exact AL'|]. unfold alike in AL'. decompose [and] AL'. cbn in W1, W2, W3.
  split; [congruence|]. split; [congruence|]. split; [congruence|]. split; [|auto].
  split; try assumption. eapply vec_is_ext; [exact V|]. intros i Hi. do 4 (destruct i as [|i]; [reflexivity|]). lia.
Qed.
Lemma twin_ex_heading_h : exists s s0 : Aqua (A := RX), aq_hist s Live /\ aq_adaptive s = true /\ alike s s0 /\ aq_g s = Some (21 / 20) /\ aq_t1 s = Some (1 / 10) /\ aq_t2 s = Some (1 / 5) /\
  1 / 10 < 1 / 5 /\ Rabs (1 - 21 / 20) <= 1 / 10 * (21 / 20) /\
  marg_state s0 default_config default_config default_config qone (1 / 100) (9 / 10) (1 / 2) (9 / 10) /\
  aq_adaptive s0 = false /\ aq_alpha s0 = Some (1 / 3) /\ rnorm 3 (triple 0 0 (-1)) = 1 /\ 1 / 10000 < rnorm 3 (triple 1 2 2) /\
  qrot (qconj (qnormalized qone)) (triple 0 0 (-1)) 2%nat = -1 /\ 0 < qrot (qconj (qnormalized qone)) (triple 1 2 2) 0%nat /\
  measures Gyr (default_config (A := RX)) (Some 0) (Some 0) (Some 0) (triple 0 0 0) /\
  measures Acc (default_config (A := RX)) (Some 0) (Some 0) (Some (-1)) (triple 0 0 (-1)) /\
  measures Mag (default_config (A := RX)) (Some 1) (Some 2) (Some 2) (triple 1 2 2).
Proof.
  destruct (started_twin qone (1 / 100) (1 / 3) (9 / 10) (1 / 2) (9 / 10) (1 / 10) (1 / 5) (21 / 20)) as (s & s0 & H & B & AL & G & T1 & T2 & M & EA & EK); try lra; [rewrite (unit_norm _ qone_unit); lra|].
  destruct still_ex_heading_h as (_ & _ & _ & _ & R). exists s, s0. do 6 (split; [assumption|]). split; [lra|]. split; [rewrite Rabs_left; lra|].
  do 3 (split; [assumption|]). exact R.
Qed.
(*@ example *)
(** a filter with an adaptive gain and reference 1.05, its twin and measurements meeting the hypotheses of C90_heading *)
Example C90_example_heading : exists s s0 : Aqua (A := RX), aq_hist s Live /\ aq_adaptive s = true /\ alike s s0 /\ aq_g s = Some (21 / 20) /\ aq_t1 s = Some (1 / 10) /\ aq_t2 s = Some (1 / 5) /\
  1 / 10 < 1 / 5 /\ Rabs (1 - 21 / 20) <= 1 / 10 * (21 / 20) /\
  marg_state s0 default_config default_config default_config qone (1 / 100) (9 / 10) (1 / 2) (9 / 10) /\
  aq_adaptive s0 = false /\ aq_alpha s0 = Some (1 / 3) /\ rnorm 3 (triple 0 0 (-1)) = 1 /\ 1 / 10000 < rnorm 3 (triple 1 2 2) /\
  qrot (qconj (qnormalized qone)) (triple 0 0 (-1)) 2%nat = -1 /\ 0 < qrot (qconj (qnormalized qone)) (triple 1 2 2) 0%nat /\
  measures Gyr (default_config (A := RX)) (Some 0) (Some 0) (Some 0) (triple 0 0 0) /\
  measures Acc (default_config (A := RX)) (Some 0) (Some 0) (Some (-1)) (triple 0 0 (-1)) /\
  measures Mag (default_config (A := RX)) (Some 1) (Some 2) (Some 2) (triple 1 2 2).
Proof. exact twin_ex_heading_h. Qed.
