(** C44: the angular-rate filter's Taylor and Euler methods. *)
(*@+*)
From Coq Require Import List Arith ZArith NArith Reals Lia Bool Lra.
From Flocq Require Import Core BinarySingleNaN.
From Verif Require Import M_Base M_Arith M_Utils M_Vector M_Matrix M_Quaternion M_Sensors M_Ar M_F32 M_RX
  S_Spec S_Linalg S_Norm S_Quat S_Sensors S_Ar.
Import ListNotations.
Local Open Scope R_scope.
(*@-*)
From Verif Require Import P_Hoare P_Cont P_Loops P_Access P_Pointwise P_Trans P_Inst P_InstQ P_Float P_Product P_Diag P_Quat P_Rot P_Norm P_Dcm P_Sensors P_Ar P_ArR.

Lemma ofnat_RX k : fofnat (A := RX) k = Some (INR k).
Proof. unfold fofnat. cbn. rewrite <- INR_IZR_INZ. f_equal. field. Qed.
Lemma pown_RX a k : fpow (Arith := RX) (Some a) (Some (INR k)) = Some (a ^ k).
Proof.
  cbn. rewrite INR_IZR_INZ, Zfloor_IZR, Req_bool_true by reflexivity. rewrite Rle_bool_true by (apply IZR_le; lia). cbn [andb].
  rewrite Nat2Z.id. reflexivity.
Qed.
Lemma Nfact_fact k : Nfact k = N.of_nat (fact k).
Proof.
  induction k as [|k IH]; [reflexivity|]. change (Nfact (S k)) with (N.of_nat (S k) * Nfact k)%N. rewrite IH.
  change (fact (S k)) with (S k * fact k)%nat. lia.
Qed.
Lemma fact_small k : (k <= 20)%nat -> (Nfact k mod 2 ^ 64 = Nfact k)%N.
Proof.
  intros H. apply N.mod_small. do 21 (destruct k as [|k]; [vm_compute; reflexivity|]). lia.
Qed.
Lemma ofN_RX n : fofN (A := RX) n = Some (INR (N.to_nat n)).
Proof. unfold fofN. cbn. rewrite INR_IZR_INZ, N_nat_Z. f_equal. field. Qed.

Definition tyr (t : R) (w : nat -> R) (k i j : nat) : R := (t / 2 * omr w i j) ^ k / INR (fact k).
Section Ty.
  Context (t : R) (v : nat -> rt) (w : nat -> R) (Hw : forall b, (b < 3)%nat -> v b = Some (w b)).
  Lemma ty_om_RX i j : ty_om (A := RX) (Some t) v i j = Some (t / 2 * omr w i j).
  Proof. unfold ty_om. rewrite (omega_RX v w Hw), fhalf_RX. cbn. f_equal. field. Qed.
  Lemma ty_term_RX k i j : (k <= 20)%nat -> ty_term (A := RX) (Some t) v k i j = Some (tyr t w k i j).
  Proof.
    intros Hk. unfold ty_term. rewrite ty_om_RX, ofnat_RX, pown_RX, fact_small, ofN_RX, f1_RX, Nfact_fact, Nat2N.id by auto.
    assert (INR (fact k) <> 0) by (apply not_0_INR, fact_neq_0). rewrite rx_divs by auto. cbn [fmul RX rx2]. f_equal. unfold tyr. field. auto.
  Qed.
  Lemma ty_mat_RX k i j : (k <= 20)%nat -> ty_mat (A := RX) (Some t) v k i j = Some (taylor_cells k t w i j).
  Proof.
    induction k as [|k IH]; intros Hk; cbn [ty_mat].
    - rewrite idm_RX. unfold taylor_cells. cbn [Rsum]. f_equal. ring.
    - rewrite IH, ty_term_RX by lia. cbn [fadd RX rx2]. f_equal. unfold taylor_cells, tyr. cbn [Rsum]. ring.
  Qed.
End Ty.
Lemma qapp_i M q i : (i < 4)%nat -> Rsum 4 (fun j => M i j * qf q j) = qf (qapp M q) i.
Proof. intros Hi. do 4 (destruct i as [|i]; [reflexivity|]). lia. Qed.

(*@ C44_taylor *)
(** C44, in exact arithmetic and after any history: a Taylor update of order at most 20 multiplies the attitude by
    I + sum over k of the k-th powers of the CELLS of t/2 Omega over k!, and normalises *)
Lemma l_taylor :
  forall (ck : bool) (s : AR (A := RX)) (c : Config) (q : quat) (w : nat -> R) (t : R) (gx gy gz : T),
  ar_hist ck s Live -> ar_method s = TaylorSeries -> (ar_order s <= 20)%nat -> ar_ts s = Some t -> quat_r (ar_attitude s) q ->
  sensor_get_config Gyr (ar_gyr s) = Ok c -> (forall b, (b < 3)%nat -> corrected Gyr c (raw3 gx gy gz) 3 b = Some (w b)) ->
  let p := qapp (taylor_cells (ar_order s) t w) q in
  exists s', ar_update ck gx gy gz s = (s', Ok tt) /\
    (rnorm 3 w <= eps -> ar_attitude s' = ar_attitude s) /\
    (eps < rnorm 3 w -> eps < qnorm p -> quat_r (ar_attitude s') (qnormalized p)) /\
    (eps < rnorm 3 w -> qnorm p <= eps -> quat_r (ar_attitude s') qzero).
Proof.
  intros ck s c q w t gx gy gz H M HO TS Hq Hc Hw p. pose proof (hist_inv _ _ _ H) as IV.
  destruct (Rle_lt_dec (rnorm 3 w) eps) as [L|L].
  - destruct (update_still ck gx gy gz s c _ w IV Hc Hq Hw L) as (s' & E & Ea). exists s'. split; [exact E|]. split; [auto|]. split; lra.
  - assert (Hf : forall i, (i < 4)%nat -> (fun i => Some (qf q i)) i = Some (qf q i)) by reflexivity.
    assert (HM : forall i j, ty_mat (A := RX) (Some t) (corrected Gyr c (raw3 gx gy gz) 3) (ar_order s) i j = Some (taylor_cells (ar_order s) t w i j)).
    { intros. apply ty_mat_RX; auto. }
    destruct (update_turn ck gx gy gz s c _ w p IV Hc Hq Hw L) as (s' & E & _ & R1 & R2).
    + right; left. exact M.
    + auto.
    + rewrite M, TS. split; [intros; rewrite (omega_RX _ w Hw); apply valid_RX|]. intros i j Hi Hj. split; [|split; [|split]].
      * rewrite (ty_om_RX t _ w Hw). apply valid_RX.
      * intros k Hk _. rewrite (ty_om_RX t _ w Hw), ofnat_RX, pown_RX. apply valid_RX.
      * intros k Hk _. rewrite (ty_term_RX t _ w Hw), (ty_mat_RX t _ w Hw) by lia. split; apply valid_RX.
      * intros _ k Hk. rewrite (apply_RX _ _ _ q HM Hf) by lia. apply valid_RX.
    + intros i Hi. rewrite M, TS. cbn [step]. rewrite (apply_RX _ _ _ q HM Hf) by lia. rewrite qapp_i by auto. reflexivity.
    + exists s'. split; [exact E|]. split; [lra|]. auto.
Qed.

(** one step of the kinematic equation from the right, or from the left *)
Lemma right_step_norm a (w : nat -> R) q : qnorm2 (qadd q (qscale a (qmul q (purer w)))) = qnorm2 q * (1 + a * a * (w 0%nat * w 0%nat + w 1%nat * w 1%nat + w 2%nat * w 2%nat)).
Proof. unfold qnorm2, qadd, qscale, qmul, purer. cbn. ring. Qed.
Lemma left_step_norm a (w : nat -> R) q : qnorm2 (qadd q (qscale a (qmul (purer w) q))) = qnorm2 q * (1 + a * a * (w 0%nat * w 0%nat + w 1%nat * w 1%nat + w 2%nat * w 2%nat)).
Proof. unfold qnorm2, qadd, qscale, qmul, purer. cbn. ring. Qed.
Lemma grow q p (w : nat -> R) a : qnorm2 p = qnorm2 q * (1 + a * a * (w 0%nat * w 0%nat + w 1%nat * w 1%nat + w 2%nat * w 2%nat)) -> qnorm q <= qnorm p.
Proof.
  intros H. unfold qnorm. apply sqrt_le_1_alt. rewrite H. pose proof (qnorm2_pos q).
  pose proof (Rle_0_sqr (a * w 0%nat)). pose proof (Rle_0_sqr (a * w 1%nat)). pose proof (Rle_0_sqr (a * w 2%nat)). unfold Rsqr in *. nra.
Qed.

(*@ C44_taylor_1 *)
(** C44: of order 1 that is the normalised q + t/2 q (0, w), the correct first-order step for body rates *)
Lemma l_taylor_1 :
  forall (ck : bool) (s : AR (A := RX)) (c : Config) (q : quat) (w : nat -> R) (t : R) (gx gy gz : T),
  ar_hist ck s Live -> ar_method s = TaylorSeries -> ar_order s = 1%nat -> ar_ts s = Some t -> quat_r (ar_attitude s) q ->
  sensor_get_config Gyr (ar_gyr s) = Ok c -> (forall b, (b < 3)%nat -> corrected Gyr c (raw3 gx gy gz) 3 b = Some (w b)) ->
  eps < rnorm 3 w -> eps < qnorm q ->
  exists s', ar_update ck gx gy gz s = (s', Ok tt) /\
    quat_r (ar_attitude s') (qnormalized (qadd q (qscale (t / 2) (qmul q (purer w))))).
Proof.
  intros ck s c q w t gx gy gz H M O TS Hq Hc Hw L Lq.
  destruct (l_taylor ck s c q w t gx gy gz H M ltac:(lia) TS Hq Hc Hw) as (s' & E & _ & R & _). rewrite O in R.
  assert (Ep : qapp (taylor_cells 1 t w) q = qadd q (qscale (t / 2) (qmul q (purer w)))).
  { destruct q as [a b cc d]. unfold qapp, taylor_cells, qadd, qscale, qmul, purer, rid, omr. cbn. f_equal; field. }
  rewrite Ep in R. exists s'. split; [exact E|]. apply R; [auto|]. eapply Rlt_le_trans; [exact Lq|]. eapply grow, right_step_norm.
Qed.

(*@ C44_euler *)
(** C44, violation: the Euler method computes the normalised q + t/2 (0, w) q instead - the product is taken on the
    wrong side, which is the step for rates given in the reference frame *)
Lemma l_euler_step :
  forall (ck : bool) (s : AR (A := RX)) (c : Config) (q : quat) (w : nat -> R) (t : R) (gx gy gz : T),
  ar_hist ck s Live -> ar_method s = Euler -> ar_ts s = Some t -> quat_r (ar_attitude s) q ->
  sensor_get_config Gyr (ar_gyr s) = Ok c -> (forall b, (b < 3)%nat -> corrected Gyr c (raw3 gx gy gz) 3 b = Some (w b)) ->
  eps < rnorm 3 w -> eps < qnorm q ->
  exists s', ar_update ck gx gy gz s = (s', Ok tt) /\
    quat_r (ar_attitude s') (qnormalized (qadd q (qscale (t / 2) (qmul (purer w) q)))).
Proof.
  intros ck s c q w t gx gy gz H M TS Hq Hc Hw L Lq. pose proof (hist_inv _ _ _ H) as IV.
  set (v := corrected Gyr c (raw3 gx gy gz) 3) in *.
  assert (EU : forall i, eu_w (A := RX) (Some t) v i = Some (t / 2 * qf (purer w) i)).
  { intros i. unfold eu_w. rewrite fhalf_RX, f0_RX, !Hw by lia. do 3 (destruct i as [|i]; [cbn; f_equal; field|]). cbn; f_equal; field. }
  destruct (update_turn ck gx gy gz s c _ w (qadd q (qscale (t / 2) (qmul (purer w) q))) IV Hc Hq Hw L) as (s' & E & _ & R1 & R2).
  + right; right. exact M.
  + rewrite M. discriminate.
  + rewrite M, TS. fold v. split; [intros; rewrite (omega_RX _ w Hw); apply valid_RX|]. split.
    * intros i Hi. rewrite EU. apply valid_RX.
    * intros i Hi. unfold q_prod. rewrite !EU. do 4 (destruct i as [|i]; [apply valid_RX|]). lia.
  + intros i Hi. rewrite M, TS. fold v. cbn [step]. unfold q_prod. rewrite !EU.
    do 4 (destruct i as [|i]; [cbn; f_equal; field|]). lia.
  + exists s'. split; [exact E|]. apply R1. eapply Rlt_le_trans; [exact Lq|]. eapply grow, left_step_norm.
Qed.

(*@ C44_euler_differs *)
(** C44, violation: so the two first-order methods disagree whenever the axis of the attitude is not that of the rate *)
Lemma l_euler_differs :
  forall (ck : bool) (s1 s2 : AR (A := RX)) (c : Config) (q : quat) (w : nat -> R) (t : R) (gx gy gz : T),
  ar_hist ck s1 Live -> ar_method s1 = TaylorSeries -> ar_order s1 = 1%nat -> ar_ts s1 = Some t -> quat_r (ar_attitude s1) q ->
  ar_hist ck s2 Live -> ar_method s2 = Euler -> ar_ts s2 = Some t -> quat_r (ar_attitude s2) q ->
  sensor_get_config Gyr (ar_gyr s1) = Ok c -> sensor_get_config Gyr (ar_gyr s2) = Ok c ->
  (forall b, (b < 3)%nat -> corrected Gyr c (raw3 gx gy gz) 3 b = Some (w b)) ->
  eps < rnorm 3 w -> eps < qnorm q -> t <> 0 ->
  ~ (Qy q * w 2%nat = Qz q * w 1%nat /\ Qz q * w 0%nat = Qx q * w 2%nat /\ Qx q * w 1%nat = Qy q * w 0%nat) ->
  exists s1' s2' q1 q2, ar_update ck gx gy gz s1 = (s1', Ok tt) /\ ar_update ck gx gy gz s2 = (s2', Ok tt) /\
    quat_r (ar_attitude s1') q1 /\ quat_r (ar_attitude s2') q2 /\ q1 <> q2.
Proof.
  intros ck s1 s2 c q w t gx gy gz H1 M1 O1 T1 Q1 H2 M2 T2 Q2 C1 C2 Hw L Lq Ht NP.
  destruct (l_taylor_1 ck s1 c q w t gx gy gz H1 M1 O1 T1 Q1 C1 Hw L Lq) as (s1' & E1 & R1).
  destruct (l_euler_step ck s2 c q w t gx gy gz H2 M2 T2 Q2 C2 Hw L Lq) as (s2' & E2 & R2).
  exists s1', s2'. eexists. eexists. split; [exact E1|]. split; [exact E2|]. split; [exact R1|]. split; [exact R2|].
  intros E. apply NP. unfold qnormalized in E.
  pose proof (grow q _ w (t / 2) (right_step_norm (t / 2) w q)) as G.
  assert (EN : qnorm (qadd q (qscale (t / 2) (qmul (purer w) q))) = qnorm (qadd q (qscale (t / 2) (qmul q (purer w))))).
  { unfold qnorm. rewrite left_step_norm, right_step_norm. reflexivity. }
  rewrite EN in E. set (N := qnorm (qadd q (qscale (t / 2) (qmul q (purer w))))) in *.
  assert (HN : / N <> 0) by (apply Rinv_neq_0_compat; unfold eps in Lq; lra).
  assert (HT : t / 2 <> 0) by lra.
  unfold qscale, qadd, qmul, purer in E. cbn in E. injection E as _ Ex Ey Ez.
  apply Rmult_eq_reg_l in Ex; [|auto]. apply Rmult_eq_reg_l in Ey; [|auto]. apply Rmult_eq_reg_l in Ez; [|auto].
  apply Rplus_eq_reg_l in Ex. apply Rplus_eq_reg_l in Ey. apply Rplus_eq_reg_l in Ez.
  apply Rmult_eq_reg_l in Ex; [|auto]. apply Rmult_eq_reg_l in Ey; [|auto]. apply Rmult_eq_reg_l in Ez; [|auto].
  repeat split; lra.
Qed.

(** a filter initialised on the default calibration *)
Lemma started_r ck (q : quat) (t : R) m order : exists s : AR (A := RX), ar_hist ck s Live /\ quat_r (ar_attitude s) q /\
  sensor_get_config Gyr (ar_gyr s) = Ok default_config /\ ar_ts s = Some t /\ ar_method s = m /\ ar_order s = order.
Proof.
  destruct (new_ok (A := RX) Gyr) as (g & Eg & _ & Ig).
  set (s0 := mkAR (A := RX) g vnew (lit (Arith := RX) 1 100) ClosedForm 1 false).
  assert (N : ar_new (A := RX) = Ok s0) by (unfold ar_new; rewrite Eg; reflexivity).
  assert (C : cfg_finite (A := RX) default_config).
  { intros x Hx. cbn in Hx. repeat (destruct Hx as [<-|Hx]; [first [apply (ok_f0 (A := RX))|apply (ok_f1 (A := RX))]|]). destruct Hx. }
  pose proof (ah_new (A := RX) ck s0 N) as H0.
  assert (V : quat_finite (A := RX) (Some (Qw q)) (Some (Qx q)) (Some (Qy q)) (Some (Qz q))) by (repeat split).
  pose proof (ah_call (A := RX) ck s0 Fresh (AInit (A := RX) (Some (Qw q)) (Some (Qx q)) (Some (Qy q)) (Some (Qz q)) default_config (Some t) m order) Live H0) as H1.
  cbn [ar_do] in H1.
  pose proof (init_fresh_wp (A := RX) (Some (Qw q)) (Some (Qx q)) (Some (Qy q)) (Some (Qz q)) default_config (Some t) m order s0 (hist_inv _ _ _ H0)) as W. unfold wp in W.
  destruct (ar_init _ _ _ _ _ _ _ _ s0) as [s' [[]|e|]]; cbn [fst snd] in H1; [|tauto|tauto].
  destruct W as (_ & _ & _ & W2 & _ & _ & W5 & W6 & W7 & W8). exists s'. split; [apply H1; [apply an_init; auto|discriminate]|].
  split; [|auto]. eapply vec_is_ext; [exact W8|]. intros i Hi. do 4 (destruct i as [|i]; [reflexivity|]). lia.
Qed.
Lemma default_corrected (x y z : R) b : (b < 3)%nat -> corrected (A := RX) Gyr default_config (raw3 (A := RX) (Some x) (Some y) (Some z)) 3 b = Some (triple x y z b).
Proof.
  intros Hb. unfold corrected, unbiased. cbn [fsum coefficient named bias default_config cf_x cf_y cf_z cf_xy cf_xz cf_yx cf_yz cf_zx cf_zy cf_bx cf_by cf_bz].
  do 3 (destruct b as [|b]; [cbn [named default_config cf_x cf_y cf_z cf_xy cf_xz cf_yx cf_yz cf_zx cf_zy]; rewrite ?f0_RX, ?f1_RX; cbn; f_equal; field|]). lia.
Qed.

(*@ C44_euler_refuted *)
(** ... for instance from the attitude i, turning at one radian per second about j *)
Lemma l_euler_w :
  exists (s1 s2 s1' s2' : AR (A := RX)) (q1 q2 : quat), let ck := true in
  ar_hist ck s1 Live /\ ar_method s1 = TaylorSeries /\ ar_order s1 = 1%nat /\ ar_ts s1 = Some 1 /\ quat_r (ar_attitude s1) q_i /\
  ar_hist ck s2 Live /\ ar_method s2 = Euler /\ ar_ts s2 = Some 1 /\ quat_r (ar_attitude s2) q_i /\
  ar_update (A := RX) ck (Some 0) (Some 1) (Some 0) s1 = (s1', Ok tt) /\ ar_update (A := RX) ck (Some 0) (Some 1) (Some 0) s2 = (s2', Ok tt) /\
  quat_r (ar_attitude s1') q1 /\ quat_r (ar_attitude s2') q2 /\ q1 <> q2.
Proof.
  destruct (started_r true q_i 1 TaylorSeries 1) as (s1 & H1 & Q1 & C1 & T1 & M1 & O1).
  destruct (started_r true q_i 1 Euler 1) as (s2 & H2 & Q2 & C2 & T2 & M2 & O2).
  assert (R3 : rnorm 3 (triple 0 1 0) = 1). { rewrite rnorm3. cbn. replace (0 * 0 + 1 * 1 + 0 * 0) with 1 by ring. apply sqrt_1. }
  assert (RQ : qnorm q_i = 1). { unfold qnorm, qnorm2. cbn. replace (0 * 0 + 1 * 1 + 0 * 0 + 0 * 0) with 1 by ring. apply sqrt_1. }
  destruct (l_euler_differs true s1 s2 default_config q_i (triple 0 1 0) 1 (Some 0) (Some 1) (Some 0) H1 M1 O1 T1 Q1 H2 M2 T2 Q2 C1 C2)
    as (s1' & s2' & q1 & q2 & E); [apply default_corrected|rewrite R3; unfold eps; lra|rewrite RQ; unfold eps; lra|lra|cbn; intros (_ & _ & X); lra|].
  exists s1, s2, s1', s2', q1, q2. cbv zeta. auto 20.
Qed.

(*@ C44_taylor_2_refuted *)
(** C44, violation: of order 2, squaring cell by cell, a fast rotation can be missed altogether: from the identity,
    one period at 4 rad/s about -x (over one second) leaves the attitude exactly the identity *)
Lemma l_taylor_2 :
  exists (s s' : AR (A := RX)), let ck := true in
  ar_hist ck s Live /\ ar_method s = TaylorSeries /\ ar_order s = 2%nat /\ ar_ts s = Some 1 /\ quat_r (ar_attitude s) qone /\
  sensor_get_config Gyr (ar_gyr s) = Ok default_config /\
  ar_update (A := RX) ck (Some (-4)) (Some 0) (Some 0) s = (s', Ok tt) /\ quat_r (ar_attitude s') qone /\
  turn (triple (-4) 0 0) 1 <> qone /\ turn (triple (-4) 0 0) 1 <> qneg qone.
Proof.
  destruct (started_r true qone 1 TaylorSeries 2) as (s & H & Q & C & T & M & O).
  destruct (l_taylor true s default_config qone (triple (-4) 0 0) 1 (Some (-4)) (Some 0) (Some 0) H M ltac:(lia) T Q C) as (s' & E & _ & R & _); [apply default_corrected|].
  rewrite O in R.
  assert (Ep : qapp (taylor_cells 2 1 (triple (-4) 0 0)) qone = qone).
  { unfold qapp, taylor_cells, qone, rid, omr. cbn. f_equal; field. }
  assert (RQ : qnorm qone = 1). { unfold qnorm, qnorm2. cbn. replace (1 * 1 + 0 * 0 + 0 * 0 + 0 * 0) with 1 by ring. apply sqrt_1. }
  assert (R3 : rnorm 3 (triple (-4) 0 0) = 4). { rewrite rnorm3. cbn. replace (-4 * -4 + 0 * 0 + 0 * 0) with (4 * 4) by ring. apply sqrt_square. lra. }
  rewrite Ep, RQ, R3 in R. exists s, s'. cbv zeta. split; [auto|]. split; [auto|]. split; [auto|]. split; [auto|]. split; [auto|]. split; [auto|]. split; [auto|].
  split.
  - eapply quat_r_ext; [apply R; unfold eps; lra|]. apply qnormalized_unit. unfold unitq, qnorm2. cbn. ring.
  - assert (S : sin (4 * 1 / 2) <> 0). { replace (4 * 1 / 2) with 2 by field. pose proof (sin_gt_0 2). pose proof PI2_1. pose proof PI_4. pose proof PI2_3_2. intros Z. assert (2 < PI). { unfold PI2 in *. lra. } lra. }
    unfold turn. rewrite <- rnorm3, R3. unfold qone, qneg, qscale. cbn. split; intros X; injection X as _ X _ _; apply S; lra.
Qed.

(*@ C44_taylor_panics *)
(** C44, violation: with overflow checks, a Taylor update of order 21 or more that sees rotation always panics
    (the factorial overflows u64) *)
Lemma l_taylor_panics :
  forall (s : AR (A := RX)) (c : Config) (q : quat) (w : nat -> R) (t : R) (gx gy gz : T),
  ar_hist true s Live -> ar_method s = TaylorSeries -> (21 <= ar_order s)%nat -> ar_ts s = Some t -> quat_r (ar_attitude s) q ->
  sensor_get_config Gyr (ar_gyr s) = Ok c -> (forall b, (b < 3)%nat -> corrected Gyr c (raw3 gx gy gz) 3 b = Some (w b)) ->
  eps < rnorm 3 w -> snd (ar_update true gx gy gz s) = Panic.
Proof.
  intros s c q w t gx gy gz H M O TS Hq Hc Hw L. pose proof (hist_inv _ _ _ H) as HI.
  destruct (live_facts s HI) as (c1 & raw & cor & f1 & Hs & Hc1 & _). rewrite Hc in Hc1. injection Hc1 as <-.
  destruct HI as (HR & I & AI & _). pose proof (sens_real _ _ _ _ Hw) as SE.
  pose proof (ar_update_wp true s c raw cor _ (raw3 gx gy gz) Hs I AI Hq) as W.
  change (raw3 gx gy gz 0) with gx in W; change (raw3 gx gy gz 1) with gy in W; change (raw3 gx gy gz 2) with gz in W.
  cbv zeta in W. unfold wp in W. rewrite (rate_RX _ w Hw) in W. rewrite Rle_bool_false in W by auto.
  assert (E : fltb (Arith := RX) EPSILON (Some (rnorm 3 w)) = true).
  { rewrite eps_RX. cbn. apply Rlt_bool_true. auto. }
  rewrite E in W.
  destruct (ar_update true gx gy gz s) as [s' [[]|e|]]; cbn [snd]; [| |reflexivity]; exfalso.
  - destruct W as (_ & _ & _ & (_ & W) & _). specialize (W M eq_refl). lia.
  - destruct W as (_ & _ & _ & [(_ & N & _)|(_ & _ & [(_ & N & _)|[(_ & N & _)|(_ & (_ & W) & _)]])]); [contradiction| | |specialize (W M eq_refl); lia].
    + apply N. rewrite M, TS. split; [intros; rewrite (omega_RX _ w Hw); apply valid_RX|]. intros i j Hi Hj. split; [|split; [|split]].
      * rewrite (ty_om_RX t _ w Hw). apply valid_RX.
      * intros k Hk _. rewrite (ty_om_RX t _ w Hw), ofnat_RX, pown_RX. apply valid_RX.
      * intros k Hk Hk'. specialize (Hk' eq_refl). rewrite (ty_term_RX t _ w Hw), (ty_mat_RX t _ w Hw) by lia. split; apply valid_RX.
      * intros Ho. specialize (Ho eq_refl). lia.
    + apply N. right; left. exact M.
Qed.

(*@ C44_unsupported *)
(** C44, violation: in f32, the methods that are not implemented are accepted by [init]; they fail only at updates that
    see rotation, leaving the attitude unchanged, and pass at the others *)
Lemma l_unsupported :
  forall (lm : Libm) (ck : bool) (s : AR (A := F32 lm)) (c : Config (A := F32 lm)) (gx gy gz : f32), let A := F32 lm in
  ar_hist ck s Live -> ar_method s = AdamsBashforth \/ ar_method s = RungeKutta ->
  sensor_get_config Gyr (ar_gyr s) = Ok c ->
  raw_finite (raw3 gx gy gz) -> unbiased_finite c (raw3 gx gy gz) -> corrected_finite Gyr c (raw3 gx gy gz) ->
  let (s', o) := ar_update ck gx gy gz s in
  ar_attitude s' = ar_attitude s /\
  o = if (rate_norm (corrected Gyr c (raw3 gx gy gz) 3) >? EPSILON)%F then Err ARMethodError else Ok tt.
Proof.
  intros lm ck s c gx gy gz A H M Hc RF UF CF. subst A. pose proof (hist_inv _ _ _ H) as HI.
  destruct (live_facts s HI) as (c1 & raw & cor & f & Hs & Hc1 & Hf). rewrite Hc in Hc1. injection Hc1 as <-.
  destruct HI as (HR & I & AI & _).
  pose proof (ar_update_wp (A := F32 lm) ck s c raw cor f (raw3 (A := F32 lm) gx gy gz) Hs I AI Hf) as W.
  change (raw3 (A := F32 lm) gx gy gz 0) with gx in W; change (raw3 (A := F32 lm) gx gy gz 1) with gy in W; change (raw3 (A := F32 lm) gx gy gz 2) with gz in W.
  cbv zeta in W. unfold wp in W.
  assert (NS : ~ supported (ar_method s)). { intros [S|[S|S]]; destruct M; congruence. }
  assert (SF : step_finite (A := F32 lm) ck (ar_method s) (ar_order s) (ar_ts s) f (corrected (A := F32 lm) Gyr c (raw3 (A := F32 lm) gx gy gz) 3) (rate_norm (A := F32 lm) (corrected (A := F32 lm) Gyr c (raw3 (A := F32 lm) gx gy gz) 3))).
  { split; [|destruct M as [-> | ->]; exact Logic.I]. intros i j Hi Hj.
    pose proof (CF 0%nat 3%nat ltac:(lia) ltac:(lia)) as V0. pose proof (CF 1%nat 3%nat ltac:(lia) ltac:(lia)) as V1. pose proof (CF 2%nat 3%nat ltac:(lia) ltac:(lia)) as V2.
    assert (NG : forall x : f32, valid (A := F32 lm) x -> valid (A := F32 lm) (@fneg (F32 lm) x)).
    { intros x Vx. apply (valid_finite lm). apply (valid_finite lm) in Vx. change (is_finite (Bopp x) = true). rewrite is_finite_Bopp. exact Vx. }
    pose proof (ok_f0 (A := F32 lm)) as V3. unfold omega_t.
    do 4 (destruct i as [|i]; [do 4 (destruct j as [|j]; [cbn [nth Nat.mul Nat.add]; auto|]); lia|]). lia. }
  destruct (ar_update (A := F32 lm) ck gx gy gz s) as [s' [[]|e|]].
  - destruct W as (_ & _ & _ & W). destruct (@fltb (F32 lm) _ _); [exfalso; apply NS; apply W|auto].
  - destruct W as (_ & _ & _ & [(_ & N & _)|(_ & -> & [(_ & N & _)|[(-> & _ & Ea)|(_ & (S & _) & _)]])]); [exfalso; apply N; auto|contradiction|auto|contradiction].
  - destruct W as (_ & S & _). destruct M; congruence.
Qed.

Lemma rnorm_304 : eps < rnorm 3 (triple 3 0 4).
Proof. rewrite rnorm3. cbn. replace (3 * 3 + 0 * 0 + 4 * 4) with (5 * 5) by ring. rewrite sqrt_square; unfold eps; lra. Qed.

(*@ example *)
(** a filter in exact arithmetic meeting the hypotheses of the theorems above *)
Example C43_example : forall (ck : bool) (m : NIM) (order : nat), exists s : AR (A := RX),
  ar_hist ck s Live /\ ar_method s = m /\ ar_order s = order /\ ar_ts s = Some (1 / 100) /\ quat_r (ar_attitude s) q_k /\
  sensor_get_config Gyr (ar_gyr s) = Ok default_config /\
  (forall b, (b < 3)%nat -> corrected Gyr default_config (raw3 (A := RX) (Some 3) (Some 0) (Some 4)) 3 b = Some (triple 3 0 4 b)) /\
  eps < rnorm 3 (triple 3 0 4).
Proof.
  intros ck m order. destruct (started_r ck q_k (1 / 100) m order) as (s & H & Q & C & T & M & O). exists s.
  split; [auto|]. split; [auto|]. split; [auto|]. split; [auto|]. split; [auto|]. split; [auto|]. split; [apply default_corrected|].
  exact rnorm_304.
Qed.
