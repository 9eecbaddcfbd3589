(** C43, C44: the angular-rate filter in exact arithmetic. *)
(*@+*)
From Coq Require Import List Arith ZArith NArith Reals Lia Bool Lra.
From Flocq Require Import Core.
From Verif Require Import M_Base M_Arith M_Utils M_Vector M_Matrix M_Quaternion M_Sensors M_Ar M_RX
  S_Spec S_Linalg S_Norm S_Quat S_Sensors S_Ar.
Import ListNotations.
Local Open Scope R_scope.
(*@-*)
From Verif Require Import P_Hoare P_Cont P_Loops P_Access P_Pointwise P_Trans P_Inst P_Product P_Diag P_Quat P_Rot P_Norm P_Dcm P_Sensors P_Ar.

Notation rt := (T (Arith := RX)).

Lemma valid_some (x : rt) : valid x <-> exists a, x = Some a.
Proof.
  split; [|intros [a ->]; apply valid_RX]. destruct x as [a|]; [eauto|]. intros [H _]. discriminate.
Qed.
Lemma add_some (x y : rt) a : fadd x y = Some a -> (exists b, x = Some b) /\ exists c, y = Some c.
Proof. destruct x, y; cbn; try discriminate; eauto. Qed.
Lemma mul_some (x y : rt) a : fmul x y = Some a -> (exists b, x = Some b) /\ exists c, y = Some c.
Proof. destruct x, y; cbn; try discriminate; eauto. Qed.
Lemma sub_some (x y : rt) a : fsub x y = Some a -> (exists b, x = Some b) /\ exists c, y = Some c.
Proof. destruct x, y; cbn; try discriminate; eauto. Qed.

(** a defined corrected measurement: everything on the way is defined *)
Lemma sens_real k (c : Config (A := RX)) (raw : nat -> rt) (w : nat -> R) :
  (forall b, (b < 3)%nat -> corrected k c raw 3 b = Some (w b)) ->
  raw_finite raw /\ unbiased_finite c raw /\ corrected_finite k c raw.
Proof.
  intros H.
  assert (D : forall b, (b < 3)%nat ->
    (forall a, (a < 3)%nat -> exists x, unbiased c raw a = Some x) /\
    (forall n, (1 <= n <= 3)%nat -> exists x, corrected k c raw n b = Some x)).
  { intros b Hb. specialize (H b Hb). unfold corrected in *. cbn [fsum] in H.
    destruct (add_some _ _ _ H) as [(s2 & E2) (t2 & F2)]. destruct (add_some _ _ _ E2) as [(s1 & E1) (t1 & F1)].
    destruct (add_some _ _ _ E1) as [_ (t0 & F0)].
    destruct (mul_some _ _ _ F0) as [_ U0]. destruct (mul_some _ _ _ F1) as [_ U1]. destruct (mul_some _ _ _ F2) as [_ U2].
    split.
    - intros a Ha. do 3 (destruct a as [|a]; [assumption|]). lia.
    - intros n Hn. destruct n as [|[|[|[|n]]]]; try lia; cbn [fsum]; eauto. }
  split; [|split].
  - intros a Ha. apply valid_some. destruct (D 0%nat ltac:(lia)) as [D0 _]. destruct (D0 a Ha) as [x E]. unfold unbiased in E.
    destruct (sub_some _ _ _ E) as [E' _]. exact E'.
  - intros a Ha. apply valid_some. destruct (D 0%nat ltac:(lia)) as [D0 _]. auto.
  - intros b n Hb Hn. apply valid_some. destruct (D b Hb) as [_ D0]. auto.
Qed.

Lemma rnorm3 (w : nat -> R) : rnorm 3 w = sqrt (w 0%nat * w 0%nat + w 1%nat * w 1%nat + w 2%nat * w 2%nat).
Proof. unfold rnorm, rdot. cbn [Rsum]. f_equal. ring. Qed.
Lemma rate_RX (v : nat -> rt) (w : nat -> R) : (forall b, (b < 3)%nat -> v b = Some (w b)) ->
  rate_norm v = Some (if Rle_bool (rnorm 3 w) eps then 0 else rnorm 3 w).
Proof.
  intros H. unfold rate_norm. cbn [fsum]. rewrite !H by lia.
  pose proof (norm_RX 3 w) as N. cbn [fsum] in N. rewrite N, eps_RX, f0_RX. cbn.
  destruct (Rle_bool (rnorm 3 w) eps); reflexivity.
Qed.

(** an update that sees no rotation *)
Lemma update_still ck gx gy gz (s : AR (A := RX)) c f (w : nat -> R) :
  ar_inv s Live -> sensor_get_config Gyr (ar_gyr s) = Ok c -> vec_is (ar_attitude s) 4 f ->
  (forall b, (b < 3)%nat -> corrected Gyr c (raw3 gx gy gz) 3 b = Some (w b)) -> rnorm 3 w <= eps ->
  exists s', ar_update ck gx gy gz s = (s', Ok tt) /\ ar_attitude s' = ar_attitude s.
Proof.
  intros HI Hc Hf Hw Hn. destruct (live_facts s HI) as (c1 & raw & cor & f1 & Hs & Hc1 & _). rewrite Hc in Hc1. injection Hc1 as <-.
  destruct HI as (HR & I & AI & _). pose proof (sens_real _ _ _ _ Hw) as SE.
  pose proof (ar_update_wp ck s c raw cor f (raw3 gx gy gz) Hs I AI Hf) as W.
  change (raw3 gx gy gz 0) with gx in W; change (raw3 gx gy gz 1) with gy in W; change (raw3 gx gy gz 2) with gz in W.
  cbv zeta in W. unfold wp in W. rewrite (rate_RX _ w Hw) in W. rewrite Rle_bool_true in W by auto.
  assert (E : fltb (Arith := RX) EPSILON (Some 0) = false).
  { rewrite eps_RX. cbn. apply Rlt_bool_false. unfold eps. lra. }
  rewrite E in W.
  destruct (ar_update ck gx gy gz s) as [s' [[]|e|]] eqn:EU.
  - exists s'. split; [reflexivity|apply W].
  - destruct W as (_ & _ & _ & [(_ & N & _)|(_ & N & _)]); [contradiction|discriminate].
  - destruct W as (_ & _ & _ & W). discriminate.
Qed.
(** a rotating one, whose new components are the real numbers [p] before normalisation *)
Lemma update_turn ck gx gy gz (s : AR (A := RX)) c f (w : nat -> R) (p : quat) :
  ar_inv s Live -> sensor_get_config Gyr (ar_gyr s) = Ok c -> vec_is (ar_attitude s) 4 f ->
  (forall b, (b < 3)%nat -> corrected Gyr c (raw3 gx gy gz) 3 b = Some (w b)) -> eps < rnorm 3 w ->
  supported (ar_method s) -> (ar_method s = TaylorSeries -> ck = true -> (ar_order s <= 20)%nat) ->
  step_finite ck (ar_method s) (ar_order s) (ar_ts s) f (corrected Gyr c (raw3 gx gy gz) 3) (Some (rnorm 3 w)) ->
  (forall i, (i < 4)%nat -> step (ar_method s) (ar_order s) (ar_ts s) f (corrected Gyr c (raw3 gx gy gz) 3) (Some (rnorm 3 w)) i = Some (qf p i)) ->
  exists s', ar_update ck gx gy gz s = (s', Ok tt) /\ same_settings s s' /\
    (eps < qnorm p -> quat_r (ar_attitude s') (qnormalized p)) /\
    (qnorm p <= eps -> quat_r (ar_attitude s') qzero).
Proof.
  intros HI Hc Hf Hw Hn Sup HO SF ST. destruct (live_facts s HI) as (c1 & raw & cor & f1 & Hs & Hc1 & _). rewrite Hc in Hc1. injection Hc1 as <-.
  destruct HI as (HR & I & AI & _). pose proof (sens_real _ _ _ _ Hw) as SE.
  pose proof (ar_update_wp ck s c raw cor f (raw3 gx gy gz) Hs I AI Hf) as W.
  change (raw3 gx gy gz 0) with gx in W; change (raw3 gx gy gz 1) with gy in W; change (raw3 gx gy gz 2) with gz in W.
  cbv zeta in W. unfold wp in W. rewrite (rate_RX _ w Hw) in W. rewrite Rle_bool_false in W by auto.
  assert (E : fltb (Arith := RX) EPSILON (Some (rnorm 3 w)) = true).
  { rewrite eps_RX. cbn. apply Rlt_bool_true. auto. }
  rewrite E in W.
  assert (NQ : forall v, vec_is v 4 (step (ar_method s) (ar_order s) (ar_ts s) f (corrected Gyr c (raw3 gx gy gz) 3) (Some (rnorm 3 w))) ->
    exists v', v_normalize v = (v', Ok tt) /\ (eps < qnorm p -> quat_r v' (qnormalized p)) /\ (qnorm p <= eps -> quat_r v' qzero)).
  { intros v Hv. assert (Hq : quat_r v p) by (eapply vec_is_ext; [exact Hv|]; intros; apply ST; auto). rewrite <- rnorm_qnorm.
    destruct (Rle_lt_dec (rnorm 4 (qf p)) eps) as [L|L].
    - destruct (l_normalize_small v 4 _ Hq L) as (v' & -> & Hv'). exists v'. split; [reflexivity|]. split; [lra|]. intros _.
      eapply vec_is_ext; [exact Hv'|]. intros i Hi. do 4 (destruct i as [|i]; [reflexivity|]). lia.
    - destruct (l_normalize v 4 _ Hq L) as (v' & y & -> & Hv' & _ & Hy). exists v'. split; [reflexivity|]. split; [|lra]. intros _.
      eapply vec_is_ext; [exact Hv'|]. intros i Hi. cbv beta. apply (f_equal (@Some R)). specialize (Hy i Hi). rewrite rnorm_qnorm in *.
      assert (0 < qnorm p) by (unfold eps in L; lra).
      transitivity (/ qnorm p * qf p i); [rewrite Hy; field; lra|].
      do 4 (destruct i as [|i]; [reflexivity|]). lia. }
  destruct (ar_update ck gx gy gz s) as [s' [[]|e|]] eqn:EU.
  - exists s'. split; [reflexivity|]. destruct W as (SS & _ & _ & _ & _ & v & Hv & EV). split; [exact SS|].
    destruct (NQ v Hv) as (v' & EV' & R). rewrite EV in EV'. injection EV' as <-. exact R.
  - exfalso. destruct W as (_ & _ & _ & [(_ & N & _)|(_ & _ & [(_ & N & _)|[(_ & N & _)|(_ & _ & _ & [N|(v & Hv & N)])]])]); try contradiction.
    + apply N. intros i Hi. rewrite ST by auto. apply valid_RX.
    + destruct (NQ v Hv) as (v' & EV' & _). rewrite EV' in N. apply N. reflexivity.
  - exfalso. destruct W as (C & M & O & _). specialize (HO M C). lia.
Qed.

(** ** components *)
Lemma omega_RX (v : nat -> rt) (w : nat -> R) : (forall b, (b < 3)%nat -> v b = Some (w b)) ->
  forall i j, omega_t v i j = Some (omr w i j).
Proof.
  intros H i j. unfold omega_t, omr. rewrite !H by lia. rewrite f0_RX. cbn [fneg RX rx1].
  generalize (4 * i + j)%nat as k. intros k. do 16 (destruct k as [|k]; [reflexivity|]). destruct k; reflexivity.
Qed.
Lemma idm_RX i j : idm (A := RX) i j = Some (rid i j).
Proof. unfold idm, rid. rewrite f0_RX, f1_RX. destruct (i =? j)%nat; reflexivity. Qed.
Definition cfr (t : R) (w : nat -> R) (i j : nat) : R :=
  rid i j * cos (rnorm 3 w * t / 2) + omr w i j * (sin (rnorm 3 w * t / 2) / rnorm 3 w).
Lemma rx_divs a b : b <> 0 -> fdiv (Arith := RX) (Some a) (Some b) = Some (a / b).
Proof. intros H. cbn. rewrite Req_bool_false by auto. reflexivity. Qed.
Lemma cf_RX (t : R) (v : nat -> rt) (w : nat -> R) : (forall b, (b < 3)%nat -> v b = Some (w b)) -> rnorm 3 w <> 0 ->
  forall i j, cf_mat (A := RX) (Some t) v (Some (rnorm 3 w)) i j = Some (cfr t w i j).
Proof.
  intros H N i j. unfold cf_mat. rewrite (omega_RX v w H), idm_RX, f2_RX.
  cbn [fmul RX rx2]. rewrite rx_divs by lra. cbn [fcos fsin RX rx1]. rewrite rx_divs by auto. reflexivity.
Qed.
Lemma apply_RX (M : nat -> nat -> rt) (Mr : nat -> nat -> R) f (q : quat) : (forall i j, M i j = Some (Mr i j)) ->
  (forall i, (i < 4)%nat -> f i = Some (qf q i)) ->
  forall i k, (k <= 4)%nat -> fsum k (fun j => fmul (M i j) (f j)) = Some (Rsum k (fun j => Mr i j * qf q j)).
Proof.
  intros HM Hf i k. induction k as [|k IH]; intros Hk; cbn [fsum Rsum]; [exact f0_RX|].
  rewrite IH by lia. rewrite HM, Hf by lia. reflexivity.
Qed.
Lemma qnorm2_mul p q : qnorm2 (qmul p q) = qnorm2 p * qnorm2 q.
Proof. unfold qnorm2, qmul. cbn. ring. Qed.
Lemma turn_unit w t : rnorm 3 w <> 0 -> unitq (turn w t).
Proof.
  intros N. unfold unitq, qnorm2, turn. cbn. rewrite <- rnorm3. set (n := rnorm 3 w) in *. set (a := n * t / 2).
  assert (E : w 0%nat * w 0%nat + w 1%nat * w 1%nat + w 2%nat * w 2%nat = n * n).
  { unfold n. rewrite rnorm_sqr. unfold rdot. cbn [Rsum]. ring. }
  pose proof (sin2_cos2 a) as SC. unfold Rsqr in SC.
  replace (cos a * cos a + sin a * (w 0%nat / n) * (sin a * (w 0%nat / n)) + sin a * (w 1%nat / n) * (sin a * (w 1%nat / n)) + sin a * (w 2%nat / n) * (sin a * (w 2%nat / n)))
    with (cos a * cos a + sin a * sin a * ((w 0%nat * w 0%nat + w 1%nat * w 1%nat + w 2%nat * w 2%nat) / (n * n))) by (field; auto).
  rewrite E. replace (n * n / (n * n)) with 1 by (field; auto). lra.
Qed.
Lemma qnormalized_mul_r q r : unitq r -> qnormalized (qmul q r) = qmul (qnormalized q) r.
Proof.
  intros U. unfold qnormalized, qnorm. rewrite qnorm2_mul, U, Rmult_1_r. unfold qscale, qmul. cbn. f_equal; ring.
Qed.
Lemma cf_step t w q i : rnorm 3 w <> 0 -> (i < 4)%nat -> Rsum 4 (fun j => cfr t w i j * qf q j) = qf (qmul q (turn w t)) i.
Proof.
  intros N Hi. unfold cfr, turn. rewrite <- rnorm3. set (n := rnorm 3 w) in *. set (a := n * t / 2). cbn [Rsum].
  do 4 (destruct i as [|i]; [cbn; field; auto|]). lia.
Qed.
(** ** C43 *)
(*@ C43_closed_form *)
(** C43, in exact arithmetic and after any history: a ClosedForm update at the corrected rate w over the period t
    multiplies the normalised attitude on the right by the turn of angle |w| t about w, if |w| exceeds EPSILON;
    otherwise it leaves the attitude unchanged *)
Lemma l_closed_form :
  forall (ck : bool) (s : AR (A := RX)) (c : Config) (q : quat) (w : nat -> R) (t : R) (gx gy gz : T),
  ar_hist ck s Live -> ar_method s = ClosedForm -> ar_ts s = Some t -> quat_r (ar_attitude s) q ->
  sensor_get_config Gyr (ar_gyr s) = Ok c -> (forall b, (b < 3)%nat -> corrected Gyr c (raw3 gx gy gz) 3 b = Some (w b)) ->
  exists s', ar_update ck gx gy gz s = (s', Ok tt) /\
    (rnorm 3 w <= eps -> ar_attitude s' = ar_attitude s) /\
    (eps < rnorm 3 w -> eps < qnorm q -> quat_r (ar_attitude s') (qmul (qnormalized q) (turn w t))) /\
    (eps < rnorm 3 w -> qnorm q <= eps -> quat_r (ar_attitude s') qzero).
Proof.
  intros ck s c q w t gx gy gz H M TS Hq Hc Hw. pose proof (hist_inv _ _ _ H) as IV.
  destruct (Rle_lt_dec (rnorm 3 w) eps) as [L|L].
  - destruct (update_still ck gx gy gz s c _ w IV Hc Hq Hw L) as (s' & E & Ea). exists s'. split; [exact E|]. split; [auto|]. split; lra.
  - assert (N : rnorm 3 w <> 0) by (unfold eps in L; lra).
    assert (Hf : forall i, (i < 4)%nat -> (fun i => Some (qf q i)) i = Some (qf q i)) by reflexivity.
    destruct (update_turn ck gx gy gz s c _ w (qmul q (turn w t)) IV Hc Hq Hw L) as (s' & E & _ & R1 & R2).
    + left. exact M.
    + rewrite M. discriminate.
    + rewrite M, TS. split; [intros; rewrite (omega_RX _ w Hw); apply valid_RX|]. intros i j Hi Hj.
      split; [|split; [|split]].
      * rewrite idm_RX, f2_RX. cbn [fmul RX rx2]. rewrite rx_divs by lra. apply valid_RX.
      * rewrite (omega_RX _ w Hw), f2_RX. cbn [fmul RX rx2]. rewrite rx_divs by lra. cbn [fcos fsin RX rx1]. rewrite rx_divs by auto. apply valid_RX.
      * rewrite (cf_RX _ _ w Hw) by auto. apply valid_RX.
      * intros k Hk. rewrite (apply_RX _ _ _ q (cf_RX t _ w Hw N) Hf) by lia. apply valid_RX.
    + intros i Hi. rewrite M, TS. cbn [step]. rewrite (apply_RX _ _ _ q (cf_RX t _ w Hw N) Hf) by lia. rewrite cf_step by auto. reflexivity.
    + exists s'. split; [exact E|]. split; [lra|].
      assert (QN : qnorm (qmul q (turn w t)) = qnorm q). { unfold qnorm. rewrite qnorm2_mul, (turn_unit w t N), Rmult_1_r. reflexivity. }
      rewrite QN in *. rewrite qnormalized_mul_r in R1 by (apply turn_unit; auto). auto.
Qed.

Lemma turn_add w a b : rnorm 3 w <> 0 -> qmul (turn w a) (turn w b) = turn w (a + b).
Proof.
  intros N. unfold turn, qmul. cbn. rewrite <- rnorm3. set (n := rnorm 3 w) in *.
  assert (E : w 0%nat * w 0%nat + w 1%nat * w 1%nat + w 2%nat * w 2%nat = n * n).
  { unfold n. rewrite rnorm_sqr. unfold rdot. cbn [Rsum]. ring. }
  replace (n * (a + b) / 2) with (n * a / 2 + n * b / 2) by field. rewrite cos_plus, sin_plus.
  set (x := n * a / 2). set (y := n * b / 2). f_equal; try (field; auto).
  replace (sin x * (w 0%nat / n) * (sin y * (w 0%nat / n)) + sin x * (w 1%nat / n) * (sin y * (w 1%nat / n)) + sin x * (w 2%nat / n) * (sin y * (w 2%nat / n)))
    with (sin x * sin y * ((w 0%nat * w 0%nat + w 1%nat * w 1%nat + w 2%nat * w 2%nat) / (n * n))) by (field; auto).
  rewrite E. field. auto.
Qed.
Lemma turn_0 w : turn w 0 = qone.
Proof. unfold turn, qone. replace (_ * 0 / 2) with 0 by field. rewrite cos_0, sin_0. f_equal; ring. Qed.
Lemma qmul_assoc p q r : qmul (qmul p q) r = qmul p (qmul q r).
Proof. unfold qmul. cbn. f_equal; ring. Qed.
Lemma qmul_one q : qmul q qone = q.
Proof. destruct q. unfold qmul, qone. cbn. f_equal; ring. Qed.
Lemma qnormalized_unit q : unitq q -> qnormalized q = q.
Proof. intros U. unfold qnormalized. rewrite (unit_norm q U). destruct q. unfold qscale. cbn. f_equal; field. Qed.
Lemma unit_mul p q : unitq p -> unitq q -> unitq (qmul p q).
Proof. unfold unitq. intros P Q. rewrite qnorm2_mul, P, Q. ring. Qed.

Lemma update_config ck gx gy gz (s s' : AR (A := RX)) c : ar_hist ck s Live -> sensor_get_config Gyr (ar_gyr s) = Ok c ->
  ar_update ck gx gy gz s = (s', Ok tt) ->
  ar_hist ck s' Live /\ sensor_get_config Gyr (ar_gyr s') = Ok c /\ ar_ts s' = ar_ts s /\ ar_method s' = ar_method s /\ ar_order s' = ar_order s.
Proof.
  intros H Hc E. pose proof (l_ar_lifecycle RX _ ck s Live H gx gy gz None None None None c None Euler 0) as (_ & _ & L). rewrite E in L. destruct L as [L _].
  destruct L as (L1 & L2 & L3 & L4); [discriminate|]. rewrite L4, Hc. split; [|auto].
  pose proof (ah_call ck s Live (AUpdate gx gy gz) Live H (an_update _ _ _ _)) as X. cbn [ar_do] in X. rewrite E in X. apply X. discriminate.
Qed.

(*@ C43_repeat *)
(** C43: n updates at a constant rate, from a unit attitude, are one turn over n periods - for every n *)
Lemma l_repeat :
  forall (ck : bool) (s : AR (A := RX)) (c : Config) (q : quat) (w : nat -> R) (t : R) (gx gy gz : T),
  ar_hist ck s Live -> ar_method s = ClosedForm -> ar_ts s = Some t -> quat_r (ar_attitude s) q -> unitq q ->
  sensor_get_config Gyr (ar_gyr s) = Ok c -> (forall b, (b < 3)%nat -> corrected Gyr c (raw3 gx gy gz) 3 b = Some (w b)) ->
  eps < rnorm 3 w ->
  forall n, exists s', ar_repeat ck gx gy gz n s s' /\ quat_r (ar_attitude s') (qmul q (turn w (INR n * t))).
Proof.
  intros ck s c q w t gx gy gz H M TS Hq U Hc Hw L n. assert (N : rnorm 3 w <> 0) by (unfold eps in L; lra).
  assert (X : exists s', ar_repeat ck gx gy gz n s s' /\ quat_r (ar_attitude s') (qmul q (turn w (INR n * t))) /\
            ar_hist ck s' Live /\ sensor_get_config Gyr (ar_gyr s') = Ok c /\ ar_ts s' = Some t /\ ar_method s' = ClosedForm);
    [|destruct X as (s' & ? & ? & _); eauto].
  induction n as [|n IH].
  - exists s. split; [constructor|]. split; [|auto]. cbn [INR]. rewrite Rmult_0_l, turn_0, qmul_one. exact Hq.
  - destruct IH as (s1 & R1 & Q1 & H1 & C1 & T1 & M1).
    destruct (l_closed_form ck s1 c _ w t gx gy gz H1 M1 T1 Q1 C1 Hw) as (s2 & E2 & _ & A2 & _).
    assert (U1 : unitq (qmul q (turn w (INR n * t)))) by (apply unit_mul; [auto|apply turn_unit; auto]).
    specialize (A2 L). rewrite (unit_norm _ U1), (qnormalized_unit _ U1), qmul_assoc, turn_add in A2 by auto.
    destruct (update_config ck gx gy gz s1 s2 c H1 C1 E2) as (H2 & C2 & T2 & M2 & _).
    exists s2. split; [econstructor; eauto|]. split; [|rewrite T2, M2; auto].
    replace (INR (S n) * t) with (INR n * t + t) by (rewrite S_INR; ring). apply A2. unfold eps. lra.
Qed.

(*@ C43_kinematics *)
(** C43: the turn is the right one: along q (turn w t) the kinematic equation q' = 1/2 q (0, w) holds for every t,
    starting at q *)
Lemma l_kinematics :
  forall (q : quat) (w : nat -> R), rnorm 3 w <> 0 ->
  qmul q (turn w 0) = q /\
  forall (t : R) (i : nat), (i < 4)%nat ->
  derivable_pt_lim (fun t => qf (qmul q (turn w t)) i) t (qf (qscale (1 / 2) (qmul (qmul q (turn w t)) (purer w))) i).
Proof.
  intros q w N. split; [rewrite turn_0; apply qmul_one|]. intros t i Hi.
  assert (E : w 0%nat * w 0%nat + w 1%nat * w 1%nat + w 2%nat * w 2%nat = rnorm 3 w * rnorm 3 w).
  { rewrite rnorm_sqr. unfold rdot. cbn [Rsum]. ring. }
  unfold turn. rewrite <- rnorm3. set (n := rnorm 3 w) in *.
  assert (DC : derivable_pt_lim (fun t => cos (n * t / 2)) t (- sin (n * t / 2) * (n / 2))).
  { apply (derivable_pt_lim_comp (fun t => n * t / 2) cos); [|apply derivable_pt_lim_cos].
    replace (n / 2) with (n * 1 * / 2 + n * t * 0) by field.
    apply (derivable_pt_lim_mult (fun t => n * t) (fun _ => / 2)); [|apply derivable_pt_lim_const].
    replace (n * 1) with (0 * t + n * 1) by ring. apply (derivable_pt_lim_mult (fun _ => n) (fun t => t)); [apply derivable_pt_lim_const|apply derivable_pt_lim_id]. }
  assert (DS : derivable_pt_lim (fun t => sin (n * t / 2)) t (cos (n * t / 2) * (n / 2))).
  { apply (derivable_pt_lim_comp (fun t => n * t / 2) sin); [|apply derivable_pt_lim_sin].
    replace (n / 2) with (n * 1 * / 2 + n * t * 0) by field.
    apply (derivable_pt_lim_mult (fun t => n * t) (fun _ => / 2)); [|apply derivable_pt_lim_const].
    replace (n * 1) with (0 * t + n * 1) by ring. apply (derivable_pt_lim_mult (fun _ => n) (fun t => t)); [apply derivable_pt_lim_const|apply derivable_pt_lim_id]. }
  assert (LC : forall a b, derivable_pt_lim (fun t => a * cos (n * t / 2) + b * sin (n * t / 2)) t
            (a * (- sin (n * t / 2) * (n / 2)) + b * (cos (n * t / 2) * (n / 2)))).
  { intros a b. apply (derivable_pt_lim_plus (fun t => a * cos (n * t / 2)) (fun t => b * sin (n * t / 2))).
    - apply (derivable_pt_lim_scal (fun t => cos (n * t / 2)) a t _ DC).
    - apply (derivable_pt_lim_scal (fun t => sin (n * t / 2)) b t _ DS). }
  assert (GEN : forall f a b d, (forall t, f t = a * cos (n * t / 2) + b * sin (n * t / 2)) ->
            d = a * (- sin (n * t / 2) * (n / 2)) + b * (cos (n * t / 2) * (n / 2)) -> derivable_pt_lim f t d).
  { intros f a b d Hf ->. specialize (LC a b). intros e He. destruct (LC e He) as (dl & Hd). exists dl. intros h Hh1 Hh2. rewrite !Hf. auto. }
  destruct q as [qw qx qy qz].
  destruct i as [|[|[|[|i]]]]; [| | | |lia].
  - apply (GEN _ qw (- (qx * w 0%nat + qy * w 1%nat + qz * w 2%nat) / n)); cbn; [intros; field; auto|]. 
    set (x := n * t / 2). replace (qw * (- sin x * (n / 2))) with (- qw * sin x * (n * n) / (2 * n)) by (field; auto). rewrite <- E. field. auto.
  - apply (GEN _ qx ((qw * w 0%nat + (qy * w 2%nat - qz * w 1%nat)) / n)); cbn; [intros; field; auto|].
    set (x := n * t / 2). replace (qx * (- sin x * (n / 2))) with (- qx * sin x * (n * n) / (2 * n)) by (field; auto). rewrite <- E. field. auto.
  - apply (GEN _ qy ((qw * w 1%nat + (qz * w 0%nat - qx * w 2%nat)) / n)); cbn; [intros; field; auto|].
    set (x := n * t / 2). replace (qy * (- sin x * (n / 2))) with (- qy * sin x * (n * n) / (2 * n)) by (field; auto). rewrite <- E. field. auto.
  - apply (GEN _ qz ((qw * w 2%nat + (qx * w 1%nat - qy * w 0%nat)) / n)); cbn; [intros; field; auto|].
    set (x := n * t / 2). replace (qz * (- sin x * (n / 2))) with (- qz * sin x * (n * n) / (2 * n)) by (field; auto). rewrite <- E. field. auto.
Qed.
