(** C91: from the errors of the attitude, and from raw readings, to the errors of the directions it gives, in f32. *)
(*@+*)
From Coq Require Import List Arith ZArith NArith Reals Lia Bool Lra SpecFloat.
From Flocq Require Import Core BinarySingleNaN.
From Verif Require Import M_Base M_Arith M_Utils M_Vector M_Matrix M_Quaternion M_Sensors M_Ar M_Aqua M_F32 M_RX
  S_Spec S_Linalg S_Norm S_Quat S_Sensors S_Ar S_Aqua S_F32 S_Reading S_Rest S_Raw S_Direct S_Track S_First S_RawGyr S_Twin P_Inst P_InstF P_Rest32 P_Euler32 P_Angles P_Interp32.
Import ListNotations.
Local Open Scope R_scope.
(*@-*)
From Coq Require Import Psatz.
From Verif Require Import P_Float P_Norm P_FErr P_Norm32 P_Quat P_Rot P_Sensors P_Aqua P_AquaR P_AquaM P_FAcc P_F32Mul P_F32Rot P_F32App P_F32Am P_AmGeo P_Am32 P_RestGeo P_MargRun P_RestF P_Rest32 P_AmTrue P_Qr32 P_Calib32 P_Raw P_Euler P_Euler32 P_ArR P_InstQ P_F32Ar P_RawGyr P_RawGyr1 P_Twin P_Angles P_Angles1 P_TwinA.

(** two attitudes whose tilt and heading errors add up to at most s: a quaternion of the true attitude, of either sign, is near *)
Lemma near_quat q t s : 0 < qnorm q -> unitq t -> tilt_error q t + heading_error q t <= s -> s <= 1 / 20 ->
  exists t', (t' = t \/ t' = qneg t) /\ qdist (qunit q) t' <= 201 / 200 * s.
Proof.
  intros N0 Ut Hs S1. pose proof (qunit_unit q N0) as Up. unfold tilt_error, heading_error, missing in Hs. set (p := qunit q) in *. clearbody p.
  set (E := qmul (qconj p) t) in *.
  assert (UE : unitq E). { unfold unitq, E. rewrite qnorm2_mul. unfold unitq in *. rewrite Ut. replace (qnorm2 (qconj p)) with (qnorm2 p) by (unfold qnorm2; cbn; ring). rewrite Up. ring. }
  assert (W : Qw E = Qw p * Qw t + Qx p * Qx t + Qy p * Qy t + Qz p * Qz t) by (unfold E; cbn; ring).
  unfold unitq, qnorm2 in UE. destruct E as [w x y z]. cbn [Qw Qx Qy Qz] in *.
  assert (PP : forall a, 0 <= a * a) by (intros; apply Rle_0_sqr). pose proof (PP w) as Pw. pose proof (PP x) as Px. pose proof (PP y) as Py. pose proof (PP z) as Pz.
  set (a := sqrt (x * x + y * y)) in *. assert (A0 : 0 <= a) by apply sqrt_pos. assert (AA : a * a = x * x + y * y) by (apply sqrt_sqrt; lra).
  assert (HZ : Rabs z <= Rabs z / sqrt (w * w + z * z)).
  { destruct (Req_dec z 0) as [-> | Z0]. { rewrite Rabs_R0. unfold Rdiv. rewrite Rmult_0_l. lra. }
    assert (Z2 : 0 < z * z) by nra. set (k := sqrt (w * w + z * z)). assert (K0 : 0 < k) by (apply sqrt_lt_R0; lra).
    assert (K1 : k <= 1). { unfold k. rewrite <- sqrt_1. apply sqrt_le_1_alt. lra. }
    apply Rmult_le_reg_r with k; [exact K0|]. replace (Rabs z / k * k) with (Rabs z) by (field; lra). pose proof (Rabs_pos z). nra. }
  assert (VS : x * x + y * y + z * z <= s * s).
  { rewrite <- AA. assert (HB : a + Rabs z <= s) by lra. pose proof (Rabs_pos z). replace (z * z) with (Rabs z * Rabs z) by (rewrite <- Rabs_mult; apply Rabs_pos_eq; lra). nra. }
  assert (S0 : 0 <= s) by (pose proof (Rabs_pos z); lra).
  assert (W2 : 1 - s * s <= w * w <= 1) by lra.
  assert (SQ : forall n, 0 <= n -> n <= 800 / 799 * (s * s) -> sqrt n <= 201 / 200 * s).
  { intros n Hn Hn2. rewrite <- (sqrt_square (201 / 200 * s)) by lra. apply sqrt_le_1_alt. nra. }
  unfold unitq, qnorm2 in Up, Ut.
  destruct (Rle_lt_dec 0 w) as [L|L].
  - exists t. split; [left; reflexivity|]. unfold qdist, qnorm. apply SQ; [unfold qnorm2; pose proof (PP (Qw (qsub p t))); pose proof (PP (Qx (qsub p t))); pose proof (PP (Qy (qsub p t))); pose proof (PP (Qz (qsub p t))); lra|].
    replace (qnorm2 (qsub p t)) with (2 - 2 * w) by (rewrite W; unfold qnorm2; cbn; nra). assert (399 / 400 <= w) by nra. nra.
  - exists (qneg t). split; [right; reflexivity|].
    unfold qdist, qnorm. apply SQ; [unfold qnorm2; pose proof (PP (Qw (qsub p (qneg t)))); pose proof (PP (Qx (qsub p (qneg t)))); pose proof (PP (Qy (qsub p (qneg t)))); pose proof (PP (Qz (qsub p (qneg t)))); lra|].
    replace (qnorm2 (qsub p (qneg t))) with (2 + 2 * w) by (rewrite W; unfold qnorm2; cbn; nra). assert (w <= - (399 / 400)) by nra. nra.
Qed.
Lemma qrot_neg t x i : (i < 3)%nat -> qrot (qneg t) x i = qrot t x i.
Proof. intros Hi. do 3 (destruct i as [|i]; [cbn; ring|]). lia. Qed.
Lemma qrot_ncj t x i : (i < 3)%nat -> qrot (qconj (qneg t)) x i = qrot (qconj t) x i.
Proof. intros Hi. do 3 (destruct i as [|i]; [cbn; ring|]). lia. Qed.

Lemma turns_as_near (lm : Libm) (w : Vec (T (Arith := F32 lm))) (q t t' : quat) (e : R) : quat_f w q -> Rabs (qnorm q - 1) <= / 1000000 -> unitq t ->
  t' = t \/ t' = qneg t -> qdist (qunit q) t' <= e -> turns_as w t (2 * e + 19 / 1000000).
Proof.
  intros Hq HN Ut HT HD. assert (N0 : 0 < qnorm q) by (apply Rabs_le_inv in HN; lra). pose proof (qunit_unit q N0) as Up.
  assert (Ut' : unitq t') by (destruct HT as [-> | ->]; [exact Ut|unfold unitq, qnorm2 in *; cbn; lra]).
  assert (R1 : forall x i, (i < 3)%nat -> qrot t' x i = qrot t x i) by (intros x i Hi; destruct HT as [-> | ->]; [reflexivity|apply qrot_neg, Hi]).
  assert (R2 : forall x i, (i < 3)%nat -> qrot (qconj t') x i = qrot (qconj t) x i) by (intros x i Hi; destruct HT as [-> | ->]; [reflexivity|apply qrot_ncj, Hi]).
  assert (UC : unitq (qconj t')) by (unfold unitq, qnorm2 in *; cbn; lra). assert (UCp : unitq (qconj (qunit q))) by (unfold unitq in *; rewrite <- Up; unfold qnorm2, qconj; cbn; ring).
  assert (NC : qnorm (qconj q) = qnorm q) by (unfold qnorm, qnorm2, qconj; cbn; f_equal; ring).
  assert (CU : qunit (qconj q) = qconj (qunit q)) by (unfold qunit; rewrite NC; apply quat_eta; cbn; ring).
  assert (CD : qdist (qconj (qunit q)) (qconj t') = qdist (qunit q) t') by (unfold qdist, qnorm, qnorm2; f_equal; cbn; ring).
  assert (D0 : 0 <= qdist (qunit q) t') by apply sqrt_pos.
  assert (GO : forall x, vdist 3 (qrot (qunit q) x) (qrot t x) <= 2 * e * rnorm 3 x).
  { intros x. rewrite (vdist_ext _ (qrot t x) (qrot (qunit q) x) (qrot t' x)) by (intros i Hi; first [reflexivity|symmetry; apply R1, Hi]).
    eapply Rle_trans; [apply (qrot_close _ _ x Up Ut')|]. apply Rmult_le_compat_r; [apply rnorm_pos|lra]. }
  assert (BACK : forall x, vdist 3 (qrot (qconj (qunit q)) (qrot t x)) x <= 2 * e * rnorm 3 x).
  { intros x. rewrite (vdist_ext _ x (qrot (qconj (qunit q)) (qrot t x)) (qrot (qconj t') (qrot t x))).
    2:{ reflexivity. } 2:{ intros i Hi. rewrite R2 by exact Hi. rewrite qrot_back by auto. reflexivity. }
    eapply Rle_trans; [apply (qrot_close _ _ (qrot t x) UCp UC)|]. rewrite CD, (qrot_len t x Ut). apply Rmult_le_compat_r; [apply rnorm_pos|lra]. }
  split; [|split].
  - intros v x Hv HX. destruct (l_rotate32 lm w v q x (/ 1000000) Hq HN ltac:(lra) Hv HX) as (v1 & _ & y & E1 & _ & H1 & _ & D1 & _).
    exists v1, y. split; [exact E1|]. split; [exact H1|]. eapply Rle_trans; [apply (vdist_tri _ (qrot (qunit q) x))|]. pose proof (GO x). lra.
  - destruct (conj_f lm w q Hq) as (wc & Ec & Hc). exists wc. split; [exact Ec|]. intros v x Hv HX.
    destruct (l_rotate32 lm wc v (qconj q) (qrot t x) (/ 1000000) Hc ltac:(rewrite NC; exact HN) ltac:(lra) Hv ltac:(rewrite (qrot_len t x Ut); exact HX)) as (v1 & _ & y & E1 & _ & H1 & _ & D1 & _).
    rewrite CU, (qrot_len t x Ut) in D1.
    exists v1, y. split; [exact E1|]. split; [exact H1|]. eapply Rle_trans; [apply (vdist_tri _ (qrot (qconj (qunit q)) (qrot t x)))|]. pose proof (BACK x). lra.
  - destruct (l_dcm32 lm w q (/ 1000000) Hq HN ltac:(lra)) as (m & a & Em & Hm & _ & HA). exists m, a. split; [exact Em|]. split; [exact Hm|]. intros i j Hi Hj.
    replace (a i j - rotmat t i j) with ((a i j - rotmat (qunit q) i j) + (rotmat (qunit q) i j - rotmat t i j)) by ring. eapply Rle_trans; [apply Rabs_triang|].
    assert (HB : Rabs (rotmat (qunit q) i j - rotmat t i j) <= 2 * e).
    { unfold rotmat. eapply Rle_trans; [apply (vdist_comp (qrot (qunit q) (basis j)) (qrot t (basis j)) i Hi)|]. pose proof (GO (basis j)) as G. rewrite basis_1 in G by exact Hj. lra. }
    pose proof (HA i j Hi Hj). lra.
Qed.

(*@ C91_attitude *)
(** C91: take an f32 attitude of norm 1 within 1e-6 whose tilt and heading errors relative to a true attitude t add up to at most s (up to 1/20).
    Rotating a vector of the reference frame with it gives what the body sees, rotating what the body sees with its conjugate
    gives the vector of the reference frame, and its matrix is the matrix of t, all up to 2.01 s + 1.9e-5 (times the length of the vector) *)
Lemma l_direct :
  forall (lm : Libm) (w : Vec (T (Arith := F32 lm))) (q t : quat) (s : R),
  quat_f w q -> Rabs (qnorm q - 1) <= / 1000000 -> unitq t -> tilt_error q t + heading_error q t <= s -> s <= / 20 ->
  turns_as w t (201 / 100 * s + 19 / 1000000).
Proof.
  intros lm w q t s Hq HN Ut Hs S1. assert (N0 : 0 < qnorm q) by (apply Rabs_le_inv in HN; lra).
  destruct (near_quat q t s N0 Ut Hs ltac:(lra)) as (t' & HT & HD). replace (201 / 100 * s) with (2 * (201 / 200 * s)) by lra. exact (turns_as_near lm w q t t' _ Hq HN Ut HT HD).
Qed.

(*@ C91_raw *)
(** C91: so an update in mode AM from raw readings (the situation of C79) leaves an attitude that turns vectors as the true one does,
    up to the error given by the noise of the readings *)
Lemma l_direct_raw :
  forall (lm : Libm) (s : Aqua (A := F32 lm)) (ca cm : Config (A := F32 lm)) (gx gy gz : option (T (Arith := F32 lm)))
    (ax ay az mx my mz : T (Arith := F32 lm)) (t : quat) (h v eta mu Ka Km : R),
  aq_hist s Live -> aq_mode s = AM -> aq_get_accelerometer_config s = Ok ca -> aq_get_magnetometer_config s = Ok cm ->
  let a := calibrated Acc ca (raw3 ax ay az) in let m := calibrated Mag cm (raw3 mx my mz) in
  ordinary Acc ca (raw3 ax ay az) -> ordinary Mag cm (raw3 mx my mz) ->
  mixing Acc ca (raw3 ax ay az) Ka -> mixing Mag cm (raw3 mx my mz) Km -> 1 <= Ka <= 10000 -> 1 <= Km <= 10000 ->
  3 * eps <= rnorm 3 a <= bpow radix2 59 -> 3 * eps <= rnorm 3 m <= bpow radix2 59 ->
  unitq t -> 2 / 1000 <= h -> h * h + v * v = 1 ->
  vdist 3 (fun i => a i / rnorm 3 a) (qrot t (triple 0 0 (-1))) <= eta ->
  vdist 3 (fun i => m i / rnorm 3 m) (qrot t (triple h 0 v)) <= mu ->
  let rho := (mu + 13 / 10000000 * Km) + 102 / 100 * (eta + 13 / 10000000 * Ka) + 14 / 100000 in rho <= 1 / 3 * h ->
  let e := (eta + 13 / 10000000 * Ka) / 2 + 15 / 1000000 + 51 / 100 * (rho / h) in e <= / 20 ->
  exists s' w, aq_update gx gy gz ax ay az mx my mz s = (s', Ok tt) /\ aq_get_attitude s' = Ok w /\ turns_as w t (201 / 100 * e + 19 / 1000000).
Proof.
  intros lm s ca cm gx gy gz ax ay az mx my mz t h v eta mu Ka Km HH EM Ca Cm a m Oa Om Ma Mm HKa HKm Na Nm Ut Hh Hv Da Dm rho Hrho e He.
  destruct (l_raw_am lm s ca cm gx gy gz ax ay az mx my mz t h v eta mu Ka Km HH EM Ca Cm Oa Om Ma Mm HKa HKm Na Nm Ut Hh Hv Da Dm Hrho) as (s' & w & q & EU & EA & Hq & HN & HT & HD).
  fold rho in HD. exists s', w. split; [exact EU|]. split; [exact EA|]. exact (l_direct lm w q t e Hq ltac:(left; exact HN) Ut ltac:(unfold e; lra) He).
Qed.

(*@ C91_rest *)
(** C91: likewise for mode MARG with fixed gains, after a number of updates at rest that depends only on the gains, the horizontal field and the margin d *)
Lemma l_direct_rest :
  forall (ka kb h d : R), 0 < ka <= 1 -> 0 < kb <= 1 -> 0 < h -> 0 < d ->
  exists N, forall (lm : Libm) (s : Aqua (A := F32 lm)) (cg ca cm : Config (A := F32 lm)) (q t : quat) (ts ta tm e eta mu : R) (z : nat -> nat -> T (Arith := F32 lm)),
  marg32 s cg ca cm q ts ka ta kb tm -> unitq t -> (forall n, resting cg ca cm t h ts e eta mu (z n)) -> quiet ka kb h e eta mu -> near_truth q t h ->
  let b := tilt_rest ka e eta + heading_rest ka kb h e eta mu + d in b <= / 20 ->
  forall n, (N <= n)%nat -> exists s' w, run_with z n s = Some s' /\ aq_get_attitude s' = Ok w /\ turns_as w t (201 / 100 * b + 19 / 1000000).
Proof.
  intros ka kb h d Hka Hkb Hh Hd. destruct (l_rest_settles ka kb h (d / 2) Hka Hkb Hh ltac:(lra)) as (N & HNN). exists N.
  intros lm s cg ca cm q t ts ta tm e eta mu z HM Ut HR HQ HT b Hb n Hn.
  destruct (HNN lm s cg ca cm q t ts ta tm e eta mu z HM Ut HR HQ HT n Hn) as (s' & w & q' & ER & EA & Hq & Hno & H1 & H2).
  exists s', w. split; [exact ER|]. split; [exact EA|]. exact (l_direct lm w q' t b Hq ltac:(left; exact Hno) Ut ltac:(unfold b; lra) Hb).
Qed.

(*@ C91_rates *)
(** C91: likewise for the angular-rate filter in closed form (the situation of C83), fed with any number of raw samples: its attitude turns vectors as
    that of the body turned at its true rates *)
Lemma l_direct_rates :
  forall (lm : Libm) (ck : bool) (s : AR (A := F32 lm)) (c : Config (A := F32 lm)) (l : list (sample lm)) (q p : quat) (d B M : R),
  ar_hist ck s Live -> ar_method s = ClosedForm -> is_finite (ar_ts s : f32) = true -> let t := B2R (ar_ts s : f32) in
  sensor_get_config Gyr (M_Ar.ar_gyr s) = Ok c -> quat_f (ar_attitude s) q -> Rabs (qnorm q - 1) < / 1000000 -> unitq p ->
  libm_accurate lm d B -> 0 <= d <= / 100 -> 1 <= B <= 1000 -> 0 <= M ->
  Forall (fun z => bounded c M z /\ rnorm 3 (true_rate z) + rate_error c M z <= bpow radix2 60 /\ (rnorm 3 (true_rate z) + rate_error c M z) * Rabs t <= B) l ->
  let e := qdist q p + sum_map (fun z => (7 + 2 * (rnorm 3 (true_rate z) * Rabs t)) / 1000000 + 5 * d + eps * Rabs t + 501 / 1000 * (rate_error c M z * Rabs t)) l in
  exists s', ar_feed ck l s = (s', Ok tt) /\ turns_as (ar_attitude s') (turns t p (map true_rate l)) (2 * e + 21 / 1000000).
Proof.
  intros lm ck s c l q p d B M HH EM Ft t EG Hq HN Up HL Hd HB HM HF e.
  destruct (l_feed lm ck s c l q p d B M HH EM Ft EG Hq HN HL Hd HB HM HF) as (s' & r & EF & Hr & Nr & D). fold t e in D.
  set (T := turns t p (map true_rate l)) in *. assert (UT : unitq T) by (apply turns_unit, Up).
  assert (N0 : 0 < qnorm r) by (apply Rabs_def2 in Nr; lra).
  assert (DU : qdist (qunit r) T <= e + / 1000000).
  { eapply Rle_trans; [apply (qdist_tri _ r)|]. rewrite qdist_sym, qunit_dist by exact N0. lra. }
  exists s'. split; [exact EF|]. replace (2 * e + 21 / 1000000) with (2 * (e + / 1000000) + 19 / 1000000) by lra.
  apply (turns_as_near lm _ r T T); auto. left; exact Nr.
Qed.

(*@ C91_first *)
(** C91: and for the angular-rate filter on the Taylor series of order 1 (the situation of C87) *)
Lemma l_direct_first :
  forall (lm : Libm) (ck : bool) (s : AR (A := F32 lm)) (c : Config (A := F32 lm)) (l : list (sample lm)) (q p : quat) (d M : R),
  ar_hist ck s Live -> ar_method s = TaylorSeries -> ar_order s = 1%nat -> is_finite (ar_ts s : f32) = true -> let t := B2R (ar_ts s : f32) in
  sensor_get_config Gyr (M_Ar.ar_gyr s) = Ok c -> quat_f (ar_attitude s) q -> Rabs (qnorm q - 1) < / 1000000 -> unitq p ->
  pow_one lm d -> 0 <= d <= / 1000 -> 0 <= M ->
  Forall (fun z => bounded c M z /\ rnorm 3 (true_rate z) + rate_error c M z <= bpow radix2 60 /\ (rnorm 3 (true_rate z) + rate_error c M z) * Rabs t <= 1000) l ->
  let e := qdist q p + sum_map (fun z => let X := (rnorm 3 (true_rate z) + rate_error c M z) * Rabs t in X * X * X / 23 + 6 / 1000000 + 5 * d + eps * Rabs t + 501 / 1000 * (rate_error c M z * Rabs t)) l in
  exists s', ar_feed ck l s = (s', Ok tt) /\ turns_as (ar_attitude s') (turns t p (map true_rate l)) (2 * e + 21 / 1000000).
Proof.
  intros lm ck s c l q p d M HH EM EO Ft t EG Hq HN Up HL Hd HM HF e.
  destruct (l_feed_taylor lm ck s c l q p d M HH EM EO Ft EG Hq HN HL Hd HM HF) as (s' & r & EF & Hr & Nr & D). fold t e in D.
  set (T := turns t p (map true_rate l)) in *. assert (UT : unitq T) by (apply turns_unit, Up).
  assert (N0 : 0 < qnorm r) by (apply Rabs_def2 in Nr; lra).
  assert (DU : qdist (qunit r) T <= e + / 1000000).
  { eapply Rle_trans; [apply (qdist_tri _ r)|]. rewrite qdist_sym, qunit_dist by exact N0. lra. }
  exists s'. split; [exact EF|]. replace (2 * e + 21 / 1000000) with (2 * (e + / 1000000) + 19 / 1000000) by lra.
  apply (turns_as_near lm _ r T T); auto. left; exact Nr.
Qed.

(*@ C91_adaptive *)
(** C91: and for a filter with an adaptive gain at rest whose reference suits accelerations of length one (C90) *)
Lemma l_direct_twin :
  forall (ka kb h d : R), 0 < ka <= 1 -> 0 < kb <= 1 -> 0 < h -> 0 < d ->
  exists N, forall (lm : Libm) (s s0 : Aqua (A := F32 lm)) (cg ca cm : Config (A := F32 lm)) (q t : quat) (ts ta tm e eta mu : R) (z : nat -> nat -> T (Arith := F32 lm)),
  aq_hist s Live -> alike s s0 -> marg32 s0 cg ca cm q ts ka ta kb tm -> unitq t -> (forall n, resting cg ca cm t h ts e eta mu (z n)) ->
  quiet ka kb h e eta mu -> near_truth q t h -> steady s ->
  let b := tilt_rest ka e eta + heading_rest ka kb h e eta mu + d in b <= / 20 ->
  forall n, (N <= n)%nat -> exists s' w, run_with z n s = Some s' /\ aq_get_attitude s' = Ok w /\ turns_as w t (201 / 100 * b + 19 / 1000000).
Proof.
  intros ka kb h d Hka Hkb Hh Hd. destruct (l_direct_rest ka kb h d Hka Hkb Hh Hd) as (N & K). exists N.
  intros lm s s0 cg ca cm q t ts ta tm e eta mu z H AL M U R Q NT ST b B1 n Hn.
  destruct (run_twin lm s s0 cg ca cm q t ts ka ta kb tm h e eta mu z H AL M U R Q NT ST n) as (s' & s0' & R1 & R01 & H1 & AL1 & EA & _).
  destruct (K lm s0 cg ca cm q t ts ta tm e eta mu z M U R Q NT B1 n Hn) as (s0'' & w & R02 & Ew & HA). rewrite R01 in R02. injection R02 as <-.
  exists s', w. split; [exact R1|]. split; [rewrite <- Ew, (alike_put _ _ AL1); reflexivity|exact HA].
Qed.

Lemma direct_ex :
  exists (w v : Vec (T (Arith := F32 angle_libm))), let t := Quat (cos (/ 100)) 0 0 (sin (/ 100)) in
  quat_f w qone /\ Rabs (qnorm qone - 1) <= / 1000000 /\ unitq t /\ tilt_error qone t + heading_error qone t <= / 100 /\
  vec_f v 3 (triple 1 2 3) /\ rnorm 3 (triple 1 2 3) <= bpow radix2 100.
Proof.
  destruct angles_ex as (w & H). cbv zeta in H. destruct H as (H1 & H2 & H3 & H4 & _). exists w, (mk_vec (A := F32 angle_libm) (map z32 [1; 2; 3]%Z)). cbv zeta.
  do 4 (split; [assumption|]). split; [apply (fvec3_z angle_libm); lia|].
  apply Rle_trans with 4; [|apply Rle_trans with (bpow radix2 2); [cbn; lra|apply bpow_le; lia]].
  unfold rnorm, rdot. cbn. rewrite <- (sqrt_square 4) by lra. apply sqrt_le_1_alt. lra.
Qed.
(*@ example *)
(** the identity, off by more than a degree, and a vector *)
Example C91_example :
  exists (w v : Vec (T (Arith := F32 angle_libm))), let t := Quat (cos (/ 100)) 0 0 (sin (/ 100)) in
  quat_f w qone /\ Rabs (qnorm qone - 1) <= / 1000000 /\ unitq t /\ tilt_error qone t + heading_error qone t <= / 100 /\
  vec_f v 3 (triple 1 2 3) /\ rnorm 3 (triple 1 2 3) <= bpow radix2 100.
Proof. exact direct_ex. Qed.

Lemma direct_raw_ex : exists (s : Aqua (A := F32 angle_libm)) (ca : Config (A := F32 angle_libm)), aq_hist s Live /\ aq_mode s = AM /\
  aq_get_accelerometer_config s = Ok ca /\ aq_get_magnetometer_config s = Ok default_config /\
  let ra := raw3 (A := F32 angle_libm) (z32 (-9)) (z32 4) (z32 1) in let rm := raw3 (A := F32 angle_libm) (z32 125) (z32 0) (z32 0) in
  let a := calibrated Acc ca ra in let m := calibrated Mag default_config rm in
  ordinary Acc ca ra /\ ordinary Mag default_config rm /\ mixing Acc ca ra 1 /\ mixing Mag default_config rm 1 /\
  3 * eps <= rnorm 3 a <= bpow radix2 59 /\ 3 * eps <= rnorm 3 m <= bpow radix2 59 /\
  let t := Quat (4 / 5) (2 / 5) (2 / 5) (1 / 5) in unitq t /\
  vdist 3 (fun i => a i / rnorm 3 a) (qrot t (triple 0 0 (-1))) <= 1 / 100 /\
  vdist 3 (fun i => m i / rnorm 3 m) (qrot t (triple (3 / 5) 0 (4 / 5))) <= 2 / 100 /\
  let rho := (2 / 100 + 13 / 10000000 * 1) + 102 / 100 * (1 / 100 + 13 / 10000000 * 1) + 14 / 100000 in rho <= 1 / 3 * (3 / 5) /\
  (1 / 100 + 13 / 10000000 * 1) / 2 + 15 / 1000000 + 51 / 100 * (rho / (3 / 5)) <= / 20.
Proof.
  destruct raw_angles_ex as (s & ca & H). cbv zeta in *. decompose [and] H. clear H. exists s, ca. repeat first [assumption | match goal with |- _ /\ _ => split end | lra].
Qed.
(*@ example *)
(** the raw readings of C79's example satisfy the hypotheses of [C91_raw] *)
Example C91_example_raw : exists (s : Aqua (A := F32 angle_libm)) (ca : Config (A := F32 angle_libm)), aq_hist s Live /\ aq_mode s = AM /\
  aq_get_accelerometer_config s = Ok ca /\ aq_get_magnetometer_config s = Ok default_config /\
  let ra := raw3 (A := F32 angle_libm) (z32 (-9)) (z32 4) (z32 1) in let rm := raw3 (A := F32 angle_libm) (z32 125) (z32 0) (z32 0) in
  let a := calibrated Acc ca ra in let m := calibrated Mag default_config rm in
  ordinary Acc ca ra /\ ordinary Mag default_config rm /\ mixing Acc ca ra 1 /\ mixing Mag default_config rm 1 /\
  3 * eps <= rnorm 3 a <= bpow radix2 59 /\ 3 * eps <= rnorm 3 m <= bpow radix2 59 /\
  let t := Quat (4 / 5) (2 / 5) (2 / 5) (1 / 5) in unitq t /\
  vdist 3 (fun i => a i / rnorm 3 a) (qrot t (triple 0 0 (-1))) <= 1 / 100 /\
  vdist 3 (fun i => m i / rnorm 3 m) (qrot t (triple (3 / 5) 0 (4 / 5))) <= 2 / 100 /\
  let rho := (2 / 100 + 13 / 10000000 * 1) + 102 / 100 * (1 / 100 + 13 / 10000000 * 1) + 14 / 100000 in rho <= 1 / 3 * (3 / 5) /\
  (1 / 100 + 13 / 10000000 * 1) / 2 + 15 / 1000000 + 51 / 100 * (rho / (3 / 5)) <= / 20.
Proof. exact direct_raw_ex. Qed.

Lemma direct_rest_ex : exists (s s0 : Aqua (A := F32 angle_libm)) ts ka ta kb tm,
  aq_hist s Live /\ aq_adaptive s = true /\ alike s s0 /\ steady s /\
  marg32 s0 default_config default_config default_config qone ts ka ta kb tm /\ unitq ex_t /\
  resting (lm := angle_libm) default_config default_config default_config ex_t (3 / 5) ts 0 0 0 (ex_z angle_libm) /\
  quiet ka kb (3 / 5) 0 0 0 /\ near_truth qone ex_t (3 / 5) /\ 0 < ka <= 1 /\ 0 < kb <= 1 /\
  tilt_rest ka 0 0 + heading_rest ka kb (3 / 5) 0 0 0 + / 100 <= / 20.
Proof.
  destruct twin_angles_ex as (s & s0 & ts & ka & ta & kb & tm & roll & pitch & yaw & H). decompose [and] H. clear H. exists s, s0, ts, ka, ta, kb, tm.
  pose proof (COS_bound pitch). repeat first [assumption | match goal with |- _ /\ _ => split end | lra].
Qed.
(*@ example *)
(** a filter with an adaptive gain, its twin with a fixed gain, and measurements meeting the hypotheses of [C91_rest] and [C91_adaptive] *)
Example C91_example_rest : exists (s s0 : Aqua (A := F32 angle_libm)) ts ka ta kb tm,
  aq_hist s Live /\ aq_adaptive s = true /\ alike s s0 /\ steady s /\
  marg32 s0 default_config default_config default_config qone ts ka ta kb tm /\ unitq ex_t /\
  resting (lm := angle_libm) default_config default_config default_config ex_t (3 / 5) ts 0 0 0 (ex_z angle_libm) /\
  quiet ka kb (3 / 5) 0 0 0 /\ near_truth qone ex_t (3 / 5) /\ 0 < ka <= 1 /\ 0 < kb <= 1 /\
  tilt_rest ka 0 0 + heading_rest ka kb (3 / 5) 0 0 0 + / 100 <= / 20.
Proof. exact direct_rest_ex. Qed.

Lemma direct_rates_ex :
  forall ck : bool, exists (s : AR (A := F32 good_libm)) (c : Config (A := F32 good_libm)),
  ar_hist ck s Live /\ ar_method s = ClosedForm /\ is_finite (ar_ts s : f32) = true /\ B2R (ar_ts s : f32) = 1 /\
  sensor_get_config Gyr (M_Ar.ar_gyr s) = Ok c /\ quat_f (ar_attitude s) qone /\ Rabs (qnorm qone - 1) < / 1000000 /\
  libm_accurate good_libm (2 / 10000000) 1000 /\
  let z := Sample (lm := good_libm) (z32 1) (z32 0) (z32 1) (triple 0 0 (101 / 100)) in
  bounded c 4 z /\ rnorm 3 (true_rate z) + rate_error c 4 z <= bpow radix2 60 /\ (rnorm 3 (true_rate z) + rate_error c 4 z) * Rabs 1 <= 1000.
Proof.
  intros ck. destruct (rate_angles_ex ck) as (s & c & H). cbv zeta in *. decompose [and] H. clear H. exists s, c. repeat first [assumption | match goal with |- _ /\ _ => split end | lra].
Qed.
(*@ example *)
(** one raw sample, one percent off, of a body turning about its vertical axis *)
Example C91_example_rates :
  forall ck : bool, exists (s : AR (A := F32 good_libm)) (c : Config (A := F32 good_libm)),
  ar_hist ck s Live /\ ar_method s = ClosedForm /\ is_finite (ar_ts s : f32) = true /\ B2R (ar_ts s : f32) = 1 /\
  sensor_get_config Gyr (M_Ar.ar_gyr s) = Ok c /\ quat_f (ar_attitude s) qone /\ Rabs (qnorm qone - 1) < / 1000000 /\
  libm_accurate good_libm (2 / 10000000) 1000 /\
  let z := Sample (lm := good_libm) (z32 1) (z32 0) (z32 1) (triple 0 0 (101 / 100)) in
  bounded c 4 z /\ rnorm 3 (true_rate z) + rate_error c 4 z <= bpow radix2 60 /\ (rnorm 3 (true_rate z) + rate_error c 4 z) * Rabs 1 <= 1000.
Proof. exact direct_rates_ex. Qed.

Lemma direct_first_ex :
  forall ck : bool, exists (s : AR (A := F32 good_libm)) (c : Config (A := F32 good_libm)),
  ar_hist ck s Live /\ ar_method s = TaylorSeries /\ ar_order s = 1%nat /\ is_finite (ar_ts s : f32) = true /\ B2R (ar_ts s : f32) = 1 /\
  sensor_get_config Gyr (M_Ar.ar_gyr s) = Ok c /\ quat_f (ar_attitude s) qone /\ Rabs (qnorm qone - 1) < / 1000000 /\ pow_one good_libm 0 /\
  let z := Sample (lm := good_libm) (z32 1) (z32 0) (z32 1) (triple 0 0 (101 / 100)) in
  bounded c 4 z /\ rnorm 3 (true_rate z) + rate_error c 4 z <= bpow radix2 60 /\ (rnorm 3 (true_rate z) + rate_error c 4 z) * Rabs 1 <= 1000.
Proof.
  intros ck. destruct (taylor_angles_ex ck) as (s & c & H). cbv zeta in *. decompose [and] H. clear H. exists s, c. repeat first [assumption | match goal with |- _ /\ _ => split end | lra].
Qed.
(*@ example *)
(** the same sample, for a filter on the Taylor series of order 1 *)
Example C91_example_first :
  forall ck : bool, exists (s : AR (A := F32 good_libm)) (c : Config (A := F32 good_libm)),
  ar_hist ck s Live /\ ar_method s = TaylorSeries /\ ar_order s = 1%nat /\ is_finite (ar_ts s : f32) = true /\ B2R (ar_ts s : f32) = 1 /\
  sensor_get_config Gyr (M_Ar.ar_gyr s) = Ok c /\ quat_f (ar_attitude s) qone /\ Rabs (qnorm qone - 1) < / 1000000 /\ pow_one good_libm 0 /\
  let z := Sample (lm := good_libm) (z32 1) (z32 0) (z32 1) (triple 0 0 (101 / 100)) in
  bounded c 4 z /\ rnorm 3 (true_rate z) + rate_error c 4 z <= bpow radix2 60 /\ (rnorm 3 (true_rate z) + rate_error c 4 z) * Rabs 1 <= 1000.
Proof. exact direct_first_ex. Qed.
