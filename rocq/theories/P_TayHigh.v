(** C84: Taylor orders above one are worse than order one, at every rate. *)
(*@+*)
From Coq Require Import List Arith ZArith NArith Reals Lia Bool Lra.
From Verif Require Import M_Base M_Arith M_Utils M_Vector M_Matrix M_Quaternion M_Sensors M_Ar M_RX
  S_Spec S_Linalg S_Norm S_Quat S_Sensors S_Ar S_F32 P_ArR.
Import ListNotations.
Local Open Scope R_scope.
(*@-*)
From Coq Require Import Psatz.
From Verif Require Import P_Norm P_Quat P_Sensors P_Ar P_FErr P_ArT P_F32Mul P_F32Ar P_AquaR P_AquaD P_ArFirst P_Sara32.

(** ** the truncated exponential minus one *)
Definition ex (n : nat) (a : R) : R := Rsum n (fun k => a ^ S k / INR (fact (S k))).
Lemma fact_ge k : 6 <= INR (fact (S (S (S k)))).
Proof.
  induction k as [|k IH]; [cbn; lra|]. change (fact (S (S (S (S k))))) with (S (S (S (S k))) * fact (S (S (S k))))%nat. rewrite mult_INR.
  assert (1 <= INR (S (S (S (S k))))) by (change 1 with (INR 1); apply le_INR; lia). nra.
Qed.
Lemma ex_tail a m : Rabs a <= 1 / 8 -> Rabs (ex (S (S m)) a - a - a * a / 2) <= Rabs a * Rabs a * Rabs a * (1 / 5 - 1 / 5 * (1 / 8) ^ m).
Proof.
  intros H. pose proof (Rabs_pos a) as P. induction m as [|m IH].
  - unfold ex. cbn. replace (_ - a - a * a / 2) with 0 by field. rewrite Rabs_R0. right. ring.
  - unfold ex in *. cbn [Rsum] in *. set (s := Rsum m (fun k => a ^ S k / INR (fact (S k))) + a ^ S m / INR (fact (S m)) + a ^ S (S m) / INR (fact (S (S m)))) in *.
    replace (s + a ^ S (S (S m)) / INR (fact (S (S (S m)))) - a - a * a / 2) with ((s - a - a * a / 2) + a ^ S (S (S m)) / INR (fact (S (S (S m))))) by ring.
    eapply Rle_trans; [apply Rabs_triang|].
    assert (T : Rabs (a ^ S (S (S m)) / INR (fact (S (S (S m))))) <= Rabs a * Rabs a * Rabs a * (1 / 6 * (1 / 8) ^ m)).
    { pose proof (fact_ge m) as F. unfold Rdiv. rewrite Rabs_mult, <- RPow_abs, Rabs_inv, (Rabs_pos_eq (INR _)) by lra.
      cbn [pow]. assert (Q : Rabs a ^ m <= (1 / 8) ^ m) by (apply pow_incr; lra). assert (Q0 : 0 <= Rabs a ^ m) by (apply pow_le; lra).
      assert (I : 0 <= / INR (fact (S (S (S m)))) <= / 6) by (split; [left; apply Rinv_0_lt_compat; lra|apply Rinv_le_contravar; lra]).
      replace (Rabs a * (Rabs a * (Rabs a * Rabs a ^ m)) * / INR (fact (S (S (S m))))) with (Rabs a * Rabs a * Rabs a * (/ INR (fact (S (S (S m)))) * Rabs a ^ m)) by ring.
      apply Rmult_le_compat_l; [repeat apply Rmult_le_pos; lra|]. unfold Rdiv. rewrite Rmult_1_l. apply Rmult_le_compat; lra. }
    assert (Q8 : (1 / 8) ^ S m = 1 / 8 * (1 / 8) ^ m) by reflexivity. rewrite Q8. assert (Z : 0 <= (1 / 8) ^ m) by (apply pow_le; lra).
    assert (C : 0 <= Rabs a * Rabs a * Rabs a) by (repeat apply Rmult_le_pos; lra).
    assert (0 <= Rabs a * Rabs a * Rabs a * (1 / 8) ^ m) by (apply Rmult_le_pos; auto). lra.
Qed.
Lemma ex_bounds n a : (2 <= n)%nat -> Rabs a <= 1 / 8 -> 19 / 40 * (a * a) <= ex n a - a /\ Rabs (ex n a) <= 11 / 10 * Rabs a.
Proof.
  intros Hn H. destruct n as [|[|m]]; [lia|lia|]. pose proof (ex_tail a m H) as T. pose proof (Rabs_pos a) as P.
  assert (Z : 0 <= (1 / 8) ^ m) by (apply pow_le; lra).
  assert (C : 0 <= Rabs a * Rabs a * Rabs a <= 1 / 8 * (Rabs a * Rabs a)) by (split; [repeat apply Rmult_le_pos; lra|nra]).
  assert (Sq : Rabs a * Rabs a = a * a) by (rewrite <- Rabs_mult; apply Rabs_pos_eq; nra).
  assert (T' : Rabs (ex (S (S m)) a - a - a * a / 2) <= 1 / 40 * (a * a)).
  { eapply Rle_trans; [exact T|]. assert (0 <= Rabs a * Rabs a * Rabs a * (1 / 8) ^ m) by (apply Rmult_le_pos; lra). lra. }
  clear T. split; [pose proof (Rle_abs (- (ex (S (S m)) a - a - a * a / 2))) as L; rewrite Rabs_Ropp in L; lra|].
  replace (ex (S (S m)) a) with ((ex (S (S m)) a - a - a * a / 2) + (a + a * a / 2)) by ring. eapply Rle_trans; [apply Rabs_triang|].
  assert (Rabs (a + a * a / 2) <= Rabs a + a * a / 2). { eapply Rle_trans; [apply Rabs_triang|]. rewrite (Rabs_pos_eq (a * a / 2)) by nra. lra. }
  assert (a * a <= 1 / 8 * Rabs a) by nra. lra.
Qed.

(** the filter at the identity *)
Lemma cells_one n t w : qapp (taylor_cells n t w) qone = Quat 1 (ex n (t / 2 * w 0%nat)) (ex n (t / 2 * w 1%nat)) (ex n (t / 2 * w 2%nat)).
Proof.
  assert (Z : Rsum n (fun k => (t / 2 * 0) ^ S k / INR (fact (S k))) = 0).
  { induction n as [|n IH]; [reflexivity|]. cbn [Rsum]. rewrite IH. replace (t / 2 * 0) with 0 by ring. rewrite pow_i by lia. unfold Rdiv. ring. }
  unfold qapp, taylor_cells, qone, rid, omr, ex. cbn [Rsum qf Qw Qx Qy Qz nth Nat.mul Nat.add Nat.eqb]. rewrite Z. f_equal; cbn; ring.
Qed.
Lemma cross_le (u v : quat) (f : quat -> R) : In f [Qx; Qy; Qz] -> qnorm v = 1 -> Rabs (f u * Qw v - Qw u * f v) <= qdist u v.
Proof.
  intros Hf Nv. apply sqr_le_abs; [apply qdist_pos|].
  assert (S : forall x, Rabs x * Rabs x = x * x) by (intros; rewrite <- Rabs_mult, Rabs_pos_eq; [auto|apply Rle_0_sqr]).
  rewrite S. unfold qdist. rewrite qnorm_sqr. pose proof (qnorm_sqr v) as N. rewrite Nv in N. destruct u as [a b c d], v as [a' b' c' d'].
  unfold qnorm2, qsub, qadd, qneg, qscale in *. cbn [Qw Qx Qy Qz] in *.
  assert (L : forall x x', x' * x' <= 1 - a' * a' -> (x * a' - a * x') * (x * a' - a * x') <= (x + -1 * x') * (x + -1 * x') + (a + -1 * a') * (a + -1 * a')).
  { intros x x' Hx. set (p := x - x'). set (r := a - a'). replace (x * a' - a * x') with (p * a' - r * x') by (unfold p, r; ring).
    replace ((x + -1 * x') * (x + -1 * x') + (a + -1 * a') * (a + -1 * a')) with (p * p + r * r) by (unfold p, r; ring).
    assert (0 <= (p * x' + r * a') * (p * x' + r * a')) by apply Rle_0_sqr.
    assert (0 <= (p * p + r * r) * (1 - a' * a' - x' * x')) by (apply Rmult_le_pos; nra). nra. }
  assert (P0 : forall x, 0 <= x * x) by (intros; apply Rle_0_sqr). pose proof (P0 b'). pose proof (P0 c'). pose proof (P0 d').
  pose proof (P0 (b + -1 * b')). pose proof (P0 (c + -1 * c')). pose proof (P0 (d + -1 * d')).
  destruct Hf as [<-|[<-|[<-|[]]]]; cbn [Qx Qy Qz].
  - pose proof (L b b' ltac:(lra)). lra.
  - pose proof (L c c' ltac:(lra)). lra.
  - pose proof (L d d' ltac:(lra)). lra.
Qed.
Lemma some_large (x y z s : R) : x * x + y * y + z * z = s -> s / 3 <= x * x \/ s / 3 <= y * y \/ s / 3 <= z * z.
Proof. intros H. destruct (Rle_dec (s / 3) (x * x)); auto. destruct (Rle_dec (s / 3) (y * y)); auto. right. right. lra. Qed.

Lemma high_core n t w : (2 <= n)%nat -> rnorm 3 w <> 0 -> let X := rnorm 3 w * Rabs t in X <= 1 / 4 ->
  let p := qapp (taylor_cells n t w) qone in 1 <= qnorm p /\ X * X / 40 <= qdist (qunit p) (turn w t) /\ 1 <= qdist (qunit p) (qneg (turn w t)).
Proof.
  intros Hn NZ X HX p. unfold p. rewrite cells_one. clear p.
  set (a0 := t / 2 * w 0%nat). set (a1 := t / 2 * w 1%nat). set (a2 := t / 2 * w 2%nat). set (p := Quat 1 (ex n a0) (ex n a1) (ex n a2)).
  pose proof (rnorm_pos 3 w) as PN. pose proof (Rabs_pos t) as PT. assert (PX : 0 <= X) by (apply Rmult_le_pos; auto).
  assert (SA : a0 * a0 + a1 * a1 + a2 * a2 = X * X / 4).
  { pose proof (rnorm_sqr 3 w) as E. rewrite rdot3 in E. assert (T2 : Rabs t * Rabs t = t * t) by (rewrite <- Rabs_mult; apply Rabs_pos_eq; nra).
    unfold X. replace (rnorm 3 w * Rabs t * (rnorm 3 w * Rabs t)) with ((rnorm 3 w * rnorm 3 w) * (Rabs t * Rabs t)) by ring. rewrite E, T2. unfold a0, a1, a2. field. }
  assert (SX : X * X <= 1 / 16) by nra.
  assert (BA : forall a, a * a <= X * X / 4 -> Rabs a <= 1 / 8) by (intros a Ha; apply sqr_le_abs; [lra|]; rewrite <- Rabs_mult, Rabs_pos_eq by nra; lra).
  destruct (ex_bounds n a0 Hn (BA a0 ltac:(nra))) as [L0 U0]. destruct (ex_bounds n a1 Hn (BA a1 ltac:(nra))) as [L1 U1]. destruct (ex_bounds n a2 Hn (BA a2 ltac:(nra))) as [L2 U2].
  assert (SQ : forall e a, Rabs e <= 11 / 10 * Rabs a -> e * e <= 121 / 100 * (a * a)).
  { intros e a He. assert (E1 : Rabs e * Rabs e = e * e) by (rewrite <- Rabs_mult; apply Rabs_pos_eq; nra). assert (E2 : Rabs a * Rabs a = a * a) by (rewrite <- Rabs_mult; apply Rabs_pos_eq; nra).
    rewrite <- E1, <- E2. pose proof (Rabs_pos e). pose proof (Rabs_pos a). nra. }
  apply SQ in U0. apply SQ in U1. apply SQ in U2.
  assert (NP : qnorm p * qnorm p = 1 + (ex n a0 * ex n a0 + ex n a1 * ex n a1 + ex n a2 * ex n a2)) by (rewrite qnorm_sqr; unfold qnorm2, p; cbn [Qw Qx Qy Qz]; ring).
  pose proof (qnorm_pos p) as PP. assert (NPb : 1 <= qnorm p <= 101 / 100) by (split; nra).
  split; [lra|].
  pose proof (hq_close w t NZ) as HC. cbv zeta in HC. fold X in HC.
  assert (HN : qnorm (hq w t) * qnorm (hq w t) = 1 + X * X / 4). { rewrite qnorm_sqr. unfold qnorm2, hq. cbn [Qw Qx Qy Qz]. fold a0 a1 a2. rewrite <- SA. ring. }
  pose proof (qnorm_pos (hq w t)) as PH. assert (HNb : 1 <= qnorm (hq w t) <= 101 / 100) by (split; nra).
  set (h := qnorm (hq w t)) in *. set (m := qnorm p) in *.
  assert (MH : 1 <= m * h <= 103 / 100) by (split; nra).
  assert (IM : 100 / 103 <= / (m * h)) by (replace (100 / 103) with (/ (103 / 100)) by field; apply Rinv_le_contravar; lra).
  assert (CR : forall a e (f : quat -> R), In f [Qx; Qy; Qz] -> f p = e -> f (hq w t) = a -> (forall k q, f (qscale k q) = k * f q) -> 19 / 40 * (a * a) <= e - a -> X * X / 12 <= a * a ->
    19 / 40 * (X * X / 12) * (100 / 103) <= qdist (qunit p) (qunit (hq w t))).
  { intros a e f Hf Ep Eh Es Ha Hx. eapply Rle_trans; [|apply (cross_le _ _ f Hf (hq_unit_norm w t))]. unfold qunit. rewrite !Es, Ep, Eh. fold m h.
    assert (Q1 : Qw (qscale (/ h) (hq w t)) = / h) by (unfold qscale, hq; cbn; ring). assert (Q2 : Qw (qscale (/ m) p) = / m) by (unfold qscale, p; cbn; ring).
    rewrite Q1, Q2. replace (/ m * e * / h - / m * (/ h * a)) with ((e - a) * / (m * h)) by (field; lra).
    rewrite Rabs_pos_eq by nra. apply Rmult_le_compat; nra. }
  assert (D : 19 / 40 * (X * X / 12) * (100 / 103) <= qdist (qunit p) (qunit (hq w t))).
  { assert (SC : forall f : quat -> R, In f [Qx; Qy; Qz] -> forall k q, f (qscale k q) = k * f q) by (intros f [<-|[<-|[<-|[]]]] k q; reflexivity).
    destruct (some_large a0 a1 a2 _ SA) as [B|[B|B]].
    - apply (CR a0 (ex n a0) Qx); try reflexivity; try (cbn; auto; fail); try lra.
    - apply (CR a1 (ex n a1) Qy); try reflexivity; try (cbn; auto; fail); try lra.
    - apply (CR a2 (ex n a2) Qz); try reflexivity; try (cbn; auto; fail); try lra. }
  split.
  - pose proof (qdist_tri (qunit p) (turn w t) (qunit (hq w t))) as TR. rewrite (qdist_sym (turn w t)) in TR.
    assert (X * X * X <= 1 / 4 * (X * X)) by nra. assert (0 <= X * X) by nra. lra.
  - eapply Rle_trans; [|apply (qdist_ge Qw); cbn; auto]. unfold qunit. fold m.
    assert (Q2 : Qw (qscale (/ m) p) = / m) by (unfold qscale, p; cbn; ring). rewrite Q2.
    assert (Q3 : Qw (qneg (turn w t)) = - cos (rnorm 3 w * t / 2)) by (unfold qneg, qscale, turn; cbv zeta; rewrite <- rnorm3; cbn [Qw]; ring). rewrite Q3.
    assert (CQ : 2 - 2 * cos (rnorm 3 w * t / 2) <= X * X / 4).
    { pose proof (turn_small w t) as TS. pose proof (qdist_ge Qw qone (turn w t) ltac:(cbn; auto)) as G. unfold turn in G at 1. cbv zeta in G. rewrite <- rnorm3 in G. cbn [Qw qone] in G.
      fold X in TS. pose proof (Rle_abs (1 - cos (rnorm 3 w * t / 2))).
      assert (1 - cos (rnorm 3 w * t / 2) = 2 * (sin (rnorm 3 w * t / 2 / 2) * sin (rnorm 3 w * t / 2 / 2))).
      { replace (rnorm 3 w * t / 2) with (2 * (rnorm 3 w * t / 2 / 2)) at 1 by field. rewrite cos_2a_sin. ring. }
      pose proof (Rabs_sin_le (rnorm 3 w * t / 2 / 2)) as SL.
      assert (EX : Rabs (rnorm 3 w * t / 2 / 2) = X / 4). { unfold Rdiv. rewrite !Rabs_mult, (Rabs_pos_eq (rnorm 3 w)), (Rabs_pos_eq (/ 2)) by lra. unfold X. field. }
      rewrite EX in SL. set (sn := sin (rnorm 3 w * t / 2 / 2)) in *. assert (E2 : Rabs sn * Rabs sn = sn * sn) by (rewrite <- Rabs_mult; apply Rabs_pos_eq; nra).
      pose proof (Rabs_pos sn). nra. }
    assert (IMm : 100 / 101 <= / m) by (replace (100 / 101) with (/ (101 / 100)) by field; apply Rinv_le_contravar; lra).
    rewrite Rabs_pos_eq; nra.
Qed.

(*@ C84_higher_orders *)
(** C84, violation: at the identity, for every rate w and period t with 0 < |w| t <= 1/4 (and |w| above EPSILON), one Taylor
    update of any order from 2 to 20 ends at least (|w| t)^2 / 40 away from the true attitude and from its negative ... *)
Lemma l_taylor_high :
  forall (ck : bool) (s : AR (A := RX)) (c : Config) (w : nat -> R) (t : R) (gx gy gz : T),
  ar_hist ck s Live -> ar_method s = TaylorSeries -> (2 <= ar_order s <= 20)%nat -> ar_ts s = Some t -> quat_r (ar_attitude s) qone ->
  sensor_get_config Gyr (ar_gyr s) = Ok c -> (forall b, (b < 3)%nat -> corrected Gyr c (raw3 gx gy gz) 3 b = Some (w b)) ->
  eps < rnorm 3 w -> let X := rnorm 3 w * Rabs t in X <= 1 / 4 ->
  exists s' r, ar_update ck gx gy gz s = (s', Ok tt) /\ quat_r (ar_attitude s') r /\
    X * X / 40 <= qdist r (turn w t) /\ X * X / 40 <= qdist r (qneg (turn w t)).
Proof.
  intros ck s c w t gx gy gz H M O TS Hq Hc Hw L X HX.
  destruct (l_taylor ck s c qone w t gx gy gz H M ltac:(lia) TS Hq Hc Hw) as (s' & E & _ & R & _).
  assert (NZ : rnorm 3 w <> 0) by (unfold eps in L; lra).
  destruct (high_core (ar_order s) t w ltac:(lia) NZ HX) as (N1 & D1 & D2). cbv zeta in R.
  exists s', (qunit (qapp (taylor_cells (ar_order s) t w) qone)). split; [exact E|]. split; [apply R; [exact L|unfold eps; lra]|].
  fold X in D1. split; [exact D1|]. assert (0 <= X) by (apply Rmult_le_pos; [apply rnorm_pos|apply Rabs_pos]). assert (X * X <= 1 / 16) by nra. lra.
Qed.

(*@ C84_first_order *)
(** C84: ... while order 1 ends within (|w| t)^3 / 24 of it, which is less *)
Lemma l_taylor_low :
  forall (ck : bool) (s : AR (A := RX)) (c : Config) (w : nat -> R) (t : R) (gx gy gz : T),
  ar_hist ck s Live -> ar_method s = TaylorSeries -> ar_order s = 1%nat -> ar_ts s = Some t -> quat_r (ar_attitude s) qone ->
  sensor_get_config Gyr (ar_gyr s) = Ok c -> (forall b, (b < 3)%nat -> corrected Gyr c (raw3 gx gy gz) 3 b = Some (w b)) ->
  eps < rnorm 3 w -> let X := rnorm 3 w * Rabs t in
  exists s' r, ar_update ck gx gy gz s = (s', Ok tt) /\ quat_r (ar_attitude s') r /\ qdist r (turn w t) <= X * X * X / 24 /\
    (0 < X <= 1 / 4 -> qdist r (turn w t) < X * X / 40).
Proof.
  intros ck s c w t gx gy gz H M O TS Hq Hc Hw L X. assert (NZ : rnorm 3 w <> 0) by (unfold eps in L; lra).
  destruct (l_taylor ck s c qone w t gx gy gz H M ltac:(lia) TS Hq Hc Hw) as (s' & E & _ & R & _). cbv zeta in R. rewrite O, cells_one in R.
  assert (E1 : forall a, ex 1 a = a) by (intros a; unfold ex; cbn; field). rewrite !E1 in R. change (Quat 1 (t / 2 * w 0%nat) (t / 2 * w 1%nat) (t / 2 * w 2%nat)) with (hq w t) in R.
  destruct (hq_ge w t) as [G _]. exists s', (qunit (hq w t)). split; [exact E|]. split; [apply R; [exact L|unfold eps; lra]|].
  pose proof (hq_close w t NZ) as HC. cbv zeta in HC. fold X in HC. split; [exact HC|]. intros [X0 X1]. assert (X * X * X <= 1 / 4 * (X * X)) by nra. assert (0 < X * X) by nra. lra.
Qed.

Lemma high_ex : forall (ck : bool) (order : nat), exists s : AR (A := RX),
  ar_hist ck s Live /\ ar_method s = TaylorSeries /\ ar_order s = order /\ ar_ts s = Some (1 / 100) /\ quat_r (ar_attitude s) qone /\
  sensor_get_config Gyr (ar_gyr s) = Ok default_config /\
  (forall b, (b < 3)%nat -> corrected (A := RX) Gyr default_config (raw3 (A := RX) (Some 3) (Some 4) (Some 0)) 3 b = Some (triple 3 4 0 b)) /\
  rnorm 3 (triple 3 4 0) * Rabs (1 / 100) = 1 / 20.
Proof.
  intros ck order. destruct (started_r ck qone (1 / 100) TaylorSeries order) as (s & H & Q & C & T & M & O). exists s.
  do 6 (split; [assumption|]). split; [apply default_corrected|].
  assert (R3 : rnorm 3 (triple 3 4 0) = 5). { rewrite rnorm3. cbn. replace (3 * 3 + 4 * 4 + 0 * 0) with (5 * 5) by ring. apply sqrt_square. lra. }
  rewrite R3, Rabs_pos_eq by lra. field.
Qed.
(*@ example *)
(** 5 rad/s about (3, 4, 0) for 10 ms, with every order *)
Example C84_example : forall (ck : bool) (order : nat), exists s : AR (A := RX),
  ar_hist ck s Live /\ ar_method s = TaylorSeries /\ ar_order s = order /\ ar_ts s = Some (1 / 100) /\ quat_r (ar_attitude s) qone /\
  sensor_get_config Gyr (ar_gyr s) = Ok default_config /\
  (forall b, (b < 3)%nat -> corrected (A := RX) Gyr default_config (raw3 (A := RX) (Some 3) (Some 4) (Some 0)) 3 b = Some (triple 3 4 0 b)) /\
  rnorm 3 (triple 3 4 0) * Rabs (1 / 100) = 1 / 20.
Proof. exact high_ex. Qed.
