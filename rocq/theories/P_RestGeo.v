(** Geometry of the two corrections of the Aqua filter at rest: real numbers only. *)
From Coq Require Import List Arith ZArith Reals Lia Lra Psatz.
From Flocq Require Import Core.
From Verif Require Import M_Base M_Arith S_Spec S_Linalg S_Norm S_Quat S_Ar S_F32 S_Rest P_Quat P_Rot P_FErr P_F32Mul P_F32Rot P_AmGeo P_AquaR P_AquaM.
Local Open Scope R_scope.

Lemma sqr_pos x : 0 <= x * x. Proof. nra. Qed.
Lemma qdist_sqr p q : qdist p q * qdist p q = qnorm2 (qsub p q).
Proof. unfold qdist. apply qnorm_sqr. Qed.
Lemma le_sqrt_of a b : 0 <= b -> a * a <= b * b -> a <= b.
Proof. intros. nra. Qed.
(** projecting onto the unit sphere *)
Lemma proj_lip p q m : 0 < m -> m <= qnorm p -> m <= qnorm q -> qdist (qunit p) (qunit q) <= qdist p q / m.
Proof.
  intros Hm Hp Hq. apply (Rmult_le_reg_r m); [lra|]. unfold Rdiv. rewrite Rmult_assoc, Rinv_l, Rmult_1_r by lra.
  pose proof (qnorm_sqr p) as Sp. pose proof (qnorm_sqr q) as Sq. set (a := qnorm p) in *. set (b := qnorm q) in *.
  pose proof (qdist_pos p q) as D0. pose proof (qdist_pos (qunit p) (qunit q)) as U0. apply le_sqrt_of; [exact D0|].
  replace (qdist (qunit p) (qunit q) * m * (qdist (qunit p) (qunit q) * m)) with (m * m * (qdist (qunit p) (qunit q) * qdist (qunit p) (qunit q))) by ring.
  rewrite !qdist_sqr. set (dot := Qw p * Qw q + Qx p * Qx q + Qy p * Qy q + Qz p * Qz q).
  assert (E1 : qnorm2 (qsub p q) = a * a + b * b - 2 * dot) by (rewrite Sp, Sq; unfold qnorm2, qsub, qadd, qneg, qscale, dot; cbn [Qw Qx Qy Qz]; ring).
  assert (Ia : / a * / a * qnorm2 p = 1) by (rewrite <- Sp; field; lra).
  assert (Ib : / b * / b * qnorm2 q = 1) by (rewrite <- Sq; field; lra).
  assert (E2 : qnorm2 (qsub (qunit p) (qunit q)) = 2 - 2 * (/ a * / b * dot)).
  { unfold qunit. fold a b. transitivity (/ a * / a * qnorm2 p + / b * / b * qnorm2 q - 2 * (/ a * / b * dot)); [unfold qnorm2, qsub, qadd, qneg, dot, qscale; cbn [Qw Qx Qy Qz]; ring|lra]. }
  rewrite E1, E2. assert (0 <= 2 - 2 * (/ a * / b * dot)) by (rewrite <- E2; apply qnorm2_pos).
  assert (m * m <= a * b) by nra. apply Rle_trans with (a * b * (2 - 2 * (/ a * / b * dot))); [apply Rmult_le_compat_r; auto|].
  replace (a * b * (2 - 2 * (/ a * / b * dot))) with (2 * (a * b) - 2 * dot) by (field; lra). pose proof (sqr_pos (a - b)). lra.
Qed.
Lemma qunit_scale k q : 0 < k -> qunit (qscale k q) = qunit q.
Proof.
  intros Hk. unfold qunit. rewrite qnorm_scale, Rabs_pos_eq by lra. destruct (Req_dec (qnorm q) 0) as [Z|Z].
  - pose proof (qnorm_sqr q) as S. rewrite Z in S. unfold qnorm2 in S.
    pose proof (sqr_pos (Qw q)). pose proof (sqr_pos (Qx q)). pose proof (sqr_pos (Qy q)). pose proof (sqr_pos (Qz q)).
    assert (Qw q = 0) by nra. assert (Qx q = 0) by nra. assert (Qy q = 0) by nra. assert (Qz q = 0) by nra.
    apply quat_eta; cbn; rewrite ?H3, ?H4, ?H5, ?H6; ring.
  - apply quat_eta; cbn; field; split; lra.
Qed.
Lemma qunit_of_unit q : unitq q -> qunit q = q.
Proof. intros U. unfold qunit. rewrite (unit_norm q U), Rinv_1. destruct q; apply quat_eta; cbn; ring. Qed.
Lemma qunit_mul p q : 0 < qnorm p -> 0 < qnorm q -> qunit (qmul p q) = qmul (qunit p) (qunit q).
Proof. intros. unfold qunit. rewrite qnorm_mul. apply quat_eta; cbn; field; lra. Qed.
Lemma unit_comp q : unitq q -> Qw q * Qw q + Qx q * Qx q + Qy q * Qy q + Qz q * Qz q = 1.
Proof. intros U. exact U. Qed.

(** ** parts of the missing turn *)
Definition tx (E : quat) : R := sqrt (Qx E * Qx E + Qy E * Qy E).
Definition flat (E : quat) : quat := Quat (Qw E) 0 0 (Qz E).
Definition hz (E : quat) : R := Rabs (Qz (qunit (flat E))).
Lemma tx_norm E : tx E = qnorm (Quat 0 (Qx E) (Qy E) 0).
Proof. unfold tx, qnorm, qnorm2. cbn [Qw Qx Qy Qz]. f_equal. ring. Qed.
Lemma flat_norm E : qnorm (flat E) = sqrt (Qw E * Qw E + Qz E * Qz E).
Proof. unfold qnorm, qnorm2, flat. cbn [Qw Qx Qy Qz]. f_equal. ring. Qed.
Lemma parts E : unitq E -> tx E * tx E + qnorm (flat E) * qnorm (flat E) = 1.
Proof. intros U. rewrite qnorm_sqr, tx_norm, qnorm_sqr. rewrite <- (unit_comp E U). unfold qnorm2, flat. cbn [Qw Qx Qy Qz]. ring. Qed.
Lemma tx_pos E : 0 <= tx E. Proof. apply sqrt_pos. Qed.
Lemma qdist_le_of p q p' q' : qnorm2 (qsub p q) <= qnorm2 (qsub p' q') -> qdist p q <= qdist p' q'.
Proof. intros H. unfold qdist, qnorm. apply sqrt_le_1_alt. exact H. Qed.
Lemma tx_lip E E' : tx E <= tx E' + qdist E E'.
Proof.
  rewrite !tx_norm. eapply Rle_trans; [apply (qdist_norm _ (Quat 0 (Qx E') (Qy E') 0))|]. apply Rplus_le_compat_l.
  apply qdist_le_of. unfold qnorm2, qsub, qadd, qneg, qscale. cbn [Qw Qx Qy Qz]. pose proof (sqr_pos (Qw E - Qw E')). pose proof (sqr_pos (Qz E - Qz E')). lra.
Qed.
Lemma flat_lip E E' : qdist (flat E) (flat E') <= qdist E E'.
Proof. apply qdist_le_of. unfold qnorm2, qsub, qadd, qneg, qscale, flat. cbn [Qw Qx Qy Qz]. pose proof (sqr_pos (Qx E - Qx E')). pose proof (sqr_pos (Qy E - Qy E')). lra. Qed.
Lemma qz_lip p q : Rabs (Qz p) <= Rabs (Qz q) + qdist p q.
Proof.
  assert (Rabs (Qz p - Qz q) <= qdist p q).
  { apply le_sqrt_of; [apply qdist_pos|]. rewrite <- Rabs_mult, Rabs_pos_eq by apply sqr_pos. rewrite qdist_sqr. unfold qnorm2, qsub, qadd, qneg, qscale. cbn [Qw Qx Qy Qz].
    pose proof (sqr_pos (Qw p - Qw q)). pose proof (sqr_pos (Qx p - Qx q)). pose proof (sqr_pos (Qy p - Qy q)). lra. }
  pose proof (Rabs_triang (Qz p - Qz q) (Qz q)) as T. replace (Qz p - Qz q + Qz q) with (Qz p) in T by ring. lra.
Qed.
Lemma hz_lip E E' m : 0 < m -> m <= qnorm (flat E) -> m <= qnorm (flat E') -> hz E <= hz E' + qdist (flat E) (flat E') / m.
Proof. intros Hm H1 H2. unfold hz. eapply Rle_trans; [apply (qz_lip _ (qunit (flat E')))|]. apply Rplus_le_compat_l. apply proj_lip; auto. Qed.
Lemma missing_dist p q t : unitq t -> qdist (qmul (qconj p) t) (qmul (qconj q) t) = qdist p q.
Proof. intros U. rewrite qdist_mul_r, conj_dist, (unit_norm t U). ring. Qed.

(** ** the accelerometer correction *)
Definition cacc (x y z : R) : quat := let L := sqrt ((1 - z) / 2) in Quat L (y / (2 * L)) (- x / (2 * L)) 0.
Lemma sqrt_in X a b : 0 <= a -> 0 <= b -> a * a <= X <= b * b -> a <= sqrt X <= b.
Proof. intros Ha Hb H. split; [rewrite <- (sqrt_square a) by auto|rewrite <- (sqrt_square b) by auto]; apply sqrt_le_1_alt; lra. Qed.
Lemma grav E r : let g := qrot E (triple 0 0 (- r)) in
  g 0%nat = - 2 * r * (Qx E * Qz E + Qw E * Qy E) /\ g 1%nat = - 2 * r * (Qy E * Qz E - Qw E * Qx E) /\
  g 2%nat = - r * (Qw E * Qw E - Qx E * Qx E - Qy E * Qy E + Qz E * Qz E).
Proof. destruct E as [w x y z]. cbn. repeat split; ring. Qed.
Lemma blend_comp A B c : Qw (blend A B c) = A + B * Qw c /\ Qx (blend A B c) = B * Qx c /\ Qy (blend A B c) = B * Qy c /\ Qz (blend A B c) = B * Qz c.
Proof. repeat split. Qed.
Lemma abs_div a b c : 0 < b -> Rabs a <= c * b -> Rabs (a / b) <= c.
Proof.
  intros Hb H. unfold Rdiv. rewrite Rabs_mult, (Rabs_pos_eq (/ b)) by (left; apply Rinv_0_lt_compat; auto).
  apply (Rmult_le_reg_r b); [auto|]. rewrite Rmult_assoc, Rinv_l, Rmult_1_r by lra. exact H.
Qed.
Lemma acc_exact E r k : unitq E -> tx E * tx E <= 2 / 100 -> Rabs (r - 1) <= 1 / 20 -> 0 <= k <= 1 ->
  let g := qrot E (triple 0 0 (- r)) in let B := blend (1 - k) k (cacc (g 0%nat) (g 1%nat) (g 2%nat)) in
  exists s t, qmul (qconj B) E = Quat (s * Qw E) (t * Qx E) (t * Qy E) (s * Qz E) /\
    97 / 100 <= qnorm B <= 103 / 100 /\ Rabs t <= (1 - 4 / 5 * k) * qnorm B /\ 97 / 100 <= s.
Proof.
  intros U HS Hr Hk g B. destruct (grav E r) as (G0 & G1 & G2). fold g in G0, G1, G2.
  pose proof (unit_comp E U) as U1. destruct E as [w x y z]. cbn [Qw Qx Qy Qz] in *.
  assert (TS : tx (Quat w x y z) * tx (Quat w x y z) = x * x + y * y).
  { unfold tx. cbn [Qx Qy]. apply sqrt_sqrt. pose proof (sqr_pos x). pose proof (sqr_pos y). lra. }
  rewrite TS in HS. clear TS. apply Rabs_le_inv in Hr.
  set (S2 := x * x + y * y) in *. set (A2 := w * w + z * z). assert (EA : A2 = 1 - S2) by (unfold A2, S2 in *; lra).
  assert (S0 : 0 <= S2) by (unfold S2; nra).
  assert (GZ : g 2%nat = - r * (1 - 2 * S2)) by (rewrite G2; unfold S2 in *; f_equal; lra).
  set (L := sqrt ((1 - g 2%nat) / 2)).
  assert (HL2 : L * L = (1 + r * (1 - 2 * S2)) / 2) by (unfold L; rewrite sqrt_sqrt; rewrite GZ; [lra|nra]).
  assert (HL : 97 / 100 <= L <= 102 / 100) by (unfold L; rewrite GZ; apply sqrt_in; [lra|lra|nra]).
  set (X := r * (w * x - y * z) / L). set (Y := r * (x * z + w * y) / L).
  assert (EB : B = Quat (1 - k + k * L) (k * X) (k * Y) 0).
  { unfold B, cacc, blend. fold L. cbn [Qw Qx Qy Qz]. rewrite G0, G1. apply quat_eta; cbn [Qw Qx Qy Qz]; [reflexivity| | |ring]; unfold X, Y; field; lra. }
  set (s := 1 - k + k * L + k * r * S2 / L). set (t := 1 - k + k * ((1 - r) / (2 * L))).
  exists s, t.
  assert (Et : t = 1 - k + k * L - k * r * A2 / L).
  { unfold t. assert (D : (1 - r) / (2 * L) = (L * L - r * A2) / L); [|unfold Rdiv in *; rewrite D; field; lra].
    rewrite HL2, EA. field. lra. }
  split.
  { rewrite EB. apply quat_eta; unfold qmul, qconj; cbn [Qw Qx Qy Qz].
    - unfold s, X, Y, S2. field. lra.
    - rewrite Et. unfold X, Y, A2. field. lra.
    - rewrite Et. unfold X, Y, A2. field. lra.
    - unfold s, X, Y, S2. field. lra. }
  assert (NB : qnorm2 B = (1 - k + k * L) * (1 - k + k * L) + k * k * (r * r * (A2 * S2) / (L * L))).
  { rewrite EB. unfold qnorm2, X, Y, A2, S2. cbn [Qw Qx Qy Qz]. field. lra. }
  assert (LO : 1 - 3 / 100 * k <= 1 - k + k * L <= 1 + 2 / 100 * k) by nra.
  assert (0 <= A2 * S2 <= 2 / 100) by nra.
  assert (RR : 0 <= r * r <= 1103 / 1000) by nra.
  assert (Q : 0 <= r * r * (A2 * S2) / (L * L) <= 24 / 1000).
  { assert (0 <= r * r * (A2 * S2) <= 1103 / 1000 * (2 / 100)) by (split; [apply Rmult_le_pos; lra|apply Rmult_le_compat; lra]).
    assert (94 / 100 <= L * L) by nra. split; [apply Rmult_le_pos; [lra|left; apply Rinv_0_lt_compat; lra]|].
    apply (Rmult_le_reg_r (L * L)); [lra|]. unfold Rdiv. rewrite Rmult_assoc, Rinv_l, Rmult_1_r by lra. lra. }
  set (Qv := r * r * (A2 * S2) / (L * L)) in *. clearbody Qv.
  assert (KK : 0 <= k * k <= 1) by nra.
  assert (NL : 1 - k + k * L <= qnorm B).
  { unfold qnorm. rewrite <- (sqrt_square (1 - k + k * L)) by lra. apply sqrt_le_1_alt. rewrite NB. nra. }
  assert (NU : qnorm B <= 103 / 100).
  { apply le_sqrt_of; [lra|]. rewrite qnorm_sqr, NB. assert ((1 - k + k * L) * (1 - k + k * L) <= 102 / 100 * (102 / 100)) by nra.
    assert (k * k * Qv <= 1 * (24 / 1000)) by (apply Rmult_le_compat; lra). nra. }
  assert (DV : Rabs ((1 - r) / (2 * L)) <= 27 / 1000) by (apply abs_div; [lra|apply Rabs_le; nra]). apply Rabs_le_inv in DV.
  set (v := (1 - r) / (2 * L)) in *. clearbody v.
  split; [lra|]. split.
  - apply Rle_trans with ((1 - 4 / 5 * k) * (1 - 3 / 100 * k)); [|apply Rmult_le_compat_l; lra]. apply Rabs_le. unfold t.
    assert (- (27 / 1000) * k <= k * v <= 27 / 1000 * k) by nra. nra.
  - unfold s. assert (0 <= k * r * S2 / L); [|lra]. apply Rmult_le_pos; [|left; apply Rinv_0_lt_compat; lra].
    apply Rmult_le_pos; [|lra]. apply Rmult_le_pos; lra.
Qed.

(** what a perturbed accelerometer correction d (without third component) leaves *)
Lemma acc_step_tilt E r k d : unitq E -> tx E * tx E <= 2 / 100 -> Rabs (r - 1) <= 1 / 20 -> 0 <= k <= 1 ->
  let g := qrot E (triple 0 0 (- r)) in let D := qunit (blend (1 - k) k (cacc (g 0%nat) (g 1%nat) (g 2%nat))) in
  unitq d -> Qz d = 0 ->
  let E' := qmul (qconj d) E in
  tx E' <= (1 - 4 / 5 * k) * tx E + qdist d D /\ (0 <= Qw E -> 94 / 100 * Qw E - qdist d D <= Qw E') /\
  forall m, 0 < m -> m <= qnorm (flat E') -> m <= (94 / 100 - qdist d D) * qnorm (flat E) -> hz E' <= hz E + qdist d D * tx E / m.
Proof.
  intros U HS Hr Hk g D Ud Zd E'. destruct (acc_exact E r k U HS Hr Hk) as (s & t & EE & NB & HT & Hs). fold g in EE, NB, HT, D.
  set (B := blend (1 - k) k (cacc (g 0%nat) (g 1%nat) (g 2%nat))) in *. set (N := qnorm B) in *.
  assert (N0 : 0 < N) by lra. set (rho := qdist d D).
  assert (ED : qmul (qconj D) E = Quat (s / N * Qw E) (t / N * Qx E) (t / N * Qy E) (s / N * Qz E)).
  { transitivity (qscale (/ N) (qmul (qconj B) E)); [|rewrite EE; apply quat_eta; unfold qscale; cbn [Qw Qx Qy Qz]; field; lra].
    unfold D, qunit. fold N. apply quat_eta; unfold qmul, qconj, qscale; cbn [Qw Qx Qy Qz]; ring. }
  assert (UE : qdist E' (qmul (qconj D) E) = rho) by (unfold E', rho; rewrite qdist_mul_r, conj_dist, (unit_norm E U); ring).
  assert (SN : 94 / 100 <= s / N). { apply (Rmult_le_reg_r N); [lra|]. replace (s / N * N) with s by (field; lra). lra. }
  split; [|split].
  - eapply Rle_trans; [apply (tx_lip E' (qmul (qconj D) E))|]. rewrite UE. apply Rplus_le_compat_r. rewrite ED. unfold tx at 1. cbn [Qx Qy].
    replace (t / N * Qx E * (t / N * Qx E) + t / N * Qy E * (t / N * Qy E)) with (t / N * (t / N) * (Qx E * Qx E + Qy E * Qy E)) by ring.
    rewrite sqrt_mult by (try apply sqr_pos; pose proof (sqr_pos (Qx E)); pose proof (sqr_pos (Qy E)); lra). fold (tx E). change (t / N * (t / N)) with (Rsqr (t / N)). rewrite sqrt_Rsqr_abs.
    apply Rmult_le_compat_r; [apply tx_pos|]. apply abs_div; auto.
  - intros W0. assert (Rabs (Qw E' - Qw (qmul (qconj D) E)) <= rho) as BW.
    { rewrite <- UE. apply le_sqrt_of; [apply qdist_pos|]. rewrite <- Rabs_mult, Rabs_pos_eq by apply sqr_pos. rewrite qdist_sqr. unfold qnorm2, qsub, qadd, qneg, qscale. cbn [Qw Qx Qy Qz].
      set (F := qmul (qconj D) E). pose proof (sqr_pos (Qx E' - Qx F)). pose proof (sqr_pos (Qy E' - Qy F)). pose proof (sqr_pos (Qz E' - Qz F)). lra. }
    apply Rabs_le_inv in BW. rewrite ED in BW. cbn [Qw] in BW. assert (94 / 100 * Qw E <= s / N * Qw E) by (apply Rmult_le_compat_r; lra). lra.
  - intros m Hm H1 H2.
    set (dw := Qw d - Qw D). set (dx := Qx d - Qx D). set (dy := Qy d - Qy D).
    assert (ZD : Qz D = 0) by (unfold D, qunit, B, qscale, blend, cacc; cbn [Qz]; ring).
    assert (RH : dw * dw + (dx * dx + dy * dy) = rho * rho). { unfold rho. rewrite qdist_sqr. unfold qnorm2, qsub, qadd, qneg, qscale. cbn [Qw Qx Qy Qz]. rewrite Zd, ZD. unfold dw, dx, dy. ring. }
    assert (R0 : 0 <= rho) by apply qdist_pos.
    assert (BW : - rho <= dw). { assert (Rabs dw <= rho) as BW by (apply le_sqrt_of; [auto|]; rewrite <- Rabs_mult, Rabs_pos_eq by apply sqr_pos; pose proof (sqr_pos dx); pose proof (sqr_pos dy); lra). apply Rabs_le_inv in BW. lra. }
    set (sg := s / N + dw).
    assert (F' : flat E' = qadd (qscale sg (flat E)) (Quat (dx * Qx E + dy * Qy E) 0 0 (dy * Qx E - dx * Qy E))).
    { assert (SPL : E' = qadd (qmul (qconj D) E) (qmul (Quat dw (- dx) (- dy) 0) E)).
      { unfold E', dw, dx, dy. apply quat_eta; unfold qmul, qconj, qadd; cbn [Qw Qx Qy Qz]; rewrite Zd, ZD; ring. }
      rewrite SPL, ED. unfold sg. apply quat_eta; unfold flat, qmul, qadd, qscale; cbn [Qw Qx Qy Qz]; ring. }
    destruct (Rle_lt_dec sg 0) as [SG|SG].
    { exfalso. assert (0 <= qnorm (flat E)) by apply qnorm_pos. unfold sg in SG. nra. }
    assert (HQ : hz (qscale sg E) = hz E). { unfold hz. replace (flat (qscale sg E)) with (qscale sg (flat E)) by (apply quat_eta; unfold flat, qscale; cbn [Qw Qx Qy Qz]; ring). rewrite qunit_scale by auto. reflexivity. }
    rewrite <- HQ. replace (flat E') with (flat E') in * by reflexivity.
    assert (FS : flat (qscale sg E) = qscale sg (flat E)) by (apply quat_eta; unfold flat, qscale; cbn [Qw Qx Qy Qz]; ring).
    eapply Rle_trans; [apply (hz_lip E' (qscale sg E) m Hm H1)|].
    + rewrite FS, qnorm_scale, Rabs_pos_eq by lra. eapply Rle_trans; [exact H2|]. apply Rmult_le_compat_r; [apply qnorm_pos|]. unfold sg. fold rho. lra.
    + apply Rplus_le_compat_l. unfold Rdiv. apply Rmult_le_compat_r; [left; apply Rinv_0_lt_compat; auto|].
      rewrite FS, F'. apply le_sqrt_of; [apply Rmult_le_pos; [auto|apply tx_pos]|]. rewrite qdist_sqr.
      replace (rho * tx E * (rho * tx E)) with (rho * rho * (tx E * tx E)) by ring. rewrite (tx_norm E), qnorm_sqr.
      unfold qnorm2, qsub, qadd, qneg, qscale. cbn [Qw Qx Qy Qz].
      apply Rle_trans with ((dx * dx + dy * dy) * (Qx E * Qx E + Qy E * Qy E)); [right; ring|].
      replace (0 * 0 + Qx E * Qx E + Qy E * Qy E + 0 * 0) with (Qx E * Qx E + Qy E * Qy E) by ring.
      apply Rmult_le_compat_r; [pose proof (sqr_pos (Qx E)); pose proof (sqr_pos (Qy E)); lra|]. pose proof (sqr_pos dw). lra.
Qed.
Lemma cacc_lip x y z x' y' z' d : - (108 / 100) <= z <= - (85 / 100) -> - (108 / 100) <= z' <= - (85 / 100) -> Rabs x' <= 4 / 10 -> Rabs y' <= 4 / 10 ->
  0 <= d -> (x - x') * (x - x') + (y - y') * (y - y') + (z - z') * (z - z') <= d * d -> qdist (cacc x y z) (cacc x' y' z') <= 6 / 10 * d.
Proof.
  intros Hz Hz' Hx Hy Hd H. apply le_sqrt_of; [lra|]. rewrite qdist_sqr. unfold cacc.
  set (L := sqrt ((1 - z) / 2)). set (L' := sqrt ((1 - z') / 2)).
  assert (RL : 96 / 100 <= L <= 103 / 100) by (apply sqrt_in; lra). assert (RL' : 96 / 100 <= L' <= 103 / 100) by (apply sqrt_in; lra).
  assert (SL : L * L = (1 - z) / 2) by (apply sqrt_sqrt; lra). assert (SL' : L' * L' = (1 - z') / 2) by (apply sqrt_sqrt; lra).
  clearbody L L'. apply Rabs_le_inv in Hx, Hy.
  set (dz := z - z') in *. set (dx := x - x') in *. set (dy := y - y') in *.
  assert (EL : L - L' = - dz / (2 * (L + L'))). { unfold dz. replace z with (1 - 2 * (L * L)) by lra. replace z' with (1 - 2 * (L' * L')) by lra. field. lra. }
  assert (Inv : forall a b, 0 < b -> Rabs (/ a) <= / b -> True) by auto.
  set (p := / (2 * (L + L'))). assert (Hp : 0 <= p <= 27 / 100). { unfold p. split; [left; apply Rinv_0_lt_compat; lra|]. replace (27 / 100) with (/ (100 / 27)) by lra. apply Rinv_le_contravar; lra. }
  set (q := / (2 * L)). assert (Hq : 0 <= q <= 521 / 1000). { unfold q. split; [left; apply Rinv_0_lt_compat; lra|]. replace (521 / 1000) with (/ (1000 / 521)) by lra. apply Rinv_le_contravar; lra. }
  set (q' := / L'). assert (Hq' : 0 <= q' <= 105 / 100). { unfold q'. split; [left; apply Rinv_0_lt_compat; lra|]. replace (105 / 100) with (/ (100 / 105)) by lra. apply Rinv_le_contravar; lra. }
  assert (Ly : y / (2 * L) - y' / (2 * L') = dy * q + y' * dz * (p * q * q')).
  { unfold dy, q, q'. transitivity ((y - y') / (2 * L) + y' * (L' - L) / (2 * L * L')); [field; lra|]. replace (L' - L) with (dz * p) by (unfold p; replace (L' - L) with (- (L - L')) by ring; rewrite EL; field; lra). field. lra. }
  assert (Lx : - x / (2 * L) - - x' / (2 * L') = - (dx * q + x' * dz * (p * q * q'))).
  { unfold dx, q, q'. transitivity (- ((x - x') / (2 * L) + x' * (L' - L) / (2 * L * L'))); [field; lra|]. replace (L' - L) with (dz * p) by (unfold p; replace (L' - L) with (- (L - L')) by ring; rewrite EL; field; lra). field. lra. }
  assert (LL : L - L' = - (dz * p)) by (rewrite EL; unfold p; field; lra).
  unfold qnorm2, qsub, qadd, qneg, qscale. cbn [Qw Qx Qy Qz].
  replace (L + -1 * L') with (- (dz * p)) by lra. replace (y / (2 * L) + -1 * (y' / (2 * L'))) with (dy * q + y' * dz * (p * q * q')) by lra.
  replace (- x / (2 * L) + -1 * (- x' / (2 * L'))) with (- (dx * q + x' * dz * (p * q * q'))) by lra.
  assert (PQ : 0 <= p * q * q' <= 15 / 100). { assert (0 <= p * q <= 27 / 100 * (521 / 1000)) by (split; [apply Rmult_le_pos; lra|apply Rmult_le_compat; lra]). split; [apply Rmult_le_pos; lra|]. apply Rle_trans with (27 / 100 * (521 / 1000) * (105 / 100)); [apply Rmult_le_compat; lra|lra]. }
  set (e := p * q * q') in *. clearbody e p q q'. clear EL Ly Lx LL SL SL' RL RL' Inv.
  assert (SQ : forall a b a' b', Rabs a <= a' -> Rabs b <= b' -> (a + b) * (a + b) <= (a' + b') * (a' + b')).
  { intros a b a' b' Ha Hb. pose proof (Rabs_pos a). pose proof (Rabs_pos b). pose proof (Rabs_triang a b). assert (Rabs (a + b) <= a' + b') by lra.
    apply Rle_trans with (Rabs (a + b) * Rabs (a + b)); [rewrite <- Rabs_mult; apply Rle_abs|]. apply Rmult_le_compat; try lra; apply Rabs_pos. }
  assert (B1 : forall a, Rabs (a * q) <= Rabs a * (521 / 1000)). { intros a. rewrite Rabs_mult, (Rabs_pos_eq q) by lra. apply Rmult_le_compat_l; [apply Rabs_pos|lra]. }
  assert (B2 : forall a, - (4 / 10) <= a <= 4 / 10 -> Rabs (a * dz * e) <= Rabs dz * (6 / 100)).
  { intros a Ha. rewrite !Rabs_mult, (Rabs_pos_eq e) by lra. assert (Rabs a <= 4 / 10) by (apply Rabs_le; lra). pose proof (Rabs_pos a). pose proof (Rabs_pos dz).
    apply Rle_trans with (4 / 10 * Rabs dz * (15 / 100)); [|lra]. apply Rmult_le_compat; try lra; [apply Rmult_le_pos; lra|apply Rmult_le_compat_r; lra]. }
  pose proof (SQ _ _ _ _ (B1 dy) (B2 y' ltac:(lra))) as S1. pose proof (SQ _ _ _ _ (B1 dx) (B2 x' ltac:(lra))) as S2.
  assert (S3 : - (dz * p) * - (dz * p) <= 73 / 1000 * (dz * dz)). { pose proof (sqr_pos dz). assert (p * p <= 73 / 1000) by nra. replace (- (dz * p) * - (dz * p)) with (p * p * (dz * dz)) by ring. apply Rmult_le_compat_r; auto. }
  assert (AB : forall a, Rabs a * Rabs a = a * a) by (intros; rewrite <- Rabs_mult; apply Rabs_pos_eq, sqr_pos).
  pose proof (AB dx). pose proof (AB dy). pose proof (AB dz). pose proof (Rabs_pos dx). pose proof (Rabs_pos dy). pose proof (Rabs_pos dz).
  replace (- (dx * q + x' * dz * e) * - (dx * q + x' * dz * e)) with ((dx * q + x' * dz * e) * (dx * q + x' * dz * e)) by ring.
  set (X := Rabs dx) in *. set (Y := Rabs dy) in *. set (Z := Rabs dz) in *.
  assert (CR : 2 * (X * Z) <= X * X + Z * Z /\ 2 * (Y * Z) <= Y * Y + Z * Z) by (pose proof (sqr_pos (X - Z)); pose proof (sqr_pos (Y - Z)); lra).
  assert ((Y * (521 / 1000) + Z * (6 / 100)) * (Y * (521 / 1000) + Z * (6 / 100)) <= 305 / 1000 * (Y * Y) + 36 / 1000 * (Z * Z)) by nra.
  assert ((X * (521 / 1000) + Z * (6 / 100)) * (X * (521 / 1000) + Z * (6 / 100)) <= 305 / 1000 * (X * X) + 36 / 1000 * (Z * Z)) by nra.
  pose proof (sqr_pos X). pose proof (sqr_pos Y). pose proof (sqr_pos Z). lra.
Qed.

(** ** the magnetometer correction *)
(** the turn about the vertical that is closest to a turn *)
Lemma flat_close E : unitq E -> tx E <= 1 / 5 -> unitq (qunit (flat E)) /\ qdist E (qunit (flat E)) <= 102 / 100 * tx E /\ 97 / 100 <= qnorm (flat E).
Proof.
  intros U HX. pose proof (parts E U) as P. pose proof (tx_pos E) as T0. pose proof (qnorm_pos (flat E)) as N0. set (N := qnorm (flat E)) in *. set (x := tx E) in *.
  assert (N1 : 97 / 100 <= N) by (apply le_sqrt_of; nra). assert (N2 : N <= 1) by (apply le_sqrt_of; nra).
  assert (UZ : unitq (qunit (flat E))) by (apply qunit_unit; fold N; lra).
  split; [exact UZ|]. split; [|exact N1]. apply le_sqrt_of; [lra|]. rewrite qdist_sqr.
  assert (NN : Qw E * Qw E + Qz E * Qz E = N * N). { unfold N. rewrite qnorm_sqr. unfold qnorm2, flat. cbn [Qw Qx Qy Qz]. ring. }
  assert (XX : Qx E * Qx E + Qy E * Qy E = x * x). { unfold x. rewrite tx_norm, qnorm_sqr. unfold qnorm2. cbn [Qw Qx Qy Qz]. ring. }
  replace (qnorm2 (qsub E (qunit (flat E)))) with ((1 - / N) * (1 - / N) * (Qw E * Qw E + Qz E * Qz E) + (Qx E * Qx E + Qy E * Qy E)).
  2:{ unfold qunit. fold N. unfold qnorm2, qsub, qadd, qneg, qscale, flat. cbn [Qw Qx Qy Qz]. ring. }
  rewrite NN, XX. replace ((1 - / N) * (1 - / N) * (N * N)) with ((1 - N) * (1 - N)) by (field; lra).
  assert (1 - N <= x * x) by nra. assert ((1 - N) * (1 - N) <= x * x * (3 / 100)) by (apply Rmult_le_compat; lra). nra.
Qed.
Lemma level_field c s h v : qrot (Quat c 0 0 s) (triple h 0 v) 0%nat = h * (c * c - s * s) /\ qrot (Quat c 0 0 s) (triple h 0 v) 1%nat = h * (2 * (c * s)).
Proof. cbn. split; ring. Qed.
Lemma half_angle lx ly h c s rho : 0 < h -> c * c + s * s = 1 -> 0 < c -> Rabs s <= 1 / 3 -> 0 <= rho <= 1 / 4 ->
  (lx - h * (c * c - s * s)) * (lx - h * (c * c - s * s)) + (ly - h * (2 * (c * s))) * (ly - h * (2 * (c * s))) <= rho * h * (rho * h) ->
  0 < lx /\ 3 / 4 * h <= sqrt (lx * lx + ly * ly) /\ 84 / 100 <= Qw (qpos lx ly) /\ qdist (qpos lx ly) (Quat c 0 0 s) <= 7 / 10 * rho.
Proof.
  intros Hh CS Hc Hs Hr H.
  assert (S2 : s * s <= 1 / 9). { assert (Rabs s * Rabs s <= 1 / 3 * (1 / 3)) by (apply Rmult_le_compat; try lra; apply Rabs_pos). rewrite <- Rabs_mult, Rabs_pos_eq in H0 by apply sqr_pos. lra. }
  set (D1 := c * c - s * s) in *. set (D2 := 2 * (c * s)) in *. assert (DD : D1 * D1 + D2 * D2 = 1) by (unfold D1, D2; replace 1 with ((c * c + s * s) * (c * c + s * s)) by (rewrite CS; ring); ring).
  assert (D1b : 7 / 9 <= D1 <= 1) by (unfold D1; pose proof (sqr_pos s); lra).
  assert (LX : Rabs (lx - h * D1) <= rho * h). { apply le_sqrt_of; [nra|]. rewrite <- Rabs_mult, Rabs_pos_eq by apply sqr_pos. pose proof (sqr_pos (ly - h * D2)). lra. }
  apply Rabs_le_inv in LX. assert (LX0 : 0 < lx) by nra. split; [exact LX0|].
  destruct (qpos_angle lx ly (or_introl LX0)) as (Z1 & Z2 & U & A1 & A2 & R0 & RR & W0 & _). set (m := qpos lx ly) in *. set (r := sqrt (lx * lx + ly * ly)) in *. clearbody m r.
  set (pu := Quat lx ly 0 0). set (pv := Quat (h * D1) (h * D2) 0 0).
  assert (Nu : qnorm pu = r). { unfold qnorm, qnorm2, pu. cbn [Qw Qx Qy Qz]. replace (lx * lx + ly * ly + 0 * 0 + 0 * 0) with (r * r) by lra. apply sqrt_square. lra. }
  assert (Nv : qnorm pv = h). { unfold qnorm, qnorm2, pv. cbn [Qw Qx Qy Qz]. replace (h * D1 * (h * D1) + h * D2 * (h * D2) + 0 * 0 + 0 * 0) with (h * h * (D1 * D1 + D2 * D2)) by ring. rewrite DD, Rmult_1_r. apply sqrt_square. lra. }
  assert (Duv : qdist pu pv <= rho * h). { apply le_sqrt_of; [nra|]. rewrite qdist_sqr. unfold qnorm2, qsub, qadd, qneg, qscale, pu, pv. cbn [Qw Qx Qy Qz]. lra. }
  assert (RL : (1 - rho) * h <= r). { rewrite <- Nu. pose proof (qdist_norm pv pu) as T. rewrite Nv, qdist_sym in T. lra. }
  split; [nra|].
  assert (PR : qdist (qunit pu) (qunit pv) <= 4 / 3 * rho).
  { eapply Rle_trans; [apply (proj_lip pu pv (3 / 4 * h)); rewrite ?Nu, ?Nv; nra|]. apply (Rmult_le_reg_r (3 / 4 * h)); [lra|].
    replace (qdist pu pv / (3 / 4 * h) * (3 / 4 * h)) with (qdist pu pv) by (field; lra). lra. }
  assert (EU : qunit pu = Quat (lx / r) (ly / r) 0 0). { unfold qunit. rewrite Nu. unfold pu. apply quat_eta; unfold qscale; cbn [Qw Qx Qy Qz]; field; lra. }
  assert (EV : qunit pv = Quat D1 D2 0 0). { unfold qunit. rewrite Nv. unfold pv. apply quat_eta; unfold qscale; cbn [Qw Qx Qy Qz]; field; lra. }
  rewrite EU, EV in PR. set (c' := Qw m) in *. set (s' := Qz m) in *.
  assert (PS : (c' * c' - s' * s' - D1) * (c' * c' - s' * s' - D1) + (2 * (c' * s') - D2) * (2 * (c' * s') - D2) <= 4 / 3 * rho * (4 / 3 * rho)).
  { rewrite A1, A2. pose proof (qdist_pos (Quat (lx / r) (ly / r) 0 0) (Quat D1 D2 0 0)) as P0. 
    assert (SQ : qdist (Quat (lx / r) (ly / r) 0 0) (Quat D1 D2 0 0) * qdist (Quat (lx / r) (ly / r) 0 0) (Quat D1 D2 0 0) <= 4 / 3 * rho * (4 / 3 * rho)) by (apply Rmult_le_compat; auto).
    rewrite qdist_sqr in SQ. unfold qnorm2, qsub, qadd, qneg, qscale in SQ. cbn [Qw Qx Qy Qz] in SQ. lra. }
  assert (R2 : 4 / 3 * rho * (4 / 3 * rho) <= 1 / 9) by nra.
  assert (C1 : 4 / 9 <= c' * c' - s' * s').
  { assert (Rabs (c' * c' - s' * s' - D1) <= 1 / 3); [|apply Rabs_le_inv in H0; lra]. apply le_sqrt_of; [lra|]. rewrite <- Rabs_mult, Rabs_pos_eq by apply sqr_pos. pose proof (sqr_pos (2 * (c' * s') - D2)). lra. }
  assert (C2 : 13 / 18 <= c' * c') by lra. assert (C3 : 8498 / 10000 <= c') by (apply le_sqrt_of; lra).
  set (Cd := c * c' + s * s').
  assert (SS' : s' * s' <= 5 / 18) by lra.
  assert (CP : 0 < Cd).
  { unfold Cd. assert (Rabs (s * s') <= 2 / 10). { rewrite Rabs_mult. assert (Rabs s' <= 6 / 10) by (apply le_sqrt_of; [lra|]; rewrite <- Rabs_mult, Rabs_pos_eq by apply sqr_pos; lra). 
      apply Rle_trans with (1 / 3 * (6 / 10)); [apply Rmult_le_compat; auto using Rabs_pos|lra]. }
    apply Rabs_le_inv in H0. assert (9 / 10 <= c) by (apply le_sqrt_of; lra). assert (9 / 10 * (8498 / 10000) <= c * c') by (apply Rmult_le_compat; lra). lra. }
  assert (DC : (c' * c' - s' * s' - D1) * (c' * c' - s' * s' - D1) + (2 * (c' * s') - D2) * (2 * (c' * s') - D2) = 4 * (1 - Cd * Cd)).
  { transitivity ((c' * c' + s' * s') * (c' * c' + s' * s') + (c * c + s * s) * (c * c + s * s) - 2 * (2 * (Cd * Cd) - (c * c + s * s) * (c' * c' + s' * s'))); [unfold Cd, D1, D2; ring|]. rewrite U, CS. ring. }
  rewrite DC in PS.
  assert (CD : 98 / 100 <= Cd) by (apply le_sqrt_of; nra).
  split.
  - lra.
  - apply le_sqrt_of; [lra|]. rewrite qdist_sqr. unfold qnorm2, qsub, qadd, qneg, qscale. cbn [Qw Qx Qy Qz]. fold c' s'. rewrite Z1, Z2.
    replace ((c' + -1 * c) * (c' + -1 * c) + (0 + -1 * 0) * (0 + -1 * 0) + (0 + -1 * 0) * (0 + -1 * 0) + (s' + -1 * s) * (s' + -1 * s))
      with ((c' * c' + s' * s') + (c * c + s * s) - 2 * Cd) by (unfold Cd; ring). rewrite U, CS.
    assert (C1' : Cd <= 1). { unfold Cd. pose proof (sqr_pos (c - c')). pose proof (sqr_pos (s - s')). lra. }
    assert ((1 - Cd) * (198 / 100) <= (1 - Cd) * (1 + Cd)) by (apply Rmult_le_compat_l; lra). lra.
Qed.

(** what a perturbed correction m about the vertical leaves *)
Lemma mag_step E k m dl : unitq E -> tx E <= 1 / 5 -> 0 <= k <= 1 ->
  unitq m -> Qx m = 0 -> Qy m = 0 -> 9 / 10 <= Qw (qunit (flat E)) -> qdist m (qunit (blend (1 - k) k (qunit (flat E)))) <= dl ->
  let E' := qmul (qconj m) E in tx E' = tx E /\ hz E' <= (1 - 4 / 5 * k) * hz E + dl.
Proof.
  intros U HX Hk Um X0 Y0 HW HD E'. destruct (flat_close E U HX) as (UZ & _ & NF). set (z := qunit (flat E)) in *.
  split.
  - unfold tx. f_equal. unfold E', qmul, qconj. cbn [Qw Qx Qy Qz]. rewrite X0, Y0.
    assert (UM : Qw m * Qw m + Qz m * Qz m = 1). { pose proof (unit_comp m Um). rewrite X0, Y0 in H. lra. }
    transitivity ((Qw m * Qw m + Qz m * Qz m) * (Qx E * Qx E + Qy E * Qy E)); [ring|rewrite UM; ring].
  - assert (FE : flat E' = qmul (qconj m) (flat E)) by (apply quat_eta; unfold E', flat, qmul, qconj; cbn [Qw Qx Qy Qz]; rewrite X0, Y0; ring).
    unfold hz at 1. rewrite FE, qunit_mul by (rewrite ?(unit_norm _ (conj_unit _ Um)); lra). fold z.
    rewrite (qunit_of_unit (qconj m)) by (apply conj_unit; auto).
    set (B := blend (1 - k) k z) in *. set (N := qnorm B) in *.
    assert (Zx : Qx z = 0 /\ Qy z = 0) by (unfold z, qunit, qscale, flat; cbn [Qx Qy]; split; ring). destruct Zx as [Zx Zy].
    pose proof (unit_comp z UZ) as UC. rewrite Zx, Zy in UC.
    assert (NL : 1 - 1 / 10 * k <= 1 - k + k * Qw z) by nra.
    assert (NB : 1 - k + k * Qw z <= N). { unfold N, qnorm. rewrite <- (sqrt_square (1 - k + k * Qw z)) by lra. apply sqrt_le_1_alt. unfold qnorm2, B, blend. cbn [Qw Qx Qy Qz].
      pose proof (sqr_pos (k * Qx z)). pose proof (sqr_pos (k * Qy z)). pose proof (sqr_pos (k * Qz z)). lra. }
    assert (N0 : 0 < N) by lra.
    eapply Rle_trans; [apply (qz_lip _ (qmul (qconj (qunit B)) z))|]. rewrite qdist_mul_r, conj_dist, (unit_norm z UZ), Rmult_1_r. apply Rplus_le_compat; [|exact HD].
    replace (Qz (qmul (qconj (qunit B)) z)) with ((1 - k) / N * Qz z).
    2:{ unfold qunit. fold N. unfold B, blend, qmul, qconj, qscale. cbn [Qw Qx Qy Qz]. rewrite Zx, Zy. field. lra. }
    rewrite Rabs_mult. fold (hz E). change (Rabs (Qz z)) with (hz E). apply Rmult_le_compat_r; [apply Rabs_pos|]. apply abs_div; [auto|]. rewrite Rabs_pos_eq by lra.
    apply Rle_trans with ((1 - 4 / 5 * k) * (1 - 1 / 10 * k)); [nra|apply Rmult_le_compat_l; lra].
Qed.

(** ** the three stages, with errors *)
Lemma vdist_sqr x y : vdist 3 x y * vdist 3 x y = (x 0%nat - y 0%nat) * (x 0%nat - y 0%nat) + (x 1%nat - y 1%nat) * (x 1%nat - y 1%nat) + (x 2%nat - y 2%nat) * (x 2%nat - y 2%nat).
Proof. unfold vdist. rewrite P_Norm.rnorm_sqr. unfold rdot. cbn [Rsum]. ring. Qed.
Lemma qw_lip p q : Qw q - qdist p q <= Qw p.
Proof.
  assert (Rabs (Qw p - Qw q) <= qdist p q) as B; [|apply Rabs_le_inv in B; lra].
  apply le_sqrt_of; [apply qdist_pos|]. rewrite <- Rabs_mult, Rabs_pos_eq by apply sqr_pos. rewrite qdist_sqr. unfold qnorm2, qsub, qadd, qneg, qscale. cbn [Qw Qx Qy Qz].
  pose proof (sqr_pos (Qx p - Qx q)). pose proof (sqr_pos (Qy p - Qy q)). pose proof (sqr_pos (Qz p - Qz q)). lra.
Qed.
Lemma flat_big E : unitq E -> tx E <= 1 / 5 -> 97 / 100 <= qnorm (flat E). Proof. intros U H. apply flat_close; auto. Qed.
Lemma hz_pos E : 0 <= hz E. Proof. apply Rabs_pos. Qed.
(** the first component, when the heading is not too far off *)
Lemma front E : unitq E -> tx E <= 1 / 5 -> hz E <= 1 / 3 -> 0 < Qw E -> 94 / 100 <= Qw (qunit (flat E)) /\ 91 / 100 <= Qw E /\ (tx E <= 1 / 10 -> 93 / 100 <= Qw E).
Proof.
  intros U HX HH HW. destruct (flat_close E U HX) as (UZ & _ & NF). pose proof (parts E U) as P. pose proof (tx_pos E) as T0. set (N := qnorm (flat E)) in *.
  assert (EW : Qw (qunit (flat E)) = Qw E / N) by (unfold qunit; fold N; unfold qscale, flat; cbn [Qw]; field; lra).
  pose proof (unit_comp _ UZ) as UC. assert (X0 : Qx (qunit (flat E)) = 0 /\ Qy (qunit (flat E)) = 0) by (unfold qunit, qscale, flat; cbn [Qx Qy]; split; ring). destruct X0 as [X0 Y0]. rewrite X0, Y0 in UC.
  assert (H2 : Qz (qunit (flat E)) * Qz (qunit (flat E)) <= 1 / 9).
  { unfold hz in HH. rewrite <- (Rabs_pos_eq (_ * _)) by apply sqr_pos. rewrite Rabs_mult. replace (1 / 9) with (1 / 3 * (1 / 3)) by lra. apply Rmult_le_compat; auto using Rabs_pos. }
  assert (W0 : 0 < Qw (qunit (flat E))). { rewrite EW. apply Rmult_lt_0_compat; [auto|apply Rinv_0_lt_compat; lra]. }
  assert (W : 942 / 1000 <= Qw (qunit (flat E))) by (apply le_sqrt_of; lra).
  assert (QE : Qw E = Qw (qunit (flat E)) * N) by (rewrite EW; field; lra).
  split; [lra|]. split; [nra|]. intros HT. assert (99 / 100 <= N) by (apply le_sqrt_of; nra). nra.
Qed.

Lemma step_gyr E E' e : unitq E -> unitq E' -> tx E <= 1 / 10 -> hz E <= 1 / 3 -> 0 < Qw E -> qdist E' E <= e -> e <= 1 / 100 ->
  tx E' <= tx E + e /\ hz E' <= hz E + 104 / 100 * e /\ 92 / 100 <= Qw E'.
Proof.
  intros U U' HT HH HW HD He. destruct (front E U ltac:(lra) HH HW) as (_ & _ & W). specialize (W HT).
  pose proof (tx_lip E' E) as T. assert (TT : tx E' <= tx E + e) by lra. split; [exact TT|]. split.
  - eapply Rle_trans; [apply (hz_lip E' E (97 / 100)); [lra|apply flat_big; [auto|lra]|apply flat_big; [auto|lra]]|].
    apply Rplus_le_compat_l. pose proof (flat_lip E' E). pose proof (qdist_pos E' E). lra.
  - pose proof (qw_lip E' E). lra.
Qed.

Lemma region_acc E r g dg : unitq E -> tx E <= 11 / 100 -> Rabs (r - 1) <= 1 / 20 -> vdist 3 g (qrot E (triple 0 0 (- r))) <= dg -> dg <= 1 / 50 ->
  - (108 / 100) <= g 2%nat <= - (85 / 100) /\ Rabs (g 0%nat) <= 4 / 10 /\ Rabs (g 1%nat) <= 4 / 10.
Proof.
  intros U HT Hr HD Hd. destruct (grav E r) as (G0 & G1 & G2). apply Rabs_le_inv in Hr.
  assert (TS : Qx E * Qx E + Qy E * Qy E = tx E * tx E) by (rewrite tx_norm, qnorm_sqr; unfold qnorm2; cbn [Qw Qx Qy Qz]; ring).
  pose proof (tx_pos E) as T0. pose proof (unit_comp E U) as UC. set (S2 := tx E * tx E) in *. assert (HS : 0 <= S2 <= 121 / 10000) by (unfold S2; nra).
  assert (Z : qrot E (triple 0 0 (- r)) 2%nat = - r * (1 - 2 * S2)) by (rewrite G2; f_equal; lra).
  assert (XY : qrot E (triple 0 0 (- r)) 0%nat * qrot E (triple 0 0 (- r)) 0%nat + qrot E (triple 0 0 (- r)) 1%nat * qrot E (triple 0 0 (- r)) 1%nat = 4 * (r * r) * (S2 * (1 - S2))).
  { rewrite G0, G1. replace (1 - S2) with (Qw E * Qw E + Qz E * Qz E) by lra. rewrite <- TS. ring. }
  assert (XB : 4 * (r * r) * (S2 * (1 - S2)) <= 6 / 100). { assert (0 <= r * r <= 1103 / 1000) by nra. assert (0 <= S2 * (1 - S2) <= 121 / 10000) by nra. apply Rle_trans with (4 * (1103 / 1000) * (121 / 10000)); [apply Rmult_le_compat; lra|lra]. }
  pose proof (vdist_comp g _ 0%nat ltac:(lia) : Rabs (g 0%nat - qrot E (triple 0 0 (- r)) 0%nat) <= _) as D0.
  pose proof (vdist_comp g _ 1%nat ltac:(lia) : Rabs (g 1%nat - qrot E (triple 0 0 (- r)) 1%nat) <= _) as D1.
  pose proof (vdist_comp g _ 2%nat ltac:(lia) : Rabs (g 2%nat - qrot E (triple 0 0 (- r)) 2%nat) <= _) as D2.
  apply Rabs_le_inv in D0, D1, D2. rewrite Z in D2. set (a := qrot E (triple 0 0 (- r)) 0%nat) in *. set (b := qrot E (triple 0 0 (- r)) 1%nat) in *.
  assert (A1 : Rabs a <= 3 / 10). { apply le_sqrt_of; [lra|]. rewrite <- Rabs_mult, Rabs_pos_eq by apply sqr_pos. pose proof (sqr_pos b). lra. }
  assert (B1 : Rabs b <= 3 / 10). { apply le_sqrt_of; [lra|]. rewrite <- Rabs_mult, Rabs_pos_eq by apply sqr_pos. pose proof (sqr_pos a). lra. }
  apply Rabs_le_inv in A1, B1. split; [nra|]. split; apply Rabs_le; lra.
Qed.
Lemma blend_big k c : 0 <= k <= 1 -> 0 <= Qw c -> 1 - k + k * Qw c <= qnorm (blend (1 - k) k c).
Proof.
  intros Hk Hc. unfold qnorm. rewrite <- (sqrt_square (1 - k + k * Qw c)) by nra. apply sqrt_le_1_alt. unfold qnorm2, blend. cbn [Qw Qx Qy Qz].
  pose proof (sqr_pos (k * Qx c)). pose proof (sqr_pos (k * Qy c)). pose proof (sqr_pos (k * Qz c)). lra.
Qed.
Lemma blend_dist k c c' : 0 <= k -> qdist (blend (1 - k) k c) (blend (1 - k) k c') = k * qdist c c'.
Proof.
  intros Hk. unfold qdist. replace (qsub (blend (1 - k) k c) (blend (1 - k) k c')) with (qscale k (qsub c c')); [rewrite qnorm_scale, Rabs_pos_eq; auto|].
  apply quat_eta; unfold blend, qsub, qadd, qneg, qscale; cbn [Qw Qx Qy Qz]; ring.
Qed.
Lemma step_acc E r k g dg d d2 E' d4 : unitq E -> tx E <= 11 / 100 -> 9 / 10 <= Qw E -> Rabs (r - 1) <= 1 / 20 -> 0 <= k <= 1 ->
  vdist 3 g (qrot E (triple 0 0 (- r))) <= dg -> dg <= 1 / 50 -> unitq d -> Qz d = 0 ->
  qdist d (qunit (blend (1 - k) k (cacc (g 0%nat) (g 1%nat) (g 2%nat)))) <= d2 -> d2 <= 1 / 1000 ->
  unitq E' -> qdist E' (qmul (qconj d) E) <= d4 -> d4 <= 1 / 1000 ->
  let D := 65 / 100 * k * dg + d2 in
  tx E' <= (1 - 4 / 5 * k) * tx E + D + d4 /\ hz E' <= hz E + 13 / 10 * D * tx E + 104 / 100 * d4 /\ 8 / 10 <= Qw E'.
Proof.
  intros U HT HW Hr Hk HG Hdg Ud Zd Hd Hd2 U' HE Hd4 D. pose proof (tx_pos E) as T0.
  destruct (region_acc E r g dg U HT Hr HG Hdg) as (R2 & R0 & R1).
  set (G := qrot E (triple 0 0 (- r))) in *. pose proof (vdist_pos g G) as V0.
  destruct (region_acc E r G 0 U HT Hr) as (Q2 & Q0 & Q1). { change (vdist 3 G G <= 0). right. unfold vdist. rewrite <- (sqrt_square 0) by lra. unfold rnorm. f_equal. unfold rdot. cbn [Rsum]. ring. } { lra. }
  set (c := cacc (g 0%nat) (g 1%nat) (g 2%nat)) in *. set (c0 := cacc (G 0%nat) (G 1%nat) (G 2%nat)) in *.
  assert (HC : qdist c c0 <= 6 / 10 * dg).
  { unfold c, c0. apply cacc_lip; try lra; auto. rewrite <- vdist_sqr. apply Rmult_le_compat; lra. }
  assert (WC : 96 / 100 <= Qw c) by (unfold c, cacc; cbn [Qw]; apply (sqrt_in _ (96 / 100) 2); lra). assert (WC0 : 96 / 100 <= Qw c0) by (unfold c0, cacc; cbn [Qw]; apply (sqrt_in _ (96 / 100) 2); lra).
  assert (HD : qdist d (qunit (blend (1 - k) k c0)) <= D).
  { eapply Rle_trans; [apply (qdist_tri _ (qunit (blend (1 - k) k c)))|]. unfold D. rewrite Rplus_comm. apply Rplus_le_compat; [|exact Hd].
    eapply Rle_trans; [apply (proj_lip _ _ (96 / 100)); [lra| |]; (eapply Rle_trans; [|apply blend_big]; nra)|]. rewrite blend_dist by lra.
    assert (k * qdist c c0 <= k * (6 / 10 * dg)) by (apply Rmult_le_compat_l; lra). assert (0 <= k * dg) by nra. lra. }
  assert (D0 : D <= 15 / 1000). { unfold D. assert (k * dg <= 1 * (1 / 50)) by (apply Rmult_le_compat; lra). lra. }
  assert (Dp : 0 <= D) by (eapply Rle_trans; [apply qdist_pos|exact HD]).
  destruct (acc_step_tilt E r k d U ltac:(nra) Hr Hk Ud Zd) as (ST & SW & SH). fold G in ST, SW, SH. fold c0 in ST, SW, SH. set (E1 := qmul (qconj d) E) in *.
  assert (U1 : unitq E1) by (apply unit_mul; auto; apply conj_unit; auto).
  assert (T1 : tx E1 <= (1 - 4 / 5 * k) * tx E + D) by lra.
  assert (T1b : tx E1 <= 13 / 100) by nra.
  pose proof (tx_lip E' E1) as TL. assert (T' : tx E' <= (1 - 4 / 5 * k) * tx E + D + d4) by lra.
  split; [exact T'|]. split.
  - assert (H1 : hz E1 <= hz E + qdist d (qunit (blend (1 - k) k c0)) * tx E / (8 / 10)).
    { apply SH; [lra| |]; [eapply Rle_trans; [|apply flat_big; [auto|lra]]; lra|]. pose proof (flat_big E U ltac:(lra)). nra. }
    assert (qdist d (qunit (blend (1 - k) k c0)) * tx E / (8 / 10) <= 13 / 10 * D * tx E).
    { assert (qdist d (qunit (blend (1 - k) k c0)) * tx E <= D * tx E) by (apply Rmult_le_compat_r; auto). nra. }
    assert (hz E' <= hz E1 + qdist E' E1 / (97 / 100)).
    { eapply Rle_trans; [apply (hz_lip E' E1 (97 / 100)); [lra|apply flat_big; [auto|lra]|apply flat_big; [auto|lra]]|]. apply Rplus_le_compat_l. pose proof (flat_lip E' E1). lra. }
    pose proof (qdist_pos E' E1). lra.
  - pose proof (qw_lip E' E1). specialize (SW ltac:(lra)). lra.
Qed.

Lemma region_mag E h v b db : unitq E -> tx E <= 1 / 5 -> hz E <= 1 / 3 -> 0 < Qw E -> 0 < h -> h * h + v * v = 1 -> vdist 3 b (qrot E (triple h 0 v)) <= db ->
  204 / 100 * tx E + db <= 1 / 4 * h ->
  0 < b 0%nat /\ 3 / 4 * h <= sqrt (b 0%nat * b 0%nat + b 1%nat * b 1%nat) /\ 84 / 100 <= Qw (qpos (b 0%nat) (b 1%nat)) /\
  qdist (qpos (b 0%nat) (b 1%nat)) (qunit (flat E)) <= 7 / 10 * ((204 / 100 * tx E + db) / h).
Proof.
  intros U HT HH HW Hh HV HB HR. destruct (flat_close E U HT) as (UZ & DZ & NF). destruct (front E U HT HH HW) as (W & _ & _).
  set (z := qunit (flat E)) in *. assert (X0 : Qx z = 0 /\ Qy z = 0) by (unfold z, qunit, qscale, flat; cbn [Qx Qy]; split; ring). destruct X0 as [X0 Y0].
  pose proof (unit_comp _ UZ) as UC. rewrite X0, Y0 in UC.
  assert (EZ : z = Quat (Qw z) 0 0 (Qz z)) by (apply quat_eta; cbn [Qw Qx Qy Qz]; auto). destruct (level_field (Qw z) (Qz z) h v) as [L0 L1]. rewrite <- EZ in L0, L1.
  assert (NV : rnorm 3 (triple h 0 v) = 1). { unfold rnorm, rdot. cbn [Rsum]. unfold triple. rewrite <- sqrt_1. f_equal. lra. }
  assert (VD : vdist 3 b (qrot z (triple h 0 v)) <= 204 / 100 * tx E + db).
  { eapply Rle_trans; [apply (vdist_tri _ (qrot E (triple h 0 v)))|]. pose proof (qrot_close E z (triple h 0 v) U UZ) as QC. rewrite NV in QC. lra. }
  pose proof (vdist_pos b (qrot z (triple h 0 v))) as V0. set (rho := (204 / 100 * tx E + db) / h).
  assert (RH : rho * h = 204 / 100 * tx E + db) by (unfold rho; field; lra).
  assert (R1 : 0 <= rho <= 1 / 4) by (split; apply (Rmult_le_reg_r h); rewrite ?RH; lra).
  rewrite EZ. apply half_angle; auto; try lra.
  - rewrite <- L0, <- L1, RH. pose proof (vdist_sqr b (qrot z (triple h 0 v))) as VS. pose proof (sqr_pos (b 2%nat - qrot z (triple h 0 v) 2%nat)).
    assert (vdist 3 b (qrot z (triple h 0 v)) * vdist 3 b (qrot z (triple h 0 v)) <= (204 / 100 * tx E + db) * (204 / 100 * tx E + db)) by (apply Rmult_le_compat; lra). lra.
Qed.
Lemma step_mag E h v k b db m d6 E' d8 : unitq E -> tx E <= 1 / 10 -> hz E <= 1 / 3 -> 0 < Qw E -> 0 <= k <= 1 -> 0 < h -> h * h + v * v = 1 ->
  vdist 3 b (qrot E (triple h 0 v)) <= db -> 204 / 100 * tx E + db <= 1 / 4 * h ->
  unitq m -> Qx m = 0 -> Qy m = 0 -> qdist m (qunit (blend (1 - k) k (qpos (b 0%nat) (b 1%nat)))) <= d6 ->
  unitq E' -> qdist E' (qmul (qconj m) E) <= d8 -> d8 <= 1 / 1000 ->
  tx E' <= tx E + d8 /\ hz E' <= (1 - 4 / 5 * k) * hz E + 84 / 100 * k * ((204 / 100 * tx E + db) / h) + d6 + 104 / 100 * d8.
Proof.
  intros U HT HH HW Hk Hh HV HB HR Um X0 Y0 Hm U' HE Hd8.
  destruct (region_mag E h v b db U ltac:(lra) HH HW Hh HV HB HR) as (_ & _ & Wq & Dq). destruct (front E U ltac:(lra) HH HW) as (W & _ & _).
  set (rho := (204 / 100 * tx E + db) / h) in *. set (q := qpos (b 0%nat) (b 1%nat)) in *. set (z := qunit (flat E)) in *.
  assert (DM : qdist m (qunit (blend (1 - k) k z)) <= 84 / 100 * k * rho + d6).
  { eapply Rle_trans; [apply (qdist_tri _ (qunit (blend (1 - k) k q)))|]. rewrite Rplus_comm. apply Rplus_le_compat; [|exact Hm].
    eapply Rle_trans; [apply (proj_lip _ _ (84 / 100)); [lra| |]; (eapply Rle_trans; [|apply blend_big]; nra)|]. rewrite blend_dist by lra.
    assert (k * qdist q z <= k * (7 / 10 * rho)) by (apply Rmult_le_compat_l; lra). pose proof (qdist_pos q z). assert (0 <= rho) by lra. assert (0 <= k * rho) by (apply Rmult_le_pos; lra). lra. }
  destruct (mag_step E k m _ U ltac:(lra) Hk Um X0 Y0 ltac:(fold z; lra) DM) as [TE HZ]. set (E1 := qmul (qconj m) E) in *.
  assert (U1 : unitq E1) by (apply unit_mul; auto; apply conj_unit; auto).
  pose proof (tx_lip E' E1) as TL. split; [lra|].
  eapply Rle_trans; [apply (hz_lip E' E1 (97 / 100)); [lra|apply flat_big; [auto|lra]|apply flat_big; [auto|lra]]|].
  pose proof (flat_lip E' E1). pose proof (qdist_pos E' E1). lra.
Qed.
