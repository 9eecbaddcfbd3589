(** C34: from rotation matrices back to quaternions. *)
(*@+*)
From Coq Require Import List Arith ZArith Reals Lia Bool Lra Psatz.
From Flocq Require Import Core BinarySingleNaN.
From Verif Require Import M_Base M_Arith M_Utils M_Vector M_Matrix M_Quaternion M_F32 M_RX
  S_Spec S_Linalg S_Norm S_Quat P_Inst P_InstQ.
Import ListNotations.
Local Open Scope R_scope.
(*@-*)
From Verif Require Import P_Hoare P_Cont P_Loops P_Access P_Pointwise P_Trans P_Float P_Product
  P_Compare P_Diag P_Dot P_Norm P_FErr P_Norm32 P_Quat P_Rot.

Lemma fm1_RX : fm1 (A := RX) = Some (-1).
Proof. unfold fm1. cbn. f_equal. lra. Qed.
Lemma f3_RX : f3 (A := RX) = Some 3.
Proof. unfold f3. cbn. f_equal. lra. Qed.
Lemma fhalf_RX : fhalf (A := RX) = Some (1/2).
Proof. reflexivity. Qed.
Definition rclip (a lo hi : R) : R := if Rlt_bool a lo then lo else if Rlt_bool hi a then hi else a.
Lemma clip_RX a lo hi : clip (A := RX) (Some a) (Some lo) (Some hi) = Some (rclip a lo hi).
Proof. unfold clip, rclip. cbn. destruct (Rlt_bool a lo), (Rlt_bool hi a); reflexivity. Qed.
Definition rsgn (a : R) : R := if Rlt_bool 0 a then 1 else if Rlt_bool a 0 then -1 else 0.
Lemma sign_RX a : sign (A := RX) (Some a) = Some (rsgn a).
Proof.
  unfold sign. rewrite f0_RX, f1_RX, fm1_RX. unfold rsgn. cbn.
  destruct (Rlt_bool 0 a), (Rlt_bool a 0); reflexivity.
Qed.
Lemma rclip_in a lo hi : lo <= a <= hi -> rclip a lo hi = a.
Proof. intros H. unfold rclip. rewrite !Rlt_bool_false by lra. reflexivity. Qed.
Lemma rsgn_pos a : 0 < a -> rsgn a = 1.
Proof. intros H. unfold rsgn. rewrite Rlt_bool_true by auto. reflexivity. Qed.
Lemma rsgn_neg a : a < 0 -> rsgn a = -1.
Proof. intros H. unfold rsgn. rewrite Rlt_bool_false, Rlt_bool_true by lra. reflexivity. Qed.
Lemma rsgn_0 : rsgn 0 = 0.
Proof. unfold rsgn. rewrite Rlt_bool_false by lra. reflexivity. Qed.
Lemma rsgn_abs a : rsgn a * Rabs a = a.
Proof.
  destruct (Rtotal_order a 0) as [H|[->|H]].
  - rewrite rsgn_neg, Rabs_left by auto. ring.
  - rewrite Rabs_R0. ring.
  - rewrite rsgn_pos, Rabs_right by lra. ring.
Qed.
Lemma sqrt_abs a b : a = b * b -> sqrt a = Rabs b.
Proof. intros ->. apply sqrt_Rsqr_abs. Qed.
Lemma fsqrt_RX a : 0 <= a -> fsqrt (Arith := RX) (Some a) = Some (sqrt a).
Proof. intros H. cbn. rewrite Rlt_bool_false by auto. reflexivity. Qed.

Section R.
  Variables (dcm : Mat (T (Arith := RX))) (q : quat).
  Hypothesis (Hd : mat_r dcm 3 3 (rotmat q)) (U : unitq q).
  Let w := Qw q. Let x := Qx q. Let y := Qy q. Let z := Qz q.
  Lemma U' : w * w + x * x + y * y + z * z = 1.
  Proof. exact U. Qed.
  Ltac ent := let R := fresh in intros;
    match goal with |- rotmat q ?i ?j = _ => pose proof (rotmat_list q i j ltac:(lia) ltac:(lia) U) as R end;
    pose proof U'; unfold w, x, y, z in *; destruct q as [w0 x0 y0 z0]; cbn in R |- *; rewrite R; cbn in *; nra.
  Lemma r00 : rotmat q 0 0 = 2 * (w * w + x * x) - 1.
  Proof. ent. Qed.
  Lemma r01 : rotmat q 0 1 = 2 * (x * y - w * z).
  Proof. ent. Qed.
  Lemma r02 : rotmat q 0 2 = 2 * (x * z + w * y).
  Proof. ent. Qed.
  Lemma r10 : rotmat q 1 0 = 2 * (x * y + w * z).
  Proof. ent. Qed.
  Lemma r11 : rotmat q 1 1 = 2 * (w * w + y * y) - 1.
  Proof. ent. Qed.
  Lemma r12 : rotmat q 1 2 = 2 * (y * z - w * x).
  Proof. ent. Qed.
  Lemma r20 : rotmat q 2 0 = 2 * (x * z - w * y).
  Proof. ent. Qed.
  Lemma r21 : rotmat q 2 1 = 2 * (w * x + y * z).
  Proof. ent. Qed.
  Lemma r22 : rotmat q 2 2 = 2 * (w * w + z * z) - 1.
  Proof. ent. Qed.
  Lemma trace_r : m_trace dcm = Ok (Some (4 * (w * w) - 1)).
  Proof.
    rewrite (l_trace _ _ _ _ _ Hd). cbn [Nat.eqb]. f_equal. rewrite fsum_RX. f_equal. cbn [Rsum].
    rewrite r00, r11, r22. pose proof U'. lra.
  Qed.
  Lemma get_r i j : (i < 3)%nat -> (j < 3)%nat -> m_get dcm i j = Ok (Some (rotmat q i j)).
  Proof. intros. apply (mi_get _ _ _ _ Hd); auto. Qed.

  (** clamped component *)
  Definition cc (t : R) : R := 1 / 2 * rsgn (4 * (w * t)) * sqrt (rclip (4 * (t * t) - 1) (-1) 1 + 1).
  Lemma chiaverini_prefix v s : vec_r v 4 s ->
    exists v', quat_r v' (Quat (Rabs w) (cc x) (cc y) (cc z)) /\ q_chiaverini dcm v = v_normalize v'.
  Proof.
    intros Hv. unfold q_chiaverini.
    rewrite guard_bind by (unfold reads; rewrite (q_guard_ok _ _ Hv); reflexivity).
    erewrite sbind_ok by (apply lift_ok; exact trace_r).
    do 9 (erewrite sbind_ok by (apply lift_ok; apply get_r; lia)).
    rewrite r00, r01, r02, r10, r11, r12, r20, r21, r22. cbv zeta.
    rewrite fm1_RX, f3_RX, f1_RX, fhalf_RX. pose proof U' as U1.
    assert (B : forall t, 0 <= t * t) by (intros; nra).
    pose proof (B w) as Bw. pose proof (B x) as Bx. pose proof (B y) as By. pose proof (B z) as Bz.
    rewrite clip_RX, rclip_in by lra.
    assert (C : forall a b c t s d, a - b - c = 4 * (t * t) - 1 -> d = 4 * (w * t) -> s = d ->
      fmul (Arith := RX) (fmul (Arith := RX) (Some (1/2)) (sign (A := RX) (Some s)))
        (fsqrt (Arith := RX) (fadd (Arith := RX) (clip (A := RX) (fsub (Arith := RX) (fsub (Arith := RX) (Some a) (Some b)) (Some c)) (Some (-1)) (Some 1)) (Some 1)))
      = Some (cc t)).
    { intros a b c t s1 d E1 E2 ->. rewrite sign_RX.
      change (fsub (Arith := RX) (fsub (Arith := RX) (Some a) (Some b)) (Some c)) with (Some (a - b - c)).
      rewrite clip_RX. cbn [fadd RX rx2]. rewrite fsqrt_RX.
      - cbn. unfold cc. rewrite E1, E2. reflexivity.
      - unfold rclip. destruct (Rlt_bool_spec (a - b - c) (-1)); [lra|]. destruct (Rlt_bool_spec 1 (a - b - c)); lra. }
    repeat match goal with |- context [fsub (Arith := RX) (Some ?a) (Some ?b)] =>
      lazymatch b with context [_ - 1] => fail | _ => change (fsub (Arith := RX) (Some a) (Some b)) with (Some (a - b)) end end.
    rewrite (C _ _ _ x _ (2 * (w * x + y * z) - 2 * (y * z - w * x))) by lra.
    rewrite (C _ _ _ y _ (2 * (x * z + w * y) - 2 * (x * z - w * y))) by lra.
    rewrite (C _ _ _ z _ (2 * (x * y + w * z) - 2 * (x * y - w * z))) by lra.
    cbn [fadd RX rx2]. rewrite fsqrt_RX by lra. cbn [fmul RX rx2].
    rewrite (sqrt_abs (4 * (w * w) - 1 + 1) (2 * w)) by ring.
    rewrite Rabs_mult, (Rabs_right 2) by lra.
    replace (1 / 2 * (2 * Rabs w)) with (Rabs w) by field.
    destruct (set4_ok v _ (Some (Rabs w) : T (Arith := RX)) (Some (cc x) : T (Arith := RX)) (Some (cc y) : T (Arith := RX)) (Some (cc z) : T (Arith := RX)) Hv) as (v' & E & H');
      try apply valid_RX.
    exists v'. split; [eapply quat_ext; [exact H'|..]; reflexivity|].
    erewrite sbind_ok by exact E. reflexivity.
  Qed.
  Lemma cc_small t : 2 * (t * t) <= 1 -> w <> 0 -> cc t = rsgn w * t.
  Proof.
    intros Ht Hw. unfold cc. rewrite rclip_in by nra.
    rewrite (sqrt_abs _ (2 * t)) by ring. rewrite Rabs_mult, (Rabs_right 2) by lra.
    rewrite <- (rsgn_abs t) at 3. destruct (Rtotal_order w 0) as [Lw|[->|Lw]]; [|tauto|];
    destruct (Rtotal_order t 0) as [Lt|[->|Lt]]; rewrite ?Rmult_0_r, ?rsgn_0, ?Rabs_R0; try field.
    - rewrite (rsgn_pos (4 * (w * t))), (rsgn_neg w), (rsgn_neg t) by nra. field.
    - rewrite (rsgn_neg (4 * (w * t))), (rsgn_neg w), (rsgn_pos t) by nra. field.
    - rewrite (rsgn_neg (4 * (w * t))), (rsgn_pos w), (rsgn_neg t) by nra. field.
    - rewrite (rsgn_pos (4 * (w * t))), (rsgn_pos w), (rsgn_pos t) by nra. field.
  Qed.
  Lemma cc_zero t : w = 0 -> cc t = 0.
  Proof. intros E. unfold cc. rewrite E, Rmult_0_l, Rmult_0_r, rsgn_0. ring. Qed.
  (** the clamped component is never larger than sqrt(1/2) *)
  Lemma cc_bound t : cc t * cc t <= 1 / 2.
  Proof.
    unfold cc. set (c := rclip _ _ _ + 1).
    assert (0 <= c <= 2).
    { unfold c, rclip. destruct (Rlt_bool_spec (4 * (t * t) - 1) (-1)); [lra|]. destruct (Rlt_bool_spec 1 (4 * (t * t) - 1)); lra. }
    replace (1 / 2 * rsgn (4 * (w * t)) * sqrt c * (1 / 2 * rsgn (4 * (w * t)) * sqrt c))
      with (1 / 4 * (rsgn (4 * (w * t)) * rsgn (4 * (w * t))) * (sqrt c * sqrt c)) by field.
    rewrite sqrt_sqrt by lra.
    assert (rsgn (4 * (w * t)) * rsgn (4 * (w * t)) <= 1).
    { unfold rsgn. destruct (Rlt_bool 0 _); [lra|]. destruct (Rlt_bool _ 0); lra. }
    assert (0 <= rsgn (4 * (w * t)) * rsgn (4 * (w * t))) by nra. nra.
  Qed.
End R.

Lemma quat_normalize_r v q : quat_r v q -> eps < qnorm q ->
  exists v', v_normalize v = (v', Ok tt) /\ quat_r v' (qscale (/ qnorm q) q).
Proof.
  intros Hv Hn. destruct (l_normalize v 4 (qf q) Hv) as (v' & y & E & Hy & _ & K); [rewrite rnorm_qnorm; auto|].
  exists v'. split; [exact E|]. assert (0 < qnorm q) by (unfold eps in Hn; lra).
  rewrite rnorm_qnorm in K.
  eapply quat_ext; [exact Hy|..]; cbn; f_equal;
    [pose proof (K 0%nat ltac:(lia)) as K0|pose proof (K 1%nat ltac:(lia)) as K0|pose proof (K 2%nat ltac:(lia)) as K0|pose proof (K 3%nat ltac:(lia)) as K0];
    cbn in K0; rewrite K0; field; lra.
Qed.
Lemma quat_normalize_small v q : quat_r v q -> qnorm q <= eps ->
  exists v', v_normalize v = (v', Ok tt) /\ quat_r v' qzero.
Proof.
  intros Hv Hn. destruct (l_normalize_small v 4 (qf q) Hv) as (v' & E & H); [rewrite rnorm_qnorm; auto|].
  exists v'. split; [exact E|]. eapply quat_ext; [exact H|..]; reflexivity.
Qed.
Lemma qscale_1 q : qscale (/ 1) q = q.
Proof. destruct q. unfold qscale. cbn. f_equal; field. Qed.
Lemma unit_neg q : unitq q -> unitq (qneg q).
Proof. unfold unitq. intros <-. unfold qnorm2, qneg. cbn. ring. Qed.

(*@ C34_chiaverini *)
(** C34: [chiaverini] recovers q (or -q, the same rotation) from its matrix when w is not 0 and no
    other component exceeds sqrt(1/2) in magnitude *)
Lemma l_chiaverini :
  forall (v dcm : _) (s : nat -> R) (q : quat),
  vec_r v 4 s -> mat_r dcm 3 3 (rotmat q) -> unitq q ->
  2 * (Qx q * Qx q) <= 1 -> 2 * (Qy q * Qy q) <= 1 -> 2 * (Qz q * Qz q) <= 1 ->
  (0 < Qw q -> exists v', q_chiaverini dcm v = (v', Ok tt) /\ quat_r v' q) /\
  (Qw q < 0 -> exists v', q_chiaverini dcm v = (v', Ok tt) /\ quat_r v' (qneg q)).
Proof.
  intros v dcm s q Hv Hd U Bx By Bz.
  destruct (chiaverini_prefix dcm q Hd U v s Hv) as (v1 & H1 & ->).
  assert (E1 : eps < 1) by (unfold eps; lra).
  split; intros Hw.
  - rewrite !cc_small in H1 by (auto; lra). rewrite rsgn_pos, Rabs_right, !Rmult_1_l in H1 by lra.
    destruct (quat_normalize_r v1 q) as (v' & E & H').
    { destruct q; exact H1. } { rewrite unit_norm by auto. auto. }
    rewrite unit_norm, qscale_1 in H' by auto. eauto.
  - rewrite !cc_small in H1 by (auto; lra). rewrite rsgn_neg, Rabs_left in H1 by lra.
    pose proof (unit_neg q U) as U2.
    destruct (quat_normalize_r v1 (qneg q)) as (v' & E & H').
    { eapply quat_r_ext; [exact H1|]. unfold qneg, qscale. f_equal; ring. } { rewrite unit_norm by auto. auto. }
    rewrite unit_norm, qscale_1 in H' by auto. eauto.
Qed.

(*@ C34_chiaverini_round_trip *)
(** C34: on the code's own matrices *)
Lemma l_chiaverini_rt :
  forall (v qv : Vec (T (Arith := RX))) (s : nat -> R) (q : quat),
  vec_r v 4 s -> quat_r qv q -> unitq q -> 0 < Qw q ->
  2 * (Qx q * Qx q) <= 1 -> 2 * (Qy q * Qy q) <= 1 -> 2 * (Qz q * Qz q) <= 1 ->
  exists dcm v', q_convert_to_dcm qv = Ok dcm /\ q_chiaverini dcm v = (v', Ok tt) /\ quat_r v' q.
Proof.
  intros v qv s q Hv Hq U Hw Bx By Bz. destruct (q_dcm_r qv q Hq U) as (dcm & E & Hd).
  destruct (l_chiaverini v dcm s q Hv Hd U Bx By Bz) as [K _]. destruct (K Hw) as (v' & E' & H'). eauto 10.
Qed.

(*@ C34_chiaverini_half_turn *)
(** C34, violation: for every half turn (w = 0) [chiaverini] reports success with the zero quaternion *)
Lemma l_chiaverini_pi :
  forall (v dcm : _) (s : nat -> R) (q : quat),
  vec_r v 4 s -> mat_r dcm 3 3 (rotmat q) -> unitq q -> Qw q = 0 ->
  exists v', q_chiaverini dcm v = (v', Ok tt) /\ quat_r v' qzero.
Proof.
  intros v dcm s q Hv Hd U Hw.
  destruct (chiaverini_prefix dcm q Hd U v s Hv) as (v1 & H1 & ->).
  rewrite !cc_zero, Hw, Rabs_R0 in H1 by auto.
  eapply quat_normalize_small; [exact H1|].
  unfold qnorm, qnorm2. cbn. replace (0 * 0 + 0 * 0 + 0 * 0 + 0 * 0) with 0 by ring. rewrite sqrt_0. unfold eps. lra.
Qed.

(*@ C34_chiaverini_clipped *)
(** C34, violation: whenever some vector component exceeds sqrt(1/2) in magnitude (and w is not 0)
    the result is a unit quaternion of another rotation *)
Lemma l_chiaverini_clip :
  forall (v dcm : _) (s : nat -> R) (q : quat),
  vec_r v 4 s -> mat_r dcm 3 3 (rotmat q) -> unitq q -> Qw q <> 0 ->
  1 < 2 * (Qx q * Qx q) \/ 1 < 2 * (Qy q * Qy q) \/ 1 < 2 * (Qz q * Qz q) ->
  exists v' q', q_chiaverini dcm v = (v', Ok tt) /\ quat_r v' q' /\ unitq q' /\ q' <> q /\ q' <> qneg q.
Proof.
  intros v dcm s q Hv Hd U Hw Big.
  destruct (chiaverini_prefix dcm q Hd U v s Hv) as (v1 & H1 & ->).
  set (p := Quat _ _ _ _) in H1. set (N := qnorm p).
  assert (Ww : 0 < Qw q * Qw q) by nra.
  assert (Lw : Rabs (Qw q) * Rabs (Qw q) = Qw q * Qw q) by (rewrite <- Rabs_mult; apply Rabs_right; lra).
  assert (N2 : N * N = qnorm2 p) by apply qnorm_sqr.
  pose proof (cc_bound q (Qx q)) as Cx. pose proof (cc_bound q (Qy q)) as Cy. pose proof (cc_bound q (Qz q)) as Cz.
  pose proof U as U1. unfold unitq, qnorm2 in U1.
  assert (SQ : forall a, cc q a = rsgn (Qw q) * a -> cc q a * cc q a = a * a).
  { intros a ->. destruct (Rtotal_order (Qw q) 0) as [L|[L|L]]; [rewrite rsgn_neg by auto; ring|tauto|rewrite rsgn_pos by auto; ring]. }
  assert (SM : forall a, cc q a * cc q a <= a * a).
  { intros a. destruct (Rle_or_lt (2 * (a * a)) 1) as [L|L].
    - rewrite SQ by (apply cc_small; auto). lra.
    - pose proof (cc_bound q a). lra. }
  pose proof (SM (Qx q)) as Sx. pose proof (SM (Qy q)) as Sy. pose proof (SM (Qz q)) as Sz.
  assert (Nlt : qnorm2 p < 1).
  { unfold qnorm2, p. cbn. rewrite Lw. destruct Big as [B|[B|B]]; lra. }
  assert (Nge : Qw q * Qw q <= qnorm2 p). { unfold qnorm2, p. cbn. rewrite Lw. nra. }
  assert (P0 : 0 <= N) by apply sqrt_pos.
  assert (N1 : N < 1) by nra. assert (Npos : 0 < N) by nra.
  (* the norm is at least sqrt (1/2) *)
  assert (Nbig : eps < N).
  { assert (1 / 2 <= N * N).
    { rewrite N2. unfold qnorm2, p. cbn. rewrite Lw.
      assert (K : forall a, 1 < 2 * (a * a) -> cc q a * cc q a = 1 / 2).
      { intros a Ha. unfold cc. unfold rclip. rewrite (Rlt_bool_false (4 * (a * a) - 1)), Rlt_bool_true by lra.
        replace (1 + 1) with 2 by ring.
        replace (1 / 2 * rsgn (4 * (Qw q * a)) * sqrt 2 * (1 / 2 * rsgn (4 * (Qw q * a)) * sqrt 2))
          with (1 / 4 * (rsgn (4 * (Qw q * a)) * rsgn (4 * (Qw q * a))) * (sqrt 2 * sqrt 2)) by field.
        rewrite sqrt_sqrt by lra.
        assert (NZ : Qw q * a <> 0). { apply Rmult_integral_contrapositive_currified; auto. intros ->. lra. }
        destruct (Rtotal_order (Qw q * a) 0) as [L|[L|L]]; [rewrite rsgn_neg by lra; field|tauto|rewrite rsgn_pos by lra; field]. }
      assert (forall a, 0 <= cc q a * cc q a) by (intros; nra).
      pose proof (H (Qx q)). pose proof (H (Qy q)). pose proof (H (Qz q)).
      destruct Big as [B|[B|B]]; apply K in B; lra. }
    assert (eps < 1 / 2) by (unfold eps; lra). nra. }
  destruct (quat_normalize_r v1 p H1 Nbig) as (v' & E & H'). fold N in H'.
  exists v', (qscale (/ N) p). split; [exact E|]. split; [exact H'|]. conjs.
  - unfold unitq. transitivity (/ N * / N * qnorm2 p); [unfold qnorm2, qscale; cbn; ring|]. rewrite <- N2. field. lra.
  - intros Eq. apply (f_equal Qw) in Eq. cbn in Eq.
    assert (H : Rabs (Qw q) = N * (/ N * Rabs (Qw q))) by (field; lra). rewrite Eq in H.
    assert (Rabs (Qw q) * Rabs (Qw q) = N * N * (Qw q * Qw q)) by (rewrite H; ring). nra.
  - intros Eq. apply (f_equal Qw) in Eq. cbn in Eq.
    assert (H : Rabs (Qw q) = N * (/ N * Rabs (Qw q))) by (field; lra). rewrite Eq in H.
    assert (Rabs (Qw q) * Rabs (Qw q) = N * N * (Qw q * Qw q)) by (rewrite H; ring). nra.
Qed.

Lemma quat_set4_r v s w x y z : vec_r v 4 s ->
  exists v', set4 (A := RX) (Some w) (Some x) (Some y) (Some z) v = (v', Ok tt) /\ quat_r v' (Quat w x y z).
Proof.
  intros H. destruct (set4_ok v _ (Some w : T (Arith := RX)) (Some x : T (Arith := RX)) (Some y : T (Arith := RX)) (Some z : T (Arith := RX)) H) as (v' & E & H'); try apply valid_RX.
  exists v'. split; [exact E|]. eapply quat_ext; [exact H'|..]; reflexivity.
Qed.
Lemma allclose_RX x y d : allclose_l (A := RX) (Some x) (Some y) (Some d) = Ok (Rle_bool (Rabs (x - y)) d).
Proof. reflexivity. Qed.

(*@ C34_hughes *)
(** C34, violation: [hughes] applied to the matrix of q returns the conjugate (the opposite
    rotation), up to sign, outside the identity and half-turn neighbourhoods *)
Lemma l_hughes :
  forall (v dcm : _) (s : nat -> R) (q : quat),
  vec_r v 4 s -> mat_r dcm 3 3 (rotmat q) -> unitq q ->
  eps < Rabs (Qw q) -> eps < 4 * (1 - Qw q * Qw q) ->
  (0 < Qw q -> exists v', q_hughes dcm v = (v', Ok tt) /\ quat_r v' (qconj q)) /\
  (Qw q < 0 -> exists v', q_hughes dcm v = (v', Ok tt) /\ quat_r v' (qneg (qconj q))).
Proof.
  intros v dcm s q Hv Hd U Hw Hi.
  pose proof U as U1. unfold unitq, qnorm2 in U1.
  assert (B : forall t, 0 <= t * t) by (intros; nra).
  pose proof (B (Qw q)) as Bw. pose proof (B (Qx q)) as Bx. pose proof (B (Qy q)) as By. pose proof (B (Qz q)) as Bz.
  assert (E0 : 0 < eps) by (unfold eps; lra).
  assert (G : exists v', q_hughes dcm v = (v', Ok tt) /\
     quat_r v' (Quat (Rabs (Qw q)) (- (Qw q * Qx q) / Rabs (Qw q)) (- (Qw q * Qy q) / Rabs (Qw q)) (- (Qw q * Qz q) / Rabs (Qw q)))).
  { unfold q_hughes.
    rewrite guard_bind by (unfold reads; rewrite (q_guard_ok _ _ Hv); reflexivity).
    erewrite sbind_ok by (apply lift_ok; exact (trace_r dcm q Hd U)).
    rewrite fm1_RX, f3_RX, f1_RX, fhalf_RX, eps_RX, f0_RX. rewrite clip_RX, rclip_in by lra. cbv zeta.
    erewrite sbind_ok by (apply lift_ok; rewrite allclose_RX; reflexivity).
    rewrite Rle_bool_false by (rewrite Rabs_left; lra).
    cbn [fadd RX rx2]. rewrite fsqrt_RX by lra. cbn [fmul RX rx2].
    rewrite (sqrt_abs (1 + (4 * (Qw q * Qw q) - 1)) (2 * Qw q)) by ring.
    rewrite Rabs_mult, (Rabs_right 2) by lra.
    replace (1 / 2 * (2 * Rabs (Qw q))) with (Rabs (Qw q)) by field.
    erewrite sbind_ok by (apply lift_ok; rewrite allclose_RX; reflexivity).
    rewrite Rle_bool_false by (rewrite Rminus_0_r, Rabs_Rabsolu; auto).
    set (n := Rabs (Qw q)) in *.
    erewrite sbind_ok.
    2:{ do 6 (erewrite sbind_ok by (apply lift_ok; apply (get_r dcm q Hd); lia)). reflexivity. }
    cbv iota. rewrite (r01 dcm q Hd U), (r02 dcm q Hd U), (r10 dcm q Hd U), (r12 dcm q Hd U), (r20 dcm q Hd U), (r21 dcm q Hd U).
    assert (D : forall a b t, a - b = - (4 * t) -> fdiv (Arith := RX) (fmul (Arith := RX) (lit (Arith := RX) 1 4) (fsub (Arith := RX) (Some a) (Some b))) (Some n) = Some (- t / n)).
    { intros a b t Ht. cbn. rewrite Req_bool_false by lra. f_equal. rewrite Ht. field. lra. }
    change (rx2 Rmult) with (fmul (Arith := RX)).
    rewrite (D _ _ (Qw q * Qx q)), (D _ _ (Qw q * Qy q)), (D _ _ (Qw q * Qz q)) by ring.
    eapply quat_set4_r; eauto. }
  destruct G as (v' & E & H'). split; intros L; exists v'; (split; [exact E|]); (eapply quat_r_ext; [exact H'|]).
  - rewrite Rabs_right by lra. destruct q; unfold qconj; cbn in *; f_equal; field; lra.
  - rewrite Rabs_left by lra. destruct q; unfold qconj, qneg, qscale; cbn in *; f_equal; field; lra.
Qed.

(*@ C34_sarabandi *)
(** C34, violation: [sarabandi] always returns the absolute values of the components *)
Lemma l_sarabandi :
  forall (v dcm : _) (s : nat -> R) (q : quat) (eta : option R),
  vec_r v 4 s -> mat_r dcm 3 3 (rotmat q) -> unitq q -> match eta with Some e => e < 3 | None => True end ->
  exists v', q_sarabandi dcm (match eta with Some e => Some (Some e : T (Arith := RX)) | None => None end) v = (v', Ok tt) /\
    quat_r v' (Quat (Rabs (Qw q)) (Rabs (Qx q)) (Rabs (Qy q)) (Rabs (Qz q))).
Proof.
  intros v dcm s q eta Hv Hd U He.
  pose proof U as U1. unfold unitq, qnorm2 in U1.
  assert (B : forall t, 0 <= t * t) by (intros; nra).
  pose proof (B (Qw q)) as Bw. pose proof (B (Qx q)) as Bx. pose proof (B (Qy q)) as By. pose proof (B (Qz q)) as Bz.
  unfold q_sarabandi.
  rewrite guard_bind by (unfold reads; rewrite (q_guard_ok _ _ Hv); reflexivity). cbv zeta.
  set (e := match eta with Some e => e | None => 0 end).
  assert (He' : e < 3) by (unfold e; destruct eta; lra).
  replace (match (match eta with Some e => Some (Some e : T (Arith := RX)) | None => None end) with Some e => e | None => f0 end)
    with (Some e : T (Arith := RX)) by (unfold e; destruct eta; [reflexivity|rewrite f0_RX; reflexivity]).
  do 9 (erewrite sbind_ok by (apply lift_ok; apply (get_r dcm q Hd); lia)).
  rewrite (r00 dcm q Hd U), (r01 dcm q Hd U), (r02 dcm q Hd U), (r10 dcm q Hd U), (r11 dcm q Hd U), (r12 dcm q Hd U), (r20 dcm q Hd U), (r21 dcm q Hd U), (r22 dcm q Hd U).
  assert (C : forall d n1 n2 n3 t, d = 4 * (t * t) - 1 -> t * t <= 1 -> n1 * n1 + n2 * n2 + n3 * n3 = 16 * (t * t) * (1 - t * t) ->
     sarabandi_component (A := RX) (Some d) (Some e) (Some n1) (Some n2) (Some n3) = Some (Rabs t)).
  { intros d n1 n2 n3 t Ed Ht En. unfold sarabandi_component. rewrite fhalf_RX, f1_RX, f3_RX.
    assert (B0 : 0 <= t * t) by nra. cbn [fltb RX rxcmp]. destruct (Rlt_bool_spec e d) as [L|L].
    - cbn [fadd RX rx2]. rewrite fsqrt_RX by lra. rewrite (sqrt_abs (1 + d) (2 * t)) by (rewrite Ed; ring).
      cbn. rewrite Rabs_mult, (Rabs_right 2) by lra. f_equal. field.
    - cbn [fadd fmul fsub RX rx2]. assert (D0 : 3 - d <> 0) by lra.
      cbn [fdiv RX rx_div]. rewrite Req_bool_false by auto.
      assert (EE : (n1 * n1 + n2 * n2 + n3 * n3) / (3 - d) = (2 * t) * (2 * t)).
      { rewrite En, Ed. field. lra. }
      rewrite EE, fsqrt_RX by nra. rewrite (sqrt_abs _ (2 * t)) by reflexivity.
      rewrite Rabs_mult, (Rabs_right 2) by lra. f_equal. field. }
  cbn [fadd fsub fneg RX rx1 rx2].
  rewrite (C _ _ _ _ (Qw q)), (C _ _ _ _ (Qx q)), (C _ _ _ _ (Qy q)), (C _ _ _ _ (Qz q)).
  { eapply quat_set4_r; eauto. }
  all: try lra.
  all: match goal with |- _ = 16 * _ * (1 - ?a * ?a) => replace 1 with (Qw q * Qw q + Qx q * Qx q + Qy q * Qy q + Qz q * Qz q) at 1 end; ring.
Qed.

(*@ C34_sarabandi_refuted *)
(** C34: so the round trip through [sarabandi] and [hughes] is wrong, e.g. for (1/2, 1/2, -1/2, 1/2) *)
Lemma l_sarabandi_w :
  exists (qv v v1 v2 : Vec (T (Arith := RX))) (dcm : Mat (T (Arith := RX))) (q q1 q2 : quat),
  quat_r qv q /\ unitq q /\ q_convert_to_dcm qv = Ok dcm /\
  q_sarabandi dcm None v = (v1, Ok tt) /\ quat_r v1 q1 /\
  q_hughes dcm v = (v2, Ok tt) /\ quat_r v2 q2 /\
  rotmat q1 0%nat 1%nat <> rotmat q 0%nat 1%nat /\ rotmat q2 0%nat 1%nat <> rotmat q 0%nat 1%nat.
Proof.
  set (q := Quat (1/2) (1/2) (-1/2) (1/2)).
  assert (U : unitq q) by (unfold unitq, qnorm2, q; cbn; lra).
  pose proof (rquat_is (1/2) (1/2) (-1/2) (1/2)) as Hq. fold q in Hq. set (qv := rvec _) in Hq.
  destruct (q_dcm_r qv q Hq U) as (dcm & Ed & Hd).
  destruct (l_sarabandi qv dcm _ q None Hq Hd U I) as (v1 & E1 & H1).
  assert (H1' : quat_r v1 (Quat (1/2) (1/2) (1/2) (1/2))).
  { eapply quat_r_ext; [exact H1|]. unfold q. cbn. rewrite (Rabs_left (-1/2)), !(Rabs_right (1/2)) by lra. f_equal; lra. }
  destruct (l_hughes qv dcm _ q Hq Hd U) as [K _].
  { unfold q. cbn. rewrite Rabs_right by lra. unfold eps. lra. } { unfold q. cbn. unfold eps. lra. }
  destruct (K ltac:(unfold q; cbn; lra)) as (v2 & E2 & H2).
  exists qv, qv, v1, v2, dcm, q, (Quat (1/2) (1/2) (1/2) (1/2)), (qconj q).
  conjs; auto; unfold q; cbn; lra.
Qed.

(*@ example *)
Example C34_example :
  let q := Quat (4/5) 0 (3/5) 0 in let h := Quat 0 (3/5) (4/5) 0 in let c := Quat (3/5) 0 (4/5) 0 in
  quat_r (rvec [4/5; 0; 3/5; 0]) q /\ unitq q /\ 0 < Qw q /\ 2 * (Qy q * Qy q) <= 1 /\
  eps < Rabs (Qw q) /\ eps < 4 * (1 - Qw q * Qw q) /\ unitq h /\ Qw h = 0 /\
  unitq c /\ Qw c <> 0 /\ 1 < 2 * (Qy c * Qy c).
Proof.
  cbv zeta. split; [apply rquat_is|]. unfold unitq, qnorm2, eps; cbn. rewrite Rabs_right by lra. repeat split; lra.
Qed.
