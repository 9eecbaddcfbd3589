(** C36: quaternion exponential. *)
(*@+*)
From Coq Require Import List Arith ZArith Reals Lia Bool Lra.
From Flocq Require Import Core BinarySingleNaN.
From Verif Require Import M_Base M_Arith M_Utils M_Vector M_Matrix M_Quaternion M_F32 M_RX
  S_Spec S_Linalg S_Norm S_Quat P_Inst P_InstQ.
Import ListNotations.
Local Open Scope R_scope.
(*@-*)
From Coq Require Import Psatz.
From Verif Require Import P_Hoare P_Cont P_Loops P_Access P_Pointwise P_Trans P_Float P_Product S_Compare
  P_Compare P_Dot P_Norm P_FErr P_Norm32 P_Quat P_Rot P_Dcm P_QPred.

Definition dirx (q : quat) : quat :=
  Quat (cos (vnorm q)) (sin (vnorm q) * (Qx q / vnorm q)) (sin (vnorm q) * (Qy q / vnorm q)) (sin (vnorm q) * (Qz q / vnorm q)).

Lemma vnorm_rnorm q : rnorm 3 (triple (Qx q) (Qy q) (Qz q)) = vnorm q.
Proof. unfold rnorm, rdot, vnorm. cbn. f_equal. ring. Qed.
Lemma decide_RX x y d : within (A := RX) (Some d) (Some x) (Some y) <-> Rabs (x - y) <= d.
Proof.
  unfold within. cbn. split; [|apply Rle_bool_true].
  destruct (Rle_bool_spec (Rabs (x - y)) d); [auto|discriminate].
Qed.
Lemma is_real_r v q : quat_r v q ->
  q_is_real v = Ok (Rle_bool (Rabs (Qx q)) eps && (Rle_bool (Rabs (Qy q)) eps && Rle_bool (Rabs (Qz q)) eps)) /\
  q_is_pure v = Ok (Rle_bool (Rabs (Qw q)) eps).
Proof.
  intros Hv. destruct (l_is_real RX _ v _ Hv) as ((b & E & Hb) & (c & E' & Hc) & _).
  rewrite f0_RX, eps_RX in *. cbn [qf quad] in *. rewrite !decide_RX, !Rminus_0_r in Hb. rewrite !decide_RX, !Rminus_0_r in Hc.
  rewrite E, E'. split; f_equal.
  - destruct (Rle_bool_spec (Rabs (Qx q)) eps), (Rle_bool_spec (Rabs (Qy q)) eps), (Rle_bool_spec (Rabs (Qz q)) eps);
      cbn [andb]; (apply Hb; tauto) || (destruct b; auto; exfalso; destruct Hb as [Hb _]; specialize (Hb eq_refl); lra).
  - destruct (Rle_bool_spec (Rabs (Qw q)) eps); [apply Hc; auto|].
    destruct c; auto. exfalso. destruct Hc as [Hc _]; specialize (Hc eq_refl); lra.
Qed.
Lemma vnorm_comp q : Rabs (Qx q) <= vnorm q /\ Rabs (Qy q) <= vnorm q /\ Rabs (Qz q) <= vnorm q.
Proof.
  unfold vnorm.
  pose proof (Rle_0_sqr (Qx q)). pose proof (Rle_0_sqr (Qy q)). pose proof (Rle_0_sqr (Qz q)). unfold Rsqr in *.
  conjs; (rewrite <- sqrt_Rsqr_abs; apply sqrt_le_1_alt; unfold Rsqr; lra).
Qed.
Lemma not_real q : ~ realq q -> eps < vnorm q /\
  Rle_bool (Rabs (Qx q)) eps && (Rle_bool (Rabs (Qy q)) eps && Rle_bool (Rabs (Qz q)) eps) = false.
Proof.
  intros H. unfold realq in H. destruct (vnorm_comp q) as (Vx & Vy & Vz).
  destruct (Rle_bool_spec (Rabs (Qx q)) eps), (Rle_bool_spec (Rabs (Qy q)) eps), (Rle_bool_spec (Rabs (Qz q)) eps);
    try tauto; split; auto; lra.
Qed.
(** the middle part: direction times sine *)
Lemma exp_dir v q : quat_r v q -> eps < vnorm q ->
  exists qv qv1 qv2, q_get_vector_part v = Ok qv /\ v_calculate_norm qv = Ok (Some (vnorm q)) /\
    exec v_normalize qv = Ok qv1 /\
    exec (v_mul_by_scalar_in_place (A := RX) (Some (sin (vnorm q)))) qv1 = Ok qv2 /\
    v_get qv2 0 = Ok (Some (Qx (dirx q))) /\ v_get qv2 1 = Ok (Some (Qy (dirx q))) /\ v_get qv2 2 = Ok (Some (Qz (dirx q))).
Proof.
  intros Hv Hn. destruct (q_get_vector_part_ok v _ Hv) as (qv & E & H). cbn [qf quad] in H.
  assert (H3 : vec_r qv 3 (triple (Qx q) (Qy q) (Qz q))). { eapply vec_is_ext; [exact H|]. apply below3; reflexivity. }
  destruct (l_normalize qv 3 _ H3) as (qv1 & y & E1 & H1 & _ & K); [rewrite vnorm_rnorm; auto|]. rewrite vnorm_rnorm in K.
  destruct (v_scale_r qv1 3 _ (sin (vnorm q)) H1) as (qv2 & E2 & H2).
  assert (P : 0 < vnorm q) by (unfold eps in Hn; lra).
  exists qv, qv1, qv2. split; [exact E|]. split.
  { rewrite (v_norm_r _ _ _ H3), vnorm_rnorm, Rle_bool_false by auto. reflexivity. }
  unfold exec. rewrite E1, E2. split; auto. split; auto. rewrite !(vi_get _ _ _ H2) by lia.
  pose proof (K 0%nat ltac:(lia)) as K0. pose proof (K 1%nat ltac:(lia)) as K1. pose proof (K 2%nat ltac:(lia)) as K2.
  cbn in K0, K1, K2 |- *. rewrite K0, K1, K2. conjs; do 2 f_equal; field; lra.
Qed.
Lemma E_RX : E_ (A := RX) = Some euler_e.
Proof. reflexivity. Qed.
Lemma pow_RX w : fpow (Arith := RX) (Some euler_e) (Some w) = Some (Rpower euler_e w).
Proof.
  cbn. assert (P : 0 < euler_e) by (unfold euler_e; lra).
  destruct (Req_bool_spec w (IZR (Zfloor w))) as [E|E]; cbn [andb].
  - destruct (Rle_bool_spec 0 w) as [L|L].
    + f_equal. rewrite <- Rpower_pow by auto. f_equal.
      rewrite INR_IZR_INZ, Z2Nat.id; [auto|]. apply le_IZR. rewrite <- E. exact L.
    + rewrite Rlt_bool_true by auto. reflexivity.
  - rewrite Rlt_bool_true by auto. reflexivity.
Qed.
Lemma exp_prefix v q : quat_r v q -> ~ realq q ->
  exists v1, quat_r v1 (dirx q) /\
  q_exp v = (if Rle_bool (Rabs (cos (vnorm q))) eps then (v1, Ok tt)
             else v_mul_by_scalar_in_place (A := RX) (Some (Rpower euler_e (Qw q))) v1) /\
  q_exp_new v = (if Rle_bool (Rabs (Qw q)) eps then Ok v1
             else exec (v_mul_by_scalar_in_place (A := RX) (Some (Rpower euler_e (Qw q)))) v1).
Proof.
  intros Hv Hr. destruct (not_real q Hr) as [Hn HR]. destruct (is_real_r v q Hv) as [IR IP]. rewrite HR in IR.
  destruct (exp_dir v q Hv Hn) as (qv & qv1 & qv2 & E1 & E2 & E3 & E4 & E5 & E6 & E7).
  destruct (q_fillq_r v _ (Qw (dirx q)) (Qx (dirx q)) (Qy (dirx q)) (Qz (dirx q)) Hv) as (v1 & Ef & Hf).
  exists v1. split; [exact Hf|]. split.
  - unfold q_exp. erewrite sbind_ok by (unfold reads; rewrite IR; reflexivity). cbv iota.
    erewrite sbind_ok by (unfold reads; rewrite (vi_get _ _ _ Hv) by lia; reflexivity).
    erewrite sbind_ok by (unfold reads; rewrite E1; reflexivity).
    erewrite sbind_ok by (apply lift_ok; exact E2). erewrite sbind_ok by (apply lift_ok; exact E3).
    erewrite sbind_ok by (apply lift_ok; exact E4). erewrite sbind_ok by (apply lift_ok; exact E5).
    erewrite sbind_ok by (apply lift_ok; exact E6). erewrite sbind_ok by (apply lift_ok; exact E7).
    erewrite sbind_ok by exact Ef.
    destruct (is_real_r v1 _ Hf) as [_ IP1]. erewrite sbind_ok by (unfold reads; rewrite IP1; reflexivity).
    cbn [Qw dirx]. rewrite E_RX. cbn [qf quad]. rewrite pow_RX. destruct (Rle_bool (Rabs (cos (vnorm q))) eps); reflexivity.
  - unfold q_exp_new. destruct (v_duplicate_ok v _ _ Hv) as (d & Ed & Hd). rewrite Ed. cbn [rbind]. rewrite IR. cbn [rbind].
    rewrite (vi_get _ _ _ Hv) by lia. cbn [rbind]. rewrite E1. cbn [rbind]. rewrite E2. cbn [rbind]. rewrite E3. cbn [rbind].
    cbn [fsin RX rx1]. rewrite E4. cbn [rbind]. rewrite E5. cbn [rbind]. rewrite E6. cbn [rbind]. rewrite E7. cbn [rbind].
    replace d with v by (eapply quat_eq; eauto).
    change (fcos (Arith := RX) (Some (vnorm q))) with (Some (Qw (dirx q))).
    unfold exec at 1. rewrite Ef. cbn [rbind]. rewrite IP. cbn [rbind].
    rewrite E_RX. cbn [qf quad]. rewrite pow_RX. reflexivity.
Qed.
Lemma dirx_unit q : 0 < vnorm q -> unitq (dirx q).
Proof.
  intros P. unfold unitq, qnorm2, dirx. cbn.
  assert (E : Qx q * Qx q + Qy q * Qy q + Qz q * Qz q = vnorm q * vnorm q).
  { unfold vnorm. rewrite sqrt_sqrt; [reflexivity|]. nra. }
  set (n := vnorm q) in *. pose proof (sin2_cos2 n) as S. unfold Rsqr in S.
  transitivity (cos n * cos n + sin n * sin n * ((Qx q * Qx q + Qy q * Qy q + Qz q * Qz q) / (n * n))); [field; lra|].
  rewrite E. replace (n * n / (n * n)) with 1 by (field; lra). lra.
Qed.

(*@ C36_pure *)
(** C36: for a pure quaternion (w = 0) that is not numerically zero, [exp] and [exp_new] give
    (cos|v|, sin|v| v/|v|), a unit quaternion *)
Lemma l_exp_pure :
  forall (v : Vec (T (Arith := RX))) (q : quat), quat_r v q -> ~ realq q -> Qw q = 0 ->
  exists v1 v2, q_exp v = (v1, Ok tt) /\ q_exp_new v = Ok v2 /\
    quat_r v1 (qexp q) /\ quat_r v2 (qexp q) /\ unitq (qexp q).
Proof.
  intros v q Hv Hr Hw. destruct (not_real q Hr) as [Hn _].
  assert (P : 0 < vnorm q) by (unfold eps in Hn; lra).
  assert (EQ : qexp q = dirx q).
  { unfold qexp. rewrite Hw, exp_0. unfold qscale, dirx. cbn. f_equal; ring. }
  assert (PW : Rpower euler_e (Qw q) = 1). { rewrite Hw. apply Rpower_O. unfold euler_e. lra. }
  destruct (exp_prefix v q Hv Hr) as (v1 & H1 & E1 & E2). rewrite PW in E1, E2.
  destruct (quat_scale_r v1 _ 1 H1) as (v2 & Es & Hs). rewrite EQ.
  assert (Hs' : quat_r v2 (dirx q)). { eapply quat_r_ext; [exact Hs|]. unfold qscale, dirx. cbn. f_equal; ring. }
  rewrite Es in E1. unfold exec in E2. rewrite Es in E2.
  pose proof (dirx_unit q P) as UD.
  destruct (Rle_bool (Rabs (cos (vnorm q))) eps), (Rle_bool (Rabs (Qw q)) eps); eauto 10.
Qed.

(*@ C36_general *)
(** C36: for every quaternion with a vector part beyond EPSILON, [exp_new] is E^w (cos|v|, sin|v| v/|v|)
    where E is the library's constant and the factor is omitted when |w| <= EPSILON *)
Lemma l_exp_new :
  forall (v : Vec (T (Arith := RX))) (q : quat), quat_r v q -> ~ realq q ->
  exists v', q_exp_new v = Ok v' /\
    (eps < Rabs (Qw q) -> quat_r v' (qscale (Rpower euler_e (Qw q)) (qexp (Quat 0 (Qx q) (Qy q) (Qz q))))) /\
    (Rabs (Qw q) <= eps -> quat_r v' (qexp (Quat 0 (Qx q) (Qy q) (Qz q)))).
Proof.
  intros v q Hv Hr.
  assert (EQ : qexp (Quat 0 (Qx q) (Qy q) (Qz q)) = dirx q).
  { unfold qexp. cbn [Qw Qx Qy Qz]. rewrite exp_0. unfold qscale, dirx, vnorm. cbn. f_equal; ring. }
  rewrite EQ. destruct (exp_prefix v q Hv Hr) as (v1 & H1 & _ & E2). rewrite E2.
  destruct (quat_scale_r v1 _ (Rpower euler_e (Qw q)) H1) as (v2 & Es & Hs). unfold exec. rewrite Es.
  destruct (Rle_bool_spec (Rabs (Qw q)) eps); eexists; (split; [reflexivity|]); split; auto; lra.
Qed.

(*@ C36_in_place *)
(** C36: the in-place [exp] scales by E^w depending on the freshly computed cosine instead of w *)
Lemma l_exp :
  forall (v : Vec (T (Arith := RX))) (q : quat), quat_r v q -> ~ realq q ->
  exists v', q_exp v = (v', Ok tt) /\
    (eps < Rabs (cos (vnorm q)) -> quat_r v' (qscale (Rpower euler_e (Qw q)) (qexp (Quat 0 (Qx q) (Qy q) (Qz q))))) /\
    (Rabs (cos (vnorm q)) <= eps -> quat_r v' (qexp (Quat 0 (Qx q) (Qy q) (Qz q)))).
Proof.
  intros v q Hv Hr.
  assert (EQ : qexp (Quat 0 (Qx q) (Qy q) (Qz q)) = dirx q).
  { unfold qexp. cbn [Qw Qx Qy Qz]. rewrite exp_0. unfold qscale, dirx, vnorm. cbn. f_equal; ring. }
  rewrite EQ. destruct (exp_prefix v q Hv Hr) as (v1 & H1 & E2 & _). rewrite E2.
  destruct (quat_scale_r v1 _ (Rpower euler_e (Qw q)) H1) as (v2 & Es & Hs). rewrite Es.
  destruct (Rle_bool_spec (Rabs (cos (vnorm q))) eps); eexists; (split; [reflexivity|]); split; auto; lra.
Qed.

(*@ C36_real *)
(** C36, violation: on every real quaternion both report the identity, whatever w *)
Lemma l_exp_real :
  forall (v : Vec (T (Arith := RX))) (q : quat), quat_r v q -> realq q ->
  exists v1 v2, q_exp v = (v1, Ok tt) /\ q_exp_new v = Ok v2 /\ quat_r v1 qone /\ quat_r v2 qone.
Proof.
  intros v q Hv (Rx_ & Ry_ & Rz_). destruct (is_real_r v q Hv) as [IR _]. rewrite !Rle_bool_true in IR by auto. cbn in IR.
  destruct (q_fillq_r v _ 1 0 0 0 Hv) as (v1 & E1 & H1).
  destruct (v_duplicate_ok v _ _ Hv) as (d & Ed & Hd).
  exists v1, v1. conjs; auto.
  - unfold q_exp. erewrite sbind_ok by (unfold reads; rewrite IR; reflexivity). cbv iota. rewrite f1_RX, f0_RX. exact E1.
  - unfold q_exp_new. rewrite Ed. cbn [rbind]. rewrite IR. cbn [rbind]. replace d with v by (eapply quat_eq; eauto).
    rewrite f1_RX, f0_RX. unfold exec. rewrite E1. reflexivity.
Qed.

(*@ C36_refuted *)
(** C36: e.g. exp of the real quaternion 1 is 1, not e; and [exp] and [exp_new] differ by the factor E on
    (1, PI/2, 0, 0) *)
Lemma l_exp_w :
  exists (v v1 u u1 u2 : Vec (T (Arith := RX))) (q p : quat),
  quat_r v q /\ q_exp v = (v1, Ok tt) /\ quat_r v1 (Quat 1 0 0 0) /\ Qw (qexp q) = exp 1 /\ 2 < exp 1 /\
  quat_r u p /\ q_exp u = (u1, Ok tt) /\ q_exp_new u = Ok u2 /\
  quat_r u1 (Quat 0 1 0 0) /\ quat_r u2 (Quat 0 euler_e 0 0).
Proof.
  set (q := Quat 1 0 0 0). set (p := Quat 1 (PI / 2) 0 0).
  pose proof (rquat_is 1 0 0 0) as Hq. pose proof (rquat_is 1 (PI / 2) 0 0) as Hp.
  fold q in Hq. fold p in Hp. set (v := rvec _) in Hq. set (u := rvec _) in Hp.
  assert (E0 : 0 < eps < 1) by (unfold eps; lra).
  destruct (l_exp_real v q Hq) as (v1 & _ & E1 & _ & H1 & _).
  { unfold realq, q. cbn. rewrite Rabs_R0. lra. }
  pose proof PI_RGT_0 as P. pose proof PI2_1 as P1.
  assert (VN : vnorm p = PI / 2).
  { unfold vnorm, p. cbn. replace (PI / 2 * (PI / 2) + 0 * 0 + 0 * 0) with (PI / 2 * (PI / 2)) by ring. apply sqrt_square. lra. }
  assert (NR : ~ realq p). { unfold realq, p. cbn. rewrite Rabs_right by lra. lra. }
  destruct (l_exp u p Hp NR) as (u1 & F1 & _ & K1). rewrite VN, cos_PI2, Rabs_R0 in K1. specialize (K1 ltac:(lra)).
  destruct (l_exp_new u p Hp NR) as (u2 & F2 & K2 & _). unfold p in K2 at 1. cbn [Qw] in K2. rewrite Rabs_R1 in K2. specialize (K2 ltac:(lra)).
  assert (EX : qexp (Quat 0 (Qx p) (Qy p) (Qz p)) = Quat 0 1 0 0).
  { unfold qexp. cbn [Qw Qx Qy Qz]. change (vnorm (Quat 0 (Qx p) (Qy p) (Qz p))) with (vnorm p). rewrite VN, exp_0, cos_PI2, sin_PI2.
    unfold qscale, p. cbn. f_equal; try field; lra. }
  rewrite EX in K1, K2.
  assert (M : 2 < exp 1). { pose proof (exp_ineq1 1 ltac:(lra)). lra. }
  exists v, v1, u, u1, u2, q, p. conjs; auto.
  - unfold qexp, q. cbn [Qw Qx Qy Qz qscale]. unfold vnorm. cbn.
    replace (0 * 0 + 0 * 0 + 0 * 0) with 0 by ring. rewrite sqrt_0, cos_0. ring.
  - eapply quat_r_ext; [exact K2|]. unfold qscale, p. cbn. rewrite Rpower_1 by (unfold euler_e; lra). f_equal; ring.
Qed.

(*@ example *)
Example C36_example :
  quat_r (rvec [0; 3; 0; 4]) (Quat 0 3 0 4) /\ ~ realq (Quat 0 3 0 4) /\ vnorm (Quat 0 3 0 4) = 5 /\ realq (Quat 2 0 0 0).
Proof.
  split; [apply rquat_is|]. unfold realq, vnorm. cbn. rewrite Rabs_R0, (Rabs_right 3) by lra.
  replace (3 * 3 + 0 * 0 + 4 * 4) with (5 * 5) by ring. rewrite sqrt_square by lra. unfold eps. repeat split; lra.
Qed.
