(** C32, C33: quaternion inverse and rotation matrices. *)
(*@+*)
From Coq Require Import List Arith ZArith Reals Lia Bool Lra.
From Flocq Require Import Core BinarySingleNaN.
From Verif Require Import M_Base M_Arith M_Utils M_Vector M_Matrix M_Quaternion M_F32 M_RX
  S_Spec S_Linalg S_Norm S_Quat P_Inst P_InstQ.
Import ListNotations.
Local Open Scope R_scope.
(*@-*)
From Verif Require Import P_Hoare P_Cont P_Loops P_Access P_Pointwise P_Trans P_Float P_Product
  P_Compare P_Dot P_Norm P_FErr P_Norm32 P_Quat.

Lemma v_norm_r v n x : vec_r v n x -> v_calculate_norm v = Ok (Some (if Rle_bool (rnorm n x) eps then 0 else rnorm n x)).
Proof. intros Hv. rewrite (v_norm_is _ _ _ Hv), norm_RX, flush_RX. reflexivity. Qed.
Lemma v_scale_r v n x t : vec_r v n x ->
  exists v', v_mul_by_scalar_in_place (A := RX) (Some t) v = (v', Ok tt) /\ vec_r v' n (fun i => x i * t).
Proof.
  intros Hv. eapply pointwise_v_ok; [|exact (v_mul_by_scalar_in_place_pw v n _ Hv (Some t : T (Arith := RX)))].
  intros. apply valid_RX.
Qed.
Lemma quat_scale_r v q t : quat_r v q ->
  exists v', v_mul_by_scalar_in_place (A := RX) (Some t) v = (v', Ok tt) /\ quat_r v' (qscale t q).
Proof.
  intros Hv. destruct (v_scale_r v 4 _ t Hv) as (v' & E & H). exists v'. split; [exact E|].
  eapply quat_ext; [exact H|..]; cbn; f_equal; ring.
Qed.

(*@ C32_inverse *)
(** C32: for norm > EPSILON [invert] gives the two-sided inverse *)
Lemma l_invert :
  forall (v : Vec (T (Arith := RX))) (q : quat), quat_r v q -> eps < qnorm q ->
  exists v' q', q_invert v = (v', Ok tt) /\ quat_r v' q' /\ qmul q q' = qone /\ qmul q' q = qone.
Proof.
  intros v q Hv Hn. unfold q_invert.
  erewrite sbind_ok by (unfold reads; rewrite (v_norm_r _ _ _ Hv), rnorm_qnorm, Rle_bool_false by auto; reflexivity).
  destruct (q_conjugate_r v q Hv) as (v1 & E1 & H1). erewrite sbind_ok by exact E1.
  change (fltb (Arith := RX) EPSILON (Some (qnorm q))) with (Rlt_bool eps (qnorm q)).
  rewrite Rlt_bool_true by auto. rewrite f1_RX.
  assert (P : 0 < qnorm q) by (unfold eps in *; lra).
  replace (fdiv (Arith := RX) (Some 1) (fmul (Arith := RX) (Some (qnorm q)) (Some (qnorm q)))) with (Some (1 / qnorm2 q)).
  2:{ cbn. rewrite Req_bool_false by nra. rewrite qnorm_sqr. reflexivity. }
  destruct (quat_scale_r v1 _ (1 / qnorm2 q) H1) as (v2 & E2 & H2).
  assert (N0 : qnorm2 q <> 0) by (rewrite <- qnorm_sqr; nra).
  exists v2. eexists. split; [exact E2|]. split; [exact H2|].
  unfold qmul, qscale, qconj, qone, qnorm2 in *. cbn. split; f_equal; field; exact N0.
Qed.

(*@ C32_small *)
(** C32: for norm <= EPSILON it stores the zero quaternion and reports success *)
Lemma l_invert_small :
  forall (v : Vec (T (Arith := RX))) (q : quat), quat_r v q -> qnorm q <= eps ->
  exists v', q_invert v = (v', Ok tt) /\ quat_r v' qzero.
Proof.
  intros v q Hv Hn. unfold q_invert.
  erewrite sbind_ok by (unfold reads; rewrite (v_norm_r _ _ _ Hv), rnorm_qnorm, Rle_bool_true by auto; reflexivity).
  destruct (q_conjugate_r v q Hv) as (v1 & E1 & H1). erewrite sbind_ok by exact E1.
  change (fltb (Arith := RX) EPSILON (Some 0)) with (Rlt_bool eps 0).
  rewrite Rlt_bool_false by (unfold eps; lra). rewrite f0_RX. eapply q_fillq_r; eauto.
Qed.

(*@ C32_size *)
(** C32: size other than 4 *)
Lemma l_invert_size :
  forall (A : Arith) (v : Vec T) (n : nat) (f : nat -> T), vec_is v n f -> n <> 4%nat ->
  q_invert v = (v, Err InvalidSize).
Proof.
  intros A v n f Hv Hn. unfold q_invert.
  erewrite sbind_ok by (unfold reads; rewrite (v_norm_is _ _ _ Hv); reflexivity).
  unfold sbind, q_conjugate, sbind, reads. rewrite (q_guard_not _ _ _ Hv Hn). reflexivity.
Qed.

(*@ example *)
Example C32_example :
  quat_r (rvec [1; 2; 2; 4]) (Quat 1 2 2 4) /\ qnorm (Quat 1 2 2 4) = 5 /\ eps < 5 /\
  quat_r (rvec [0; 0; / 20000; 0]) (Quat 0 0 (/ 20000) 0) /\ qnorm (Quat 0 0 (/ 20000) 0) <= eps.
Proof.
  split; [apply rquat_is|]. unfold qnorm, qnorm2. cbn. split.
  { replace (1 * 1 + 2 * 2 + 2 * 2 + 4 * 4) with (5 * 5) by ring. apply sqrt_square. lra. }
  split; [unfold eps; lra|]. split; [apply rquat_is|].
  replace (0 * 0 + 0 * 0 + / 20000 * / 20000 + 0 * 0) with (/ 20000 * / 20000) by ring.
  rewrite sqrt_square by lra. unfold eps. lra.
Qed.

(** ** rotation matrices *)
Section D.
  Context {A : Arith} {OK : ArithOk A}.
  Local Open Scope nat_scope.
  Definition grid (l : list T) (i j : nat) : T := nth (3 * i + j) l f0.
  Lemma dcm_ok v f : vec_is v 4 f ->
    let w := f 0 in let x := f 1 in let y := f 2 in let z := f 3 in
    let l := [ (w*w + x*x - y*y - z*z)%F; (f2*(x*y - w*z))%F; (f2*(x*z + w*y))%F;
               (f2*(x*y + w*z))%F; (f1 - f2*(x*x + z*z))%F; (f2*(y*z - w*x))%F;
               (f2*(x*z - w*y))%F; (f2*(w*x + y*z))%F; (f1 - f2*(x*x + y*y))%F ] in
    Forall valid l -> exists m, q_convert_to_dcm v = Ok m /\ mat_is m 3 3 (grid l).
  Proof.
    intros Hv w x y z l HV. unfold q_convert_to_dcm.
    destruct (m_init_new 3 3 ltac:(lia) ltac:(lia)) as (m0 & E0 & H0).
    unfold exec at 1. rewrite E0. cbn [rbind].
    unfold q_get_qw, q_get_qx, q_get_qy, q_get_qz. rewrite !(q_get_is _ _ _ Hv) by lia. cbn [rbind].
    fold w x y z. unfold l in HV.
    repeat match goal with H : Forall _ (_ :: _) |- _ => apply Forall_cons_iff in H; destruct H end.
    assert (S : forall m f i j x (c : ST (Mat T) LinalgError unit) (P : res LinalgError (Mat T) -> Prop),
      mat_is m 3 3 f -> i < 3 -> j < 3 -> valid x ->
      (forall m', mat_is m' 3 3 (fupd2 f i j x) -> P (exec c m')) -> P (exec (m_set i j x ;;! c) m)).
    { intros m f' i j x' c P Hm Hi Hj Hx Hc. destruct (m_set_in m 3 3 f' i j x' Hm Hi Hj Hx) as (m' & E & H').
      rewrite (exec_step _ _ _ _ E). auto. }
    do 8 (eapply S; [eassumption|lia|lia|assumption|]; clear H0; intros ? H0).
    match goal with |- exists m, exec (m_set ?i ?j ?x) ?m0 = _ /\ _ =>
      destruct (m_set_in m0 3 3 _ i j x H0 ltac:(lia) ltac:(lia) ltac:(assumption)) as (m9 & EE & HH) end.
    unfold exec. rewrite EE. eexists. split; [reflexivity|].
    eapply mat_is_ext; [exact HH|]. intros i j Hi Hj.
    destruct i as [|[|[|i]]]; [| | |lia]; (destruct j as [|[|[|j]]]; [| | |lia]); reflexivity.
  Qed.
  Lemma v_convert_ok v n f : vec_is v n f ->
    exists m, v_convert_to_matrix v = Ok m /\ mat_is m n 1 (fun i _ => f i).
  Proof.
    intros Hv. unfold v_convert_to_matrix. rewrite (v_get_rows_is _ _ _ Hv). cbn [rbind].
    destruct (m_init_new n 1 (vec_is_dim _ _ _ Hv) ltac:(lia)) as (m & E & Hm).
    rewrite (exec_step _ _ _ _ E).
    pose proof (m_set_col_wp m n 1 _ v f 0 Hm Hv ltac:(lia)) as W. unfold wp, exec in *.
    destruct (m_set_col v 0 m) as [m' [[]| |]]; try tauto.
    eexists. split; [reflexivity|]. eapply mat_is_ext; [exact W|]. intros i j Hi Hj. assert (j = 0) as -> by lia. reflexivity.
  Qed.
End D.
Lemma rotmat_list q i j : (i < 3)%nat -> (j < 3)%nat -> unitq q -> let '(Quat w x y z) := q in
  rotmat q i j = nth (3 * i + j)
    [ w*w + x*x - y*y - z*z; 2*(x*y - w*z); 2*(x*z + w*y);
      2*(x*y + w*z); 1 - 2*(x*x + z*z); 2*(y*z - w*x);
      2*(x*z - w*y); 2*(w*x + y*z); 1 - 2*(x*x + y*y) ] 0.
Proof.
  intros Hi Hj H. destruct q as [w x y z]. unfold unitq, qnorm2 in H. cbn in H.
  destruct i as [|[|[|i]]]; [| | |lia]; (destruct j as [|[|[|j]]]; [| | |lia]); cbn; try ring.
  - replace (1 - 2 * (x * x + z * z)) with ((w * w + x * x + y * y + z * z) - 2 * (x * x + z * z)) by (rewrite H; ring). ring.
  - replace (1 - 2 * (x * x + y * y)) with ((w * w + x * x + y * y + z * z) - 2 * (x * x + y * y)) by (rewrite H; ring). ring.
Qed.
Lemma q_dcm_r v q : quat_r v q -> unitq q -> exists m, q_convert_to_dcm v = Ok m /\ mat_r m 3 3 (rotmat q).
Proof.
  intros Hv U. destruct (dcm_ok v _ Hv) as (m & E & H).
  { repeat constructor. }
  exists m. split; [exact E|]. eapply mat_is_ext; [exact H|].
  intros i j Hi Hj. pose proof (rotmat_list q i j Hi Hj U) as R. destruct q as [w x y z]. rewrite R.
  unfold grid. rewrite f2_RX, f1_RX.
  destruct i as [|[|[|i]]]; [| | |lia]; (destruct j as [|[|[|j]]]; [| | |lia]); reflexivity.
Qed.

Lemma rotmat_rotation q : unitq q -> rotation (rotmat q).
Proof.
  intros U. pose proof U as U'. unfold unitq, qnorm2 in U'.
  assert (K : forall n, req 3 3 n rid -> req 3 3 n rid) by auto.
  unfold rotation. conjs.
  - intros i j Hi Hj.
    transitivity (if (i =? j)%nat then qnorm2 q * qnorm2 q else 0).
    + unfold qnorm2. destruct q as [w x y z].
      destruct i as [|[|[|i]]]; [| | |lia]; (destruct j as [|[|[|j]]]; [| | |lia]); cbn; ring.
    + rewrite U. unfold rid. destruct (i =? j)%nat; ring.
  - intros i j Hi Hj.
    transitivity (if (i =? j)%nat then qnorm2 q * qnorm2 q else 0).
    + unfold qnorm2. destruct q as [w x y z].
      destruct i as [|[|[|i]]]; [| | |lia]; (destruct j as [|[|[|j]]]; [| | |lia]); cbn; ring.
    + rewrite U. unfold rid. destruct (i =? j)%nat; ring.
  - transitivity (qnorm2 q * qnorm2 q * qnorm2 q).
    + unfold qnorm2, det3. destruct q as [w x y z]. cbn. ring.
    + rewrite U. ring.
Qed.
Lemma rotmat_apply q u i : (i < 3)%nat -> rmv 3 (rotmat q) u i = qrot q u i.
Proof.
  intros Hi. destruct q as [w x y z]. destruct i as [|[|[|i]]]; [| | |lia]; cbn; ring.
Qed.
Lemma rotmat_mul p q : req 3 3 (rotmat (qmul p q)) (rmul 3 (rotmat p) (rotmat q)).
Proof.
  intros i j Hi Hj. destruct p as [w x y z], q as [w' x' y' z'].
  destruct i as [|[|[|i]]]; [| | |lia]; (destruct j as [|[|[|j]]]; [| | |lia]); cbn; ring.
Qed.
Lemma rotmat_neg q : forall i j, rotmat (qneg q) i j = rotmat q i j.
Proof.
  intros i j. destruct q as [w x y z]. unfold rotmat, qrot. cbn.
  destruct i as [|[|i]]; cbn; ring.
Qed.
Lemma unit_mul p q : unitq p -> unitq q -> unitq (qmul p q).
Proof.
  unfold unitq. intros Hp Hq. transitivity (qnorm2 p * qnorm2 q); [|rewrite Hp, Hq; ring].
  unfold qnorm2, qmul. cbn. ring.
Qed.
Lemma qrot_norm q u : unitq q -> rdot 3 (qrot q u) (qrot q u) = rdot 3 u u.
Proof.
  intros U. transitivity (qnorm2 q * qnorm2 q * rdot 3 u u); [|rewrite U; ring].
  destruct q as [w x y z]. unfold rdot, qrot, qnorm2. cbn. ring.
Qed.
Lemma q_rotate_r qv v q u : quat_r qv q -> unitq q -> vec_r v 3 u ->
  exists v', q_rotate qv v = Ok v' /\ vec_r v' 3 (qrot q u).
Proof.
  intros Hq U Hv. unfold q_rotate, q_guard3. rewrite (v_get_rows_is _ _ _ Hv). cbn [rbind Nat.eqb negb].
  destruct (q_dcm_r qv q Hq U) as (m & -> & Hm). cbn [rbind].
  destruct (v_convert_ok v 3 _ Hv) as (vm & -> & Hvm). cbn [rbind].
  destruct (m_mul_new_r m vm 3 3 1 _ (fun i _ => u i) Hm Hvm) as (p & -> & Hp). cbn [rbind].
  pose proof (col_to_vector_spec _ _ p _ _ _ Hp 0%nat) as C. cbn [Nat.leb] in C.
  destruct C as (v' & -> & Hv'). exists v'. split; [reflexivity|].
  eapply vec_is_ext; [exact Hv'|]. intros i Hi. cbv beta. f_equal.
  rewrite <- rotmat_apply by auto. reflexivity.
Qed.
Lemma q_rotate_in_place_r qv v q u : quat_r qv q -> unitq q -> vec_r v 3 u ->
  exists v', q_rotate_in_place qv v = (v', Ok tt) /\ vec_r v' 3 (qrot q u).
Proof.
  intros Hq U Hv. unfold q_rotate_in_place.
  rewrite guard_bind by (unfold reads, q_guard3; rewrite (v_get_rows_is _ _ _ Hv); reflexivity).
  destruct (q_dcm_r qv q Hq U) as (m & Em & Hm). erewrite sbind_ok by (apply lift_ok; exact Em).
  destruct (v_convert_ok v 3 _ Hv) as (vm & Ev & Hvm). erewrite sbind_ok by (unfold reads; rewrite Ev; reflexivity).
  destruct (m_mul_new_r m vm 3 3 1 _ (fun i _ => u i) Hm Hvm) as (p & Ep & Hp). erewrite sbind_ok by (apply lift_ok; exact Ep).
  destruct (wp_exact _ _ _ (m_get_col_wp p 3 1 _ v _ 0 Hp Hv ltac:(lia))) as (v' & E' & Hv'). exists v'. split; [exact E'|].
  eapply vec_is_ext; [exact Hv'|]. intros i Hi. cbv beta. f_equal.
  rewrite <- rotmat_apply by auto. reflexivity.
Qed.

(*@ C33_dcm *)
(** C33: the matrix of a unit quaternion is the matrix of u -> q u q* and is a proper rotation *)
Lemma l_dcm :
  forall (v : Vec (T (Arith := RX))) (q : quat), quat_r v q -> unitq q ->
  exists m, q_convert_to_dcm v = Ok m /\ mat_r m 3 3 (rotmat q) /\ rotation (rotmat q).
Proof.
  intros v q Hv U. destruct (q_dcm_r v q Hv U) as (m & E & H). exists m. conjs; auto. apply rotmat_rotation; auto.
Qed.

(*@ C33_double_cover *)
(** C33, f32: q and -q give the same matrix, bit for bit, or the same error, whatever q *)
Lemma l_cover :
  forall (lm : Libm), let A := F32 lm in
  forall (v v' : Vec T) (f : nat -> T), vec_is v 4 f -> vec_is v' 4 (fun i => Bopp (f i : f32)) ->
  q_convert_to_dcm v' = q_convert_to_dcm v.
Proof.
  intros lm A v v' f Hv Hv'. subst A. unfold q_convert_to_dcm.
  destruct (exec (m_init 3 3) mnew) as [m0| |]; cbn [rbind]; auto.
  unfold q_get_qw, q_get_qx, q_get_qy, q_get_qz.
  rewrite !(q_get_is _ _ _ Hv), !(q_get_is _ _ _ Hv') by lia. cbn [rbind].
  assert (N : forall a b : f32, fmul (Arith := F32 lm) (Bopp a) (Bopp b) = fmul (Arith := F32 lm) a b).
  { intros a b. cbn. apply B2SF_inj. destruct a as [sa|sa| |sa ma ea Ha], b as [sb|sb| |sb mb eb Hb]; cbn;
      try reflexivity; try (destruct sa, sb; reflexivity).
    rewrite !B2SF_SF2B. destruct sa, sb; reflexivity. }
  rewrite !N. reflexivity.
Qed.

(*@ C33_double_cover_real *)
(** C33: the same over the reals *)
Lemma l_cover_real :
  forall (v v' : Vec (T (Arith := RX))) (q : quat), quat_r v q -> quat_r v' (qneg q) -> unitq q ->
  exists m m', q_convert_to_dcm v = Ok m /\ q_convert_to_dcm v' = Ok m' /\
    mat_r m 3 3 (rotmat q) /\ mat_r m' 3 3 (rotmat q).
Proof.
  intros v v' q Hv Hv' U.
  assert (U' : unitq (qneg q)). { unfold unitq in *. rewrite <- U. unfold qnorm2, qneg. cbn. ring. }
  destruct (q_dcm_r v q Hv U) as (m & E & H). destruct (q_dcm_r v' _ Hv' U') as (m' & E' & H').
  exists m, m'. conjs; auto. eapply mat_is_ext; [exact H'|]. intros. cbv beta. f_equal. apply rotmat_neg.
Qed.

(*@ C33_product *)
(** C33: the matrix of a product is the product of the matrices *)
Lemma l_dcm_mul :
  forall (a b : Vec (T (Arith := RX))) (p q : quat), quat_r a p -> quat_r b q -> unitq p -> unitq q ->
  exists ab ma mb m m', q_mul_new a b = Ok ab /\ q_convert_to_dcm a = Ok ma /\ q_convert_to_dcm b = Ok mb /\
    q_convert_to_dcm ab = Ok m /\ m_mul_new ma mb = Ok m' /\
    mat_r m 3 3 (rotmat (qmul p q)) /\ mat_r m' 3 3 (rotmat (qmul p q)).
Proof.
  intros a b p q Ha Hb Up Uq.
  destruct (q_mul_new_r a b p q Ha Hb) as (ab & Eab & Hab).
  destruct (q_dcm_r a p Ha Up) as (ma & Ema & Hma). destruct (q_dcm_r b q Hb Uq) as (mb & Emb & Hmb).
  destruct (q_dcm_r ab _ Hab (unit_mul _ _ Up Uq)) as (m & Em & Hm).
  destruct (m_mul_new_r ma mb 3 3 3 _ _ Hma Hmb) as (m' & Em' & Hm').
  exists ab, ma, mb, m, m'. conjs; auto. eapply mat_is_ext; [exact Hm'|]. intros i j Hi Hj. cbv beta. f_equal.
  symmetry. apply rotmat_mul; auto.
Qed.

(*@ C33_rotate *)
(** C33: [rotate] and [rotate_in_place] turn a vector by q, keep its length, and agree with the matrix *)
Lemma l_rotate :
  forall (qv v : Vec (T (Arith := RX))) (q : quat) (u : nat -> R), quat_r qv q -> unitq q -> vec_r v 3 u ->
  exists v1 v2, q_rotate qv v = Ok v1 /\ q_rotate_in_place qv v = (v2, Ok tt) /\
    vec_r v1 3 (qrot q u) /\ vec_r v2 3 (qrot q u) /\
    rnorm 3 (qrot q u) = rnorm 3 u /\
    forall i, (i < 3)%nat -> qrot q u i = rmv 3 (rotmat q) u i.
Proof.
  intros qv v q u Hq U Hv.
  destruct (q_rotate_r qv v q u Hq U Hv) as (v1 & E1 & H1).
  destruct (q_rotate_in_place_r qv v q u Hq U Hv) as (v2 & E2 & H2).
  exists v1, v2. conjs; auto.
  - unfold rnorm. rewrite qrot_norm by auto. reflexivity.
  - intros i Hi. symmetry. apply rotmat_apply; auto.
Qed.

(*@ C33_sizes *)
(** C33: wrong sizes are refused *)
Lemma l_rot_sizes :
  forall (A : Arith) (OK : ArithOk A) (qv v : Vec T) (n k : nat) (f g : nat -> T),
  vec_is qv n f -> vec_is v k g ->
  (n <> 4%nat -> q_convert_to_dcm qv = Err InvalidSize) /\
  (k <> 3%nat \/ n <> 4%nat -> q_rotate qv v = Err InvalidSize /\ q_rotate_in_place qv v = (v, Err InvalidSize)).
Proof.
  intros A OK qv v n k f g Hq Hv.
  assert (D : n <> 4%nat -> q_convert_to_dcm qv = Err InvalidSize).
  { intros N. unfold q_convert_to_dcm. destruct (m_init_new 3 3 ltac:(lia) ltac:(lia)) as (m0 & E0 & H0).
    unfold exec at 1. rewrite E0. cbn [rbind]. unfold q_get_qw, q_get. rewrite (q_guard_not _ _ _ Hq N). reflexivity. }
  split; [exact D|]. intros H. unfold q_rotate, q_rotate_in_place, q_guard3, sbind, reads, lift.
  rewrite (v_get_rows_is _ _ _ Hv). cbn [rbind]. destruct (Nat.eqb_spec k 3); cbn [negb rbind]; auto.
  rewrite D by tauto. auto.
Qed.

(*@ example *)
Example C33_example :
  let q := Quat (1/2) (1/2) (1/2) (1/2) in
  quat_r (rvec [1/2; 1/2; 1/2; 1/2]) q /\ unitq q /\ vec_r (rvec [1; 2; 3]) 3 (triple 1 2 3) /\
  qrot q (triple 1 2 3) 0%nat = 3 /\ qrot q (triple 1 2 3) 1%nat = 1 /\ qrot q (triple 1 2 3) 2%nat = 2.
Proof.
  cbv zeta. split; [apply rquat_is|]. split; [unfold unitq, qnorm2; cbn; lra|]. split; [apply rtriple_is|].
  cbn. repeat split; field.
Qed.
