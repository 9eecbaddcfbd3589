(** C30: interpolation. *)
(*@+*)
From Coq Require Import List Arith ZArith Reals Lia Bool Lra.
From Flocq Require Import Core BinarySingleNaN.
From Verif Require Import M_Base M_Arith M_Utils M_Vector M_Matrix M_F32 M_RX S_Spec S_Linalg S_Norm P_Inst.
Import ListNotations.
Local Open Scope R_scope.
(*@-*)
From Verif Require Import P_Hoare P_Cont P_Loops P_Access P_Pointwise P_Trans P_Float P_Product P_Dot P_Norm P_FErr.

Section I.
  Context {A : Arith} {OK : ArithOk A}.
  Lemma v_copy_of_size_ok self v n f g : vec_is self n f -> vec_is v n g ->
    exists v', v_copy_of_size self v = Ok v' /\ vec_is v' n g.
  Proof.
    intros Hs Hv. unfold v_copy_of_size. rewrite (v_get_rows_is _ _ _ Hs). cbn [rbind].
    destruct (v_init_new n (vec_is_dim _ _ _ Hs)) as (v0 & E0 & H0). rewrite (exec_step _ _ _ _ E0).
    unfold exec. destruct (v_copy_from_ok v0 v n _ _ H0 Hv) as (v' & -> & H'). eauto.
  Qed.
  (** common tail of slerp and lerp: x1*v1 + x2*v2 *)
  Lemma combine_ok self v1 v2 n f f1' f2' x1 x2 :
    vec_is self n f -> vec_is v1 n f1' -> vec_is v2 n f2' ->
    (forall i, (i < n)%nat -> valid (f1' i * x1)%F) -> (forall i, (i < n)%nat -> valid (f2' i * x2)%F) ->
    (forall i, (i < n)%nat -> valid (f1' i * x1 + f2' i * x2)%F) ->
    exists s', (let! v1 := lift (exec (v_mul_by_scalar_in_place x1) v1) in
                let! v2 := lift (exec (v_mul_by_scalar_in_place x2) v2) in v_add v1 v2) self = (s', Ok tt) /\
      vec_is s' n (fun i => f1' i * x1 + f2' i * x2)%F.
  Proof.
    intros Hs H1 H2 V1 V2 V3.
    destruct (pointwise_v_ok _ _ _ _ V1 (v_mul_by_scalar_in_place_pw v1 n _ H1 x1)) as (a & Ea & Ha).
    destruct (pointwise_v_ok _ _ _ _ V2 (v_mul_by_scalar_in_place_pw v2 n _ H2 x2)) as (b & Eb & Hb).
    erewrite sbind_ok by (apply lift_ok; unfold exec; rewrite Ea; reflexivity).
    erewrite sbind_ok by (apply lift_ok; unfold exec; rewrite Eb; reflexivity).
    destruct (pointwise_v_ok _ _ _ _ V3 (v_add_pw self a b n f _ _ Hs Ha Hb)) as (s' & E & H). eauto.
  Qed.
  Lemma combine_bad1 self v1 v2 n f1' x1 x2 k e :
    vec_is v1 n f1' -> (k < n)%nat -> (forall a, (a < k)%nat -> valid (f1' a * x1)%F) -> bad (f1' k * x1)%F = Some e ->
    (let! v1 := lift (exec (v_mul_by_scalar_in_place x1) v1) in
     let! v2 := lift (exec (v_mul_by_scalar_in_place x2) v2) in v_add v1 v2) self = (self, Err (UtilsErr e)).
  Proof.
    intros H1 Hk Hv Hb.
    destruct (v_mul_by_scalar_in_place_pw v1 n _ H1 x1) as [(V & _)|(i & e' & Hi & Hb' & Hv' & E & _)].
    - apply bad_Some_not in Hb. destruct Hb. auto.
    - assert (i = k).
      { destruct (Nat.lt_trichotomy i k) as [L|[L|L]]; auto.
        - apply bad_Some_not in Hb'. destruct Hb'. auto.
        - apply bad_Some_not in Hb. destruct Hb. auto. }
      subst i. assert (e' = e) as -> by congruence.
      erewrite sbind_err; [reflexivity|]. apply lift_err. unfold exec.
      destruct (v_mul_by_scalar_in_place x1 v1) as [s o]. cbn in E. subst. reflexivity.
  Qed.
  Lemma lerp_prefix self v1 v2 n f f1' f2' alpha :
    vec_is self n f -> vec_is v1 n f1' -> vec_is v2 n f2' -> in_range alpha f0 f1 = true ->
    exists a b, vec_is a n f1' /\ vec_is b n f2' /\
      v_lerp v1 v2 alpha self =
       (let! v1 := lift (exec (v_mul_by_scalar_in_place (f1 - alpha)%F) a) in
        let! v2 := lift (exec (v_mul_by_scalar_in_place alpha) b) in v_add v1 v2) self.
  Proof.
    intros Hs H1 H2 Hr. unfold v_lerp. rewrite Hr. cbn [negb].
    destruct (v_copy_of_size_ok self v1 n _ _ Hs H1) as (a & Ea & Ha).
    destruct (v_copy_of_size_ok self v2 n _ _ Hs H2) as (b & Eb & Hb).
    exists a, b. split; [exact Ha|]. split; [exact Hb|].
    erewrite sbind_ok by (eapply vguard_same2_ok; eauto).
    erewrite sbind_ok by (apply lift_ok; exact Ea). erewrite sbind_ok by (apply lift_ok; exact Eb). reflexivity.
  Qed.
  Lemma slerp_prefix self v1 v2 n f f1' f2' alpha :
    vec_is self n f -> vec_is v1 n f1' -> vec_is v2 n f2' -> in_range alpha f0 f1 = true ->
    let theta := facos (fsum n (fun i => f1' i * f2' i)%F) in
    exists a b, vec_is a n f1' /\ vec_is b n f2' /\
      v_slerp v1 v2 alpha self =
       (let! v1 := lift (exec (v_mul_by_scalar_in_place (fsin ((f1 - alpha) * theta) / fsin theta)%F) a) in
        let! v2 := lift (exec (v_mul_by_scalar_in_place (fsin (alpha * theta) / fsin theta)%F) b) in v_add v1 v2) self.
  Proof.
    intros Hs H1 H2 Hr theta. unfold v_slerp. rewrite Hr. cbn [negb].
    destruct (v_copy_of_size_ok self v1 n _ _ Hs H1) as (a & Ea & Ha).
    destruct (v_copy_of_size_ok self v2 n _ _ Hs H2) as (b & Eb & Hb).
    exists a, b. split; [exact Ha|]. split; [exact Hb|].
    erewrite sbind_ok by (eapply vguard_same2_ok; eauto).
    erewrite sbind_ok by (apply lift_ok; rewrite (v_dot_is _ _ _ _ _ _ H1 H2), Nat.eqb_refl; reflexivity).
    cbv zeta. fold theta.
    erewrite sbind_ok by (apply lift_ok; exact Ea). erewrite sbind_ok by (apply lift_ok; exact Eb). reflexivity.
  Qed.
End I.

(*@ C30_alpha_f32 *)
(** C30, f32: alpha outside [0,1], infinite or NaN is refused and nothing is changed *)
Lemma l_alpha32 :
  forall (lm : Libm), let A := F32 lm in forall (self v1 v2 : Vec T) (alpha : f32),
  ~ (is_finite alpha = true /\ 0 <= B2R alpha <= 1) ->
  v_lerp v1 v2 (alpha : T) self = (self, Err InvalidAlpha) /\
  v_slerp v1 v2 (alpha : T) self = (self, Err InvalidAlpha).
Proof.
  intros lm A self v1 v2 alpha H.
  assert (E : in_range (alpha : T) f0 f1 = false).
  { unfold in_range. change (@fleb A) with (Bleb (prec := prec) (emax := emax)).
    destruct (is_finite alpha) eqn:F.
    - rewrite !Bleb_ok by (auto; reflexivity). change (B2R (@f0 A : f32)) with 0.
      change (B2R (@f1 A : f32)) with (B2R (lit32 1 1)). rewrite B2R_one.
      destruct (Rle_bool_spec 0 (B2R alpha)), (Rle_bool_spec (B2R alpha) 1); auto. destruct H. auto.
    - destruct alpha as [|[]| |]; try discriminate; reflexivity. }
  unfold v_lerp, v_slerp. rewrite E. auto.
Qed.

(*@ C30_alpha_real *)
Lemma l_alpha_real :
  forall (self v1 v2 : Vec (T (Arith := RX))) (alpha : R), ~ (0 <= alpha <= 1) ->
  v_lerp (A := RX) v1 v2 (Some alpha) self = (self, Err InvalidAlpha) /\
  v_slerp (A := RX) v1 v2 (Some alpha) self = (self, Err InvalidAlpha).
Proof.
  intros self v1 v2 alpha H.
  assert (E : in_range (A := RX) (Some alpha) f0 f1 = false).
  { unfold in_range. rewrite f0_RX, f1_RX. cbn.
    destruct (Rle_bool_spec 0 alpha), (Rle_bool_spec alpha 1); auto. destruct H. auto. }
  unfold v_lerp, v_slerp. rewrite E. auto.
Qed.

Lemma in_range_RX alpha : 0 <= alpha <= 1 -> in_range (A := RX) (Some alpha) f0 f1 = true.
Proof. intros H. unfold in_range. rewrite f0_RX, f1_RX. cbn. rewrite !Rle_bool_true by lra. reflexivity. Qed.

(*@ C30_lerp *)
(** C30: [lerp] is (1-alpha) a + alpha b *)
Lemma l_lerp :
  forall (self v1 v2 : Vec (T (Arith := RX))) (n : nat) (f a b : nat -> R) (alpha : R),
  vec_r self n f -> vec_r v1 n a -> vec_r v2 n b -> 0 <= alpha <= 1 ->
  exists s', v_lerp (A := RX) v1 v2 (Some alpha) self = (s', Ok tt) /\
    vec_r s' n (fun i => (1 - alpha) * a i + alpha * b i).
Proof.
  intros self v1 v2 n f a b alpha Hs H1 H2 Ha.
  destruct (lerp_prefix self v1 v2 n _ _ _ (Some alpha) Hs H1 H2 (in_range_RX _ Ha)) as (x & y & Hx & Hy & ->).
  rewrite f1_RX.
  destruct (combine_ok self x y n _ _ _ (Some (1 - alpha)) (Some alpha) Hs Hx Hy) as (s' & E & H);
    try (intros; apply valid_RX).
  exists s'. split; [exact E|]. eapply vec_is_ext; [exact H|]. intros i Hi. cbn. f_equal. ring.
Qed.

(*@ C30_lerp_end_points *)
(** C30: [lerp] hits its end points, exactly *)
Lemma l_lerp_ends :
  forall (self v1 v2 : Vec (T (Arith := RX))) (n : nat) (f a b : nat -> R),
  vec_r self n f -> vec_r v1 n a -> vec_r v2 n b ->
  exists s0 s1, v_lerp (A := RX) v1 v2 f0 self = (s0, Ok tt) /\ vec_r s0 n a /\
    v_lerp (A := RX) v1 v2 f1 self = (s1, Ok tt) /\ vec_r s1 n b.
Proof.
  intros self v1 v2 n f a b Hs H1 H2. rewrite f0_RX, f1_RX.
  destruct (l_lerp self v1 v2 n f a b 0 Hs H1 H2 ltac:(lra)) as (s0 & E0 & K0).
  destruct (l_lerp self v1 v2 n f a b 1 Hs H1 H2 ltac:(lra)) as (s1 & E1 & K1).
  exists s0, s1. conjs; auto; (eapply vec_is_ext; [eassumption|]; intros i Hi; cbn; f_equal; ring).
Qed.

Lemma acos_in x : -1 < x < 1 -> 0 < acos x < PI.
Proof. intros H. apply acos_bound_lt. exact H. Qed.
Lemma rsq n x : rdot n x x = rnorm n x * rnorm n x.
Proof. symmetry. apply rnorm_sqr. Qed.

(*@ C30_slerp *)
(** C30: [slerp] between unit vectors at an angle strictly between 0 and pi: the result is a
    unit vector in their plane, at angle alpha*theta from the first. *)
Lemma l_slerp :
  forall (self v1 v2 : Vec (T (Arith := RX))) (n : nat) (f a b : nat -> R) (alpha theta : R),
  vec_r self n f -> vec_r v1 n a -> vec_r v2 n b -> 0 <= alpha <= 1 ->
  rnorm n a = 1 -> rnorm n b = 1 -> 0 < theta < PI -> rdot n a b = cos theta ->
  exists s' s, v_slerp (A := RX) v1 v2 (Some alpha) self = (s', Ok tt) /\ vec_r s' n s /\
    (forall i, (i < n)%nat -> s i = sin ((1 - alpha) * theta) / sin theta * a i + sin (alpha * theta) / sin theta * b i) /\
    rnorm n s = 1 /\ rdot n a s = cos (alpha * theta) /\ rdot n s b = cos ((1 - alpha) * theta).
Proof.
  intros self v1 v2 n f a b alpha theta Hs H1 H2 Ha Na Nb Hth Hd.
  destruct (slerp_prefix self v1 v2 n _ _ _ (Some alpha) Hs H1 H2 (in_range_RX _ Ha)) as (x & y & Hx & Hy & ->).
  assert (Eth : facos (Arith := RX) (fsum (A := RX) n (fun i => fmul (Arith := RX) (Some (a i)) (Some (b i)))) = Some theta).
  { change (fun i => fmul (Arith := RX) (Some (a i)) (Some (b i))) with (fun i => Some (a i * b i)%R).
    rewrite fsum_RX. change (Rsum n (fun i => a i * b i)) with (rdot n a b). rewrite Hd. cbn.
    pose proof (COS_bound theta) as [C1 C2]. unfold in_unit. rewrite !Rle_bool_true by auto. cbn.
    rewrite acos_cos by lra. reflexivity. }
  rewrite Eth, f1_RX.
  pose proof (sin_gt_0 theta ltac:(lra) ltac:(lra)) as Sp.
  set (p := sin ((1 - alpha) * theta) / sin theta). set (q := sin (alpha * theta) / sin theta).
  assert (E1 : (fdiv (Arith := RX) (fsin (Arith := RX) (fmul (Arith := RX) (fsub (Arith := RX) (Some 1) (Some alpha)) (Some theta))) (fsin (Arith := RX) (Some theta))) = Some p).
  { cbn. rewrite Req_bool_false by lra. reflexivity. }
  assert (E2 : (fdiv (Arith := RX) (fsin (Arith := RX) (fmul (Arith := RX) (Some alpha) (Some theta))) (fsin (Arith := RX) (Some theta))) = Some q).
  { cbn. rewrite Req_bool_false by lra. reflexivity. }
  rewrite E1, E2.
  destruct (combine_ok self x y n _ _ _ (Some p) (Some q) Hs Hx Hy) as (s' & E & H);
    try (intros; apply valid_RX).
  exists s', (fun i => p * a i + q * b i). split; [exact E|].
  split. { eapply vec_is_ext; [exact H|]. intros i Hi. cbn. f_equal. ring. }
  split. { intros; reflexivity. }
  assert (Daa : rdot n a a = 1) by (rewrite rsq, Na; ring).
  assert (Dbb : rdot n b b = 1) by (rewrite rsq, Nb; ring).
  assert (lin : forall c d z, rdot n (fun i => c * a i + d * b i) z = c * rdot n a z + d * rdot n b z).
  { intros c d z. unfold rdot. rewrite <- !Rsum_scal, <- Rsum_plus. apply Rsum_ext. intros; ring. }
  assert (linr : forall c d z, rdot n z (fun i => c * a i + d * b i) = c * rdot n z a + d * rdot n z b).
  { intros c d z. unfold rdot. rewrite <- !Rsum_scal, <- Rsum_plus. apply Rsum_ext. intros; ring. }
  assert (sym : rdot n b a = cos theta).
  { rewrite <- Hd. unfold rdot. apply Rsum_ext. intros; ring. }
  set (A1 := (1 - alpha) * theta) in *. set (A2 := alpha * theta) in *.
  assert (At : theta = A1 + A2) by (unfold A1, A2; ring).
  assert (Sth : sin theta = sin A1 * cos A2 + cos A1 * sin A2) by (rewrite At at 1; apply sin_plus).
  assert (Cth : cos theta = cos A1 * cos A2 - sin A1 * sin A2) by (rewrite At at 1; apply cos_plus).
  pose proof (sin2_cos2 A1) as T1. pose proof (sin2_cos2 A2) as T2. unfold Rsqr in T1, T2.
  assert (Das : p + q * cos theta = cos A2).
  { unfold p, q. apply Rmult_eq_reg_r with (sin theta); [|lra].
    replace ((sin A1 / sin theta + sin A2 / sin theta * cos theta) * sin theta) with (sin A1 + sin A2 * cos theta) by (field; lra).
    rewrite Cth, Sth. replace (sin A1 + sin A2 * (cos A1 * cos A2 - sin A1 * sin A2)) with
      (sin A1 * (sin A2 * sin A2 + cos A2 * cos A2) + sin A2 * (cos A1 * cos A2 - sin A1 * sin A2)) by (rewrite T2; ring). ring. }
  assert (Dsb : p * cos theta + q = cos A1).
  { unfold p, q. apply Rmult_eq_reg_r with (sin theta); [|lra].
    replace ((sin A1 / sin theta * cos theta + sin A2 / sin theta) * sin theta) with (sin A1 * cos theta + sin A2) by (field; lra).
    rewrite Cth, Sth. replace (sin A1 * (cos A1 * cos A2 - sin A1 * sin A2) + sin A2) with
      (sin A1 * (cos A1 * cos A2 - sin A1 * sin A2) + sin A2 * (sin A1 * sin A1 + cos A1 * cos A1)) by (rewrite T1; ring). ring. }
  split; [|split].
  - unfold rnorm. rewrite lin, !linr, Daa, Dbb, Hd, sym.
    replace (p * (p * 1 + q * cos theta) + q * (p * cos theta + q * 1)) with
       (p * (p + q * cos theta) + q * (p * cos theta + q)) by ring. rewrite Das, Dsb.
    replace (p * cos A2 + q * cos A1) with 1; [apply sqrt_1|].
    unfold p, q. apply Rmult_eq_reg_r with (sin theta); [|lra].
    replace ((sin A1 / sin theta * cos A2 + sin A2 / sin theta * cos A1) * sin theta) with (sin A1 * cos A2 + cos A1 * sin A2) by (field; lra).
    rewrite Sth. ring.
  - rewrite linr, Daa, Hd. lra.
  - rewrite lin, Dbb, Hd. lra.
Qed.

(*@ C30_slerp_end_points *)
Lemma l_slerp_ends :
  forall (self v1 v2 : Vec (T (Arith := RX))) (n : nat) (f a b : nat -> R),
  vec_r self n f -> vec_r v1 n a -> vec_r v2 n b ->
  rnorm n a = 1 -> rnorm n b = 1 -> -1 < rdot n a b < 1 ->
  exists s0 s1, v_slerp (A := RX) v1 v2 f0 self = (s0, Ok tt) /\ vec_r s0 n a /\
    v_slerp (A := RX) v1 v2 f1 self = (s1, Ok tt) /\ vec_r s1 n b.
Proof.
  intros self v1 v2 n f a b Hs H1 H2 Na Nb Hd. rewrite f0_RX, f1_RX.
  pose proof (acos_in _ Hd) as Hth. set (theta := acos (rdot n a b)) in *.
  assert (Ec : rdot n a b = cos theta) by (unfold theta; rewrite cos_acos; lra).
  pose proof (sin_gt_0 theta ltac:(lra) ltac:(lra)) as Sp.
  destruct (l_slerp self v1 v2 n f a b 0 theta Hs H1 H2 ltac:(lra) Na Nb Hth Ec) as (s0 & g0 & E0 & K0 & G0 & _).
  destruct (l_slerp self v1 v2 n f a b 1 theta Hs H1 H2 ltac:(lra) Na Nb Hth Ec) as (s1 & g1 & E1 & K1 & G1 & _).
  exists s0, s1. conjs; auto.
  - eapply vec_is_ext; [exact K0|]. intros i Hi. cbn. f_equal. rewrite G0 by auto.
    rewrite Rmult_0_l, sin_0, Rminus_0_r, Rmult_1_l. field. lra.
  - eapply vec_is_ext; [exact K1|]. intros i Hi. cbn. f_equal. rewrite G1 by auto.
    replace ((1 - 1) * theta) with 0 by ring. rewrite sin_0, Rmult_1_l. field. lra.
Qed.

(*@ C30_slerp_identical *)
(** C30, violation: [slerp] between a unit vector and itself never succeeds, for any alpha in [0,1] *)
Lemma l_slerp_same :
  forall (self v1 v2 : Vec (T (Arith := RX))) (n : nat) (f a : nat -> R) (alpha : R),
  vec_r self n f -> vec_r v1 n a -> vec_r v2 n a -> 0 <= alpha <= 1 -> rnorm n a = 1 ->
  v_slerp (A := RX) v1 v2 (Some alpha) self = (self, Err (UtilsErr Nan)).
Proof.
  intros self v1 v2 n f a alpha Hs H1 H2 Ha Na.
  destruct (slerp_prefix self v1 v2 n _ _ _ (Some alpha) Hs H1 H2 (in_range_RX _ Ha)) as (x & y & Hx & Hy & ->).
  assert (Eth : facos (Arith := RX) (fsum (A := RX) n (fun i => fmul (Arith := RX) (Some (a i)) (Some (a i)))) = Some 0).
  { change (fun i => fmul (Arith := RX) (Some (a i)) (Some (a i))) with (fun i => Some (a i * a i)%R).
    rewrite fsum_RX. change (Rsum n (fun i => a i * a i)) with (rdot n a a). rewrite rsq, Na, Rmult_1_l. cbn.
    unfold in_unit. rewrite !Rle_bool_true by lra. cbn. rewrite acos_1. reflexivity. }
  rewrite Eth, f1_RX.
  destruct (vec_is_dim _ _ _ Hs) as [Dn _].
  eapply (combine_bad1 self x y n _ _ _ 0 Nan); eauto.
  - intros; lia.
  - cbn. rewrite sin_0, Req_bool_true by reflexivity. reflexivity.
Qed.

(*@ C30_slerp_identical_refuted *)
Lemma l_slerp_same_w :
  exists (v : Vec (T (Arith := RX))), vec_r v 2 (fun i => nth i [3 / 5; 4 / 5] 0) /\
  rnorm 2 (fun i => nth i [3 / 5; 4 / 5] 0) = 1 /\
  v_slerp (A := RX) v v (Some (1 / 2)) v = (v, Err (UtilsErr Nan)).
Proof.
  assert (H : vec_r (rvec [3 / 5; 4 / 5]) 2 (fun i => nth i [3 / 5; 4 / 5] 0)) by (apply (rvec_is [3/5; 4/5]); cbn; lia).
  assert (N : rnorm 2 (fun i => nth i [3 / 5; 4 / 5] 0) = 1).
  { unfold rnorm, rdot. cbn. replace (0 + 3 / 5 * (3 / 5) + 4 / 5 * (4 / 5)) with 1 by lra. apply sqrt_1. }
  exists (rvec [3 / 5; 4 / 5]). split; [exact H|]. split; [exact N|].
  eapply l_slerp_same; eauto. lra.
Qed.

(*@ example *)
Example C30_example :
  let a := rvec [1; 0] in let b := rvec [0; 1] in
  vec_r a 2 (fun i => nth i [1; 0] 0) /\ vec_r b 2 (fun i => nth i [0; 1] 0) /\
  rnorm 2 (fun i => nth i [1; 0] 0) = 1 /\ rnorm 2 (fun i => nth i [0; 1] 0) = 1 /\
  0 < PI / 2 < PI /\ rdot 2 (fun i => nth i [1; 0] 0) (fun i => nth i [0; 1] 0) = cos (PI / 2).
Proof.
  cbv zeta. split; [apply (rvec_is [1; 0]); cbn; lia|]. split; [apply (rvec_is [0; 1]); cbn; lia|].
  split. { unfold rnorm, rdot. cbn. replace (0 + 1 * 1 + 0 * 0) with 1 by ring. apply sqrt_1. }
  split. { unfold rnorm, rdot. cbn. replace (0 + 0 * 0 + 1 * 1) with 1 by ring. apply sqrt_1. }
  split. { pose proof PI_RGT_0. lra. }
  rewrite cos_PI2. unfold rdot. cbn. ring.
Qed.
