(** C60: rounding errors of dot, matrix and Hamilton products in f32. *)
(*@+*)
From Coq Require Import List Arith ZArith Reals Lia Bool Lra SpecFloat.
From Flocq Require Import Core BinarySingleNaN.
From Verif Require Import M_Base M_Arith M_Utils M_Vector M_Matrix M_Quaternion M_F32
  S_Spec S_Linalg S_Norm S_Quat S_F32 P_Inst P_InstF.
Import ListNotations.
Local Open Scope R_scope.
(*@-*)
From Coq Require Import Psatz.
From Verif Require Import P_Hoare P_Cont P_Loops P_Access P_Pointwise P_Trans P_Float P_Product
  P_Compare P_Dot P_Norm P_FErr P_Norm32 P_Quat P_FAcc.

Section Q.
  Lemma cs4 a b c d x y z t : (a * x + b * y + c * z + d * t) * (a * x + b * y + c * z + d * t) <=
    (a * a + b * b + c * c + d * d) * (x * x + y * y + z * z + t * t).
  Proof.
    assert (0 <= (a * y - b * x) * (a * y - b * x) + (a * z - c * x) * (a * z - c * x) + (a * t - d * x) * (a * t - d * x)
      + (b * z - c * y) * (b * z - c * y) + (b * t - d * y) * (b * t - d * y) + (c * t - d * z) * (c * t - d * z)).
    { repeat apply Rplus_le_le_0_compat; apply Rle_0_sqr. }
    lra.
  Qed.
  Lemma qnorm_pos q : 0 <= qnorm q. Proof. apply sqrt_pos. Qed.
  Lemma sqr_le_abs a b : 0 <= b -> a * a <= b * b -> a <= b.
  Proof. intros Hb H. destruct (Rle_dec a b); auto. nra. Qed.
  Lemma qnorm_mul p q : qnorm (qmul p q) = qnorm p * qnorm q.
  Proof.
    unfold qnorm. rewrite <- sqrt_mult by apply qnorm2_pos. f_equal. unfold qnorm2, qmul. cbn. ring.
  Qed.
  Lemma qnorm_add p q : qnorm (qadd p q) <= qnorm p + qnorm q.
  Proof.
    pose proof (qnorm_pos p) as Pp. pose proof (qnorm_pos q) as Pq. apply sqr_le_abs; [lra|].
    rewrite qnorm_sqr. replace ((qnorm p + qnorm q) * (qnorm p + qnorm q)) with
      (qnorm p * qnorm p + qnorm q * qnorm q + 2 * (qnorm p * qnorm q)) by ring.
    rewrite !qnorm_sqr. unfold qnorm2, qadd. cbn.
    assert (K : Qw p * Qw q + Qx p * Qx q + Qy p * Qy q + Qz p * Qz q <= qnorm p * qnorm q).
    { apply sqr_le_abs; [nra|]. eapply Rle_trans; [apply cs4|]. right.
      fold (qnorm2 p). fold (qnorm2 q). rewrite <- !qnorm_sqr. ring. }
    lra.
  Qed.
  Lemma qnorm_scale t q : qnorm (qscale t q) = Rabs t * qnorm q.
  Proof.
    unfold qnorm. rewrite <- sqrt_Rsqr_abs, <- sqrt_mult by (try apply Rle_0_sqr; apply qnorm2_pos).
    f_equal. unfold qnorm2, qscale, Rsqr. cbn. ring.
  Qed.
  Lemma qnorm_neg q : qnorm (qneg q) = qnorm q.
  Proof. unfold qneg. rewrite qnorm_scale. rewrite Rabs_left by lra. ring. Qed.
  Lemma quat_eta q r : Qw q = Qw r -> Qx q = Qx r -> Qy q = Qy r -> Qz q = Qz r -> q = r.
  Proof. destruct q, r. cbn. congruence. Qed.
  Lemma qdist_pos p q : 0 <= qdist p q. Proof. apply qnorm_pos. Qed.
  Lemma qdist_sym p q : qdist p q = qdist q p.
  Proof.
    unfold qdist. rewrite <- (qnorm_neg (qsub p q)). f_equal. apply quat_eta; cbn; ring.
  Qed.
  Lemma qdist_tri p q r : qdist p r <= qdist p q + qdist q r.
  Proof.
    unfold qdist. eapply Rle_trans; [|apply qnorm_add]. right. f_equal. apply quat_eta; cbn; ring.
  Qed.
  Lemma qdist_refl p : qdist p p = 0.
  Proof. unfold qdist, qnorm. replace (qnorm2 (qsub p p)) with 0 by (unfold qnorm2, qsub; cbn; ring). apply sqrt_0. Qed.
  Lemma qdist_norm p q : qnorm p <= qnorm q + qdist p q.
  Proof.
    unfold qdist. rewrite Rplus_comm. eapply Rle_trans; [|apply qnorm_add]. right. f_equal. apply quat_eta; cbn; ring.
  Qed.
  Lemma qdist_norm_abs p q : Rabs (qnorm p - qnorm q) <= qdist p q.
  Proof. pose proof (qdist_norm p q). pose proof (qdist_norm q p). rewrite (qdist_sym q p) in *. apply Rabs_le. lra. Qed.
  Lemma qdist_mul_l p q r : qdist (qmul p q) (qmul p r) = qnorm p * qdist q r.
  Proof. unfold qdist. rewrite <- qnorm_mul. f_equal. apply quat_eta; cbn; ring. Qed.
  Lemma qdist_mul_r p q r : qdist (qmul p r) (qmul q r) = qdist p q * qnorm r.
  Proof. unfold qdist. rewrite <- qnorm_mul. f_equal. apply quat_eta; cbn; ring. Qed.
  Lemma qmul_assoc p q r : qmul (qmul p q) r = qmul p (qmul q r).
  Proof. apply quat_eta; cbn; ring. Qed.
  Lemma qdist_comp p q e : Rabs (Qw p - Qw q) <= e -> Rabs (Qx p - Qx q) <= e -> Rabs (Qy p - Qy q) <= e ->
    Rabs (Qz p - Qz q) <= e -> qdist p q <= 2 * e.
  Proof.
    intros H1 H2 H3 H4. assert (0 <= e) by (eapply Rle_trans; [apply Rabs_pos|exact H1]).
    apply sqr_le_abs; [lra|]. unfold qdist. rewrite qnorm_sqr. unfold qnorm2, qsub. cbn.
    assert (K : forall a b, Rabs (a - b) <= e -> (a + -1 * b) * (a + -1 * b) <= e * e).
    { intros a b Hab. replace (a + -1 * b) with (a - b) by ring. apply Rabs_le_inv in Hab. nra. }
    pose proof (K _ _ H1). pose proof (K _ _ H2). pose proof (K _ _ H3). pose proof (K _ _ H4). lra.
  Qed.
  (** sums of magnitudes of products are bounded by the product of the norms, in every order *)
  Lemma cs_abs p q a b c d : (a * a + b * b + c * c + d * d = qnorm2 q) ->
    Rabs (Qw p * a) + Rabs (Qx p * b) + Rabs (Qy p * c) + Rabs (Qz p * d) <= qnorm p * qnorm q.
  Proof.
    intros E. pose proof (qnorm_pos p). pose proof (qnorm_pos q). apply sqr_le_abs; [nra|]. rewrite !Rabs_mult.
    eapply Rle_trans; [apply cs4|]. right.
    assert (S : forall x, Rabs x * Rabs x = x * x) by (intros; rewrite <- Rabs_mult, Rabs_pos_eq; [auto|apply Rle_0_sqr]).
    rewrite !S, E. fold (qnorm2 p). rewrite <- !qnorm_sqr. ring.
  Qed.
End Q.

Lemma eta_tiny k : 0 <= k <= 1000 -> k * eta <= tiny.
Proof.
  intros H. replace tiny with (1024 * eta).
  - apply Rmult_le_compat_r; [pose proof eta_pos|]; lra.
  - unfold eta, tiny. change (-140)%Z with (10 + -150)%Z. rewrite bpow_plus. f_equal.
Qed.
Lemma acc_final k s N M : 1 <= k <= 8 -> acc k s N M -> Rabs (B2R s - N) <= k / 16000000 * M + tiny.
Proof.
  intros Hk (F & HN & HM & E). eapply Rle_trans; [exact E|]. pose proof (Rabs_pos N).
  apply Rplus_le_compat; [|apply eta_tiny; lra].
  apply Rmult_le_compat_r; [lra|]. unfold u. lra.
Qed.

Lemma vec_f_finite lm (v : Vec (T (Arith := F32 lm))) n f : vec_is v n f -> forall i, (i < n)%nat -> is_finite (f i : f32) = true.
Proof. intros H i Hi. apply (valid_finite lm). eapply vec_is_valid; eauto. Qed.
Lemma mat_f_finite lm (m : Mat (T (Arith := F32 lm))) r c f : mat_is m r c f ->
  forall i j, (i < r)%nat -> (j < c)%nat -> is_finite (f i j : f32) = true.
Proof. intros H i j Hi Hj. apply (valid_finite lm). eapply mat_is_valid; eauto. Qed.

(*@ C60_dot *)
(** C60: the dot product of finite f32 vectors of moderate size (total magnitude of the products below 2^120) is
    finite and differs from the true one by at most (n+1) * 6.25e-8 times the sum of the magnitudes of the
    products, plus 2^-140 *)
Lemma l_dot32 :
  forall (lm : Libm) (v w : Vec (T (Arith := F32 lm))) (n : nat) (a b : nat -> R),
  vec_f v n a -> vec_f w n b ->
  let M := Rsum n (fun i => Rabs (a i * b i)) in M <= bpow radix2 120 ->
  exists d, v_dot_product v w = Ok d /\ is_finite (d : f32) = true /\
    Rabs (B2R (d : f32) - rdot n a b) <= (INR n + 1) / 16000000 * M + tiny.
Proof.
  intros lm v w n a b (f & Hv & Ea) (g & Hw & Eb) M HM.
  pose proof (l_dot (F32 lm) v w n n f g Hv Hw) as D. rewrite Nat.eqb_refl in D.
  destruct (vec_is_dim _ _ _ Hv) as [D1 D2].
  assert (EM : M = Rsum n (fun i => Rabs (B2R (f i : f32) * B2R (g i : f32)))).
  { apply Rsum_ext. intros i Hi. rewrite Ea, Eb by auto. reflexivity. }
  assert (EN : rdot n a b = Rsum n (fun i => B2R (f i : f32) * B2R (g i : f32))).
  { apply Rsum_ext. intros i Hi. rewrite Ea, Eb by auto. reflexivity. }
  destruct (fsum_acc lm n f g) as (F & K); auto.
  { intros i Hi. split; [apply (vec_f_finite lm v n f)|apply (vec_f_finite lm w n g)]; auto. }
  { rewrite <- EM. exact HM. }
  eexists. split; [exact D|]. split; [exact F|]. rewrite EN, EM. apply acc_final.
  - pose proof (pos_INR n). assert (INR n <= 4). { replace 4 with (INR 4) by (cbn; lra). apply le_INR. lia. } lra.
  - split; auto.
Qed.

(*@ C60_matrix_product *)
(** C60: the product of f32 matrices of moderate size succeeds and every cell is within the same bound of the
    true one *)
Lemma l_mul32 :
  forall (lm : Libm) (x y : Mat (T (Arith := F32 lm))) (r k c : nat) (a b : nat -> nat -> R),
  mat_f x r k a -> mat_f y k c b ->
  let M i j := Rsum k (fun t => Rabs (a i t * b t j)) in
  (forall i j, (i < r)%nat -> (j < c)%nat -> M i j <= bpow radix2 120) ->
  exists m p, m_mul_new x y = Ok m /\ mat_f m r c p /\
    forall i j, (i < r)%nat -> (j < c)%nat ->
      Rabs (p i j - rmul k a b i j) <= (INR k + 1) / 16000000 * M i j + tiny.
Proof.
  intros lm x y r k c a b (f & Hx & Ea) (g & Hy & Eb) M HM.
  assert (Dk : (k <= 4)%nat) by (rewrite <- (mi_cols _ _ _ _ Hx); apply (wfm_cols _ (mi_wf _ _ _ _ Hx))).
  assert (ACC : forall i j n, (i < r)%nat -> (j < c)%nat -> (n <= k)%nat ->
    acc (INR n + 1) (fsum (A := F32 lm) n (fun t => Bmult mode_NE (f i t) (g t j)))
      (Rsum n (fun t => B2R (f i t : f32) * B2R (g t j : f32))) (Rsum n (fun t => Rabs (B2R (f i t : f32) * B2R (g t j : f32))))).
  { intros i j n Hi Hj Hn. apply fsum_acc; [lia| |].
    - intros t Ht. split; [apply (mat_f_finite lm x r k f)|apply (mat_f_finite lm y k c g)]; auto; lia.
    - eapply Rle_trans; [|apply (HM i j Hi Hj)]. unfold M.
      rewrite (Rsum_ext k _ (fun t => Rabs (B2R (f i t : f32) * B2R (g t j : f32)))).
      2:{ intros t Ht. rewrite Ea, Eb by auto. reflexivity. }
      clear - Hn. induction Hn as [|k Hn IH]; [lra|]. cbn [Rsum]. pose proof (Rabs_pos (B2R (f i k : f32) * B2R (g k j : f32))). lra. }
  pose proof (l_mul_new (F32 lm) _ x y r k k c f g Hx Hy) as L. rewrite Nat.eqb_refl in L.
  destruct L as [(V & m & E & Hm)|(i & j & n & e & Hi & Hj & Hn & B & _)].
  - exists m. exists (fun i j => B2R (fsum (A := F32 lm) k (fun t => Bmult mode_NE (f i t) (g t j)) : f32)).
    split; [exact E|]. split; [eexists; split; [exact Hm|]; reflexivity|].
    intros i j Hi Hj.
    replace (rmul k a b i j) with (Rsum k (fun t => B2R (f i t : f32) * B2R (g t j : f32))).
    2:{ apply Rsum_ext. intros t Ht. rewrite Ea, Eb by auto. reflexivity. }
    replace (M i j) with (Rsum k (fun t => Rabs (B2R (f i t : f32) * B2R (g t j : f32)))).
    2:{ apply Rsum_ext. intros t Ht. rewrite Ea, Eb by auto. reflexivity. }
    apply acc_final; [|apply ACC; auto; lia].
    pose proof (pos_INR k). assert (INR k <= 4). { replace 4 with (INR 4) by (cbn; lra). apply le_INR. lia. } lra.
  - exfalso. destruct (ACC i j n Hi Hj ltac:(lia)) as (Fi & _).
    apply (valid_finite lm) in Fi. destruct Fi as [F1 F2].
    unfold bad in B. change (fun t => (f i t * g t j)%F) with (fun t => Bmult mode_NE (f i t : f32) (g t j : f32)) in B.
    rewrite F1, F2 in B. discriminate.
Qed.

(** the machine product of finite quaternions *)
Lemma prod_acc lm (f g : nat -> f32) (p q : quat) :
  (forall i, (i < 4)%nat -> is_finite (f i) = true /\ B2R (f i) = qf p i) ->
  (forall i, (i < 4)%nat -> is_finite (g i) = true /\ B2R (g i) = qf q i) ->
  qnorm p * qnorm q <= huge ->
  let M := qnorm p * qnorm q in
  forall i, (i < 4)%nat -> is_finite (prodf (A := F32 lm) f g i : f32) = true /\
    Rabs (B2R (prodf (A := F32 lm) f g i : f32) - qf (qmul p q) i) <= 5 / 16000000 * M + tiny.
Proof.
  intros Hf Hg HM M.
  destruct (Hf 0%nat ltac:(lia)) as [Ff0 f_0]. destruct (Hf 1%nat ltac:(lia)) as [Ff1 f_1].
  destruct (Hf 2%nat ltac:(lia)) as [Ff2 f_2]. destruct (Hf 3%nat ltac:(lia)) as [Ff3 f_3].
  destruct (Hg 0%nat ltac:(lia)) as [Fg0 g_0]. destruct (Hg 1%nat ltac:(lia)) as [Fg1 g_1].
  destruct (Hg 2%nat ltac:(lia)) as [Fg2 g_2]. destruct (Hg 3%nat ltac:(lia)) as [Fg3 g_3].
  cbn [qf quad] in *.
  assert (FIN : forall s N M' R, acc 4 s N M' -> M' <= M -> N = R -> is_finite s = true /\ Rabs (B2R s - R) <= 5 / 16000000 * M + tiny).
  { intros s N M' R H HM' <-. split; [apply H|]. pose proof (acc_final 4 s N M' ltac:(lra) H) as K.
    assert (0 <= M') by (destruct H as (_ & H & _); pose proof (Rabs_pos N); lra). lra. }
  assert (FOUR : forall (b1 b2 b3 : bool) (x0 y0 x1 y1 x2 y2 x3 y3 : f32),
    is_finite x0 = true -> is_finite y0 = true -> is_finite x1 = true -> is_finite y1 = true ->
    is_finite x2 = true -> is_finite y2 = true -> is_finite x3 = true -> is_finite y3 = true ->
    Rabs (B2R x0 * B2R y0) + Rabs (B2R x1 * B2R y1) + Rabs (B2R x2 * B2R y2) + Rabs (B2R x3 * B2R y3) <= M ->
    let op (b : bool) s p := if b then Bplus mode_NE s p else Bminus mode_NE s p in
    let opr (b : bool) s p := if b then s + p else s - p in
    acc 4 (op b3 (op b2 (op b1 (Bmult mode_NE x0 y0) (Bmult mode_NE x1 y1)) (Bmult mode_NE x2 y2)) (Bmult mode_NE x3 y3))
      (opr b3 (opr b2 (opr b1 (B2R x0 * B2R y0) (B2R x1 * B2R y1)) (B2R x2 * B2R y2)) (B2R x3 * B2R y3))
      (Rabs (B2R x0 * B2R y0) + Rabs (B2R x1 * B2R y1) + Rabs (B2R x2 * B2R y2) + Rabs (B2R x3 * B2R y3))).
  { intros b1 b2 b3 x0 y0 x1 y1 x2 y2 x3 y3 F1 F2 F3 F4 F5 F6 F7 F8 HS op opr.
    pose proof (Rabs_pos (B2R x0 * B2R y0)). pose proof (Rabs_pos (B2R x1 * B2R y1)).
    pose proof (Rabs_pos (B2R x2 * B2R y2)). pose proof (Rabs_pos (B2R x3 * B2R y3)). fold M in HM.
    replace 4 with (1 + 1 + 1 + 1) by ring.
    apply (acc_step b3); auto; [lra| |lra]. apply (acc_step b2); auto; [lra| |lra].
    apply (acc_step b1); auto; [lra| |lra]. apply acc_prod; auto; lra. }
  pose proof (cs_abs p q) as CS. fold M in CS.
  intros i Hi. destruct i as [|[|[|[|i]]]]; [| | | |lia]; cbn [prodf quad qf].
  - eapply FIN; [apply (FOUR false false false (f 0%nat) (g 0%nat) (f 1%nat) (g 1%nat) (f 2%nat) (g 2%nat) (f 3%nat) (g 3%nat)); auto|..];
      rewrite ?f_0, ?f_1, ?f_2, ?f_3, ?g_0, ?g_1, ?g_2, ?g_3; try (cbn; ring);
      (eapply Rle_trans; [|apply (CS (Qw q) (Qx q) (Qy q) (Qz q)); unfold qnorm2; ring]); lra.
  - eapply FIN; [apply (FOUR true false true (f 0%nat) (g 1%nat) (f 1%nat) (g 0%nat) (f 3%nat) (g 2%nat) (f 2%nat) (g 3%nat)); auto|..];
      rewrite ?f_0, ?f_1, ?f_2, ?f_3, ?g_0, ?g_1, ?g_2, ?g_3; try (cbn; ring);
      (eapply Rle_trans; [|apply (CS (Qx q) (Qw q) (Qz q) (Qy q)); unfold qnorm2; ring]); lra.
  - eapply FIN; [apply (FOUR true true false (f 0%nat) (g 2%nat) (f 3%nat) (g 1%nat) (g 0%nat) (f 2%nat) (f 1%nat) (g 3%nat)); auto|..];
      rewrite ?f_0, ?f_1, ?f_2, ?f_3, ?g_0, ?g_1, ?g_2, ?g_3; try (cbn; ring);
      (eapply Rle_trans; [|apply (CS (Qy q) (Qz q) (Qw q) (Qx q)); unfold qnorm2; ring]); rewrite (Rmult_comm (Qw q)); lra.
  - eapply FIN; [apply (FOUR false true true (f 0%nat) (g 3%nat) (f 2%nat) (g 1%nat) (f 1%nat) (g 2%nat) (g 0%nat) (f 3%nat)); auto|..];
      rewrite ?f_0, ?f_1, ?f_2, ?f_3, ?g_0, ?g_1, ?g_2, ?g_3; try (cbn; ring);
      (eapply Rle_trans; [|apply (CS (Qz q) (Qy q) (Qx q) (Qw q)); unfold qnorm2; ring]); rewrite (Rmult_comm (Qw q) (Qz p)); lra.
Qed.
Lemma quat_f_of lm (v : Vec (T (Arith := F32 lm))) (f : nat -> f32) : vec_is (A := F32 lm) v 4 f ->
  quat_f v (Quat (B2R (f 0%nat)) (B2R (f 1%nat)) (B2R (f 2%nat)) (B2R (f 3%nat))).
Proof. intros H. exists f. split; [exact H|]. apply (below4 (fun i => B2R (f i) = qf _ i)); reflexivity. Qed.

Lemma prod_dist lm (f g : nat -> f32) (p q : quat) :
  (forall i, (i < 4)%nat -> is_finite (f i) = true /\ B2R (f i) = qf p i) ->
  (forall i, (i < 4)%nat -> is_finite (g i) = true /\ B2R (g i) = qf q i) ->
  qnorm p * qnorm q <= huge ->
  (forall i, (i < 4)%nat -> valid (A := F32 lm) (prodf (A := F32 lm) f g i)) /\
  let h := prodf (A := F32 lm) f g in
  qdist (Quat (B2R (h 0%nat : f32)) (B2R (h 1%nat : f32)) (B2R (h 2%nat : f32)) (B2R (h 3%nat : f32))) (qmul p q)
    <= / 1000000 * (qnorm p * qnorm q) + 2 * tiny.
Proof.
  intros Hf Hg HM. pose proof (prod_acc lm f g p q Hf Hg HM) as P. cbv zeta in P. split.
  - intros i Hi. apply (valid_finite lm). apply P, Hi.
  - cbv zeta. set (M := qnorm p * qnorm q) in *.
    assert (0 <= M) by (apply Rmult_le_pos; apply qnorm_pos).
    eapply Rle_trans; [apply (qdist_comp _ _ (5 / 16000000 * M + tiny)); cbn [Qw Qx Qy Qz]|lra].
    + apply (P 0%nat). lia.
    + apply (P 1%nat). lia.
    + apply (P 2%nat). lia.
    + apply (P 3%nat). lia.
Qed.
Lemma quat_f_inv lm (v : Vec (T (Arith := F32 lm))) p : quat_f v p -> exists f : nat -> f32, vec_is (A := F32 lm) v 4 f /\
  forall i, (i < 4)%nat -> is_finite (f i) = true /\ B2R (f i) = qf p i.
Proof.
  intros (f & Hv & E). exists f. split; auto. intros i Hi. split; auto. eapply (vec_f_finite lm); eauto.
Qed.

(*@ C60_hamilton *)
(** C60: the Hamilton product of f32 quaternions (product of the norms below 2^120) succeeds, in both variants, and
    its distance from the true product is at most a millionth of the product of the norms (plus 2^-139) *)
Lemma l_hamilton32 :
  forall (lm : Libm) (a b self : Vec (T (Arith := F32 lm))) (p q s : quat),
  quat_f a p -> quat_f b q -> quat_f self s -> qnorm p * qnorm q <= bpow radix2 120 ->
  exists v r, q_mul_new a b = Ok v /\ q_mul a b self = (v, Ok tt) /\ quat_f v r /\
    qdist r (qmul p q) <= / 1000000 * (qnorm p * qnorm q) + 2 * tiny.
Proof.
  intros lm a b self p q s Ha Hb Hs HM.
  destruct (quat_f_inv _ _ _ Ha) as (f & Hf & Ff). destruct (quat_f_inv _ _ _ Hb) as (g & Hg & Fg).
  destruct Hs as (h & Hh & _).
  destruct (prod_dist lm f g p q Ff Fg HM) as [V D].
  pose proof (q_mul_new_pw a b f g Hf Hg) as P1. pose proof (q_mul_pw self a b h f g Hh Hf Hg) as P2.
  destruct (pointwise_vnew_ok _ _ _ V P1) as (v & E & Hv). destruct (pointwise_v_ok _ _ _ _ V P2) as (v' & E' & Hv').
  rewrite (vec4_eq _ _ _ Hv' Hv) in E'.
  exists v. eexists. split; [exact E|]. split; [exact E'|]. split; [apply quat_f_of; exact Hv|]. exact D.
Qed.

Lemma tiny_pos : 0 < tiny. Proof. apply bpow_gt_0. Qed.
(*@ C60_associative *)
(** C60: in f32 the product is associative up to 5 millionths of the product of the norms (norms up to 2^30) *)
Lemma l_assoc32 :
  forall (lm : Libm) (a b c : Vec (T (Arith := F32 lm))) (p q r : quat),
  quat_f a p -> quat_f b q -> quat_f c r ->
  qnorm p <= bpow radix2 30 -> qnorm q <= bpow radix2 30 -> qnorm r <= bpow radix2 30 ->
  exists ab bc v w x y, q_mul_new a b = Ok ab /\ q_mul_new ab c = Ok v /\ q_mul_new b c = Ok bc /\ q_mul_new a bc = Ok w /\
    quat_f v x /\ quat_f w y /\ qdist x y <= 5 / 1000000 * (qnorm p * qnorm q * qnorm r) + bpow radix2 (-100).
Proof.
  intros lm a b c p q r Ha Hb Hc Np Nq Nr.
  set (B := bpow radix2 30) in *.
  assert (B3 : B * B * B * 2 <= bpow radix2 120).
  { unfold B. change 2 with (bpow radix2 1). rewrite <- !bpow_plus. apply bpow_le. lia. }
  assert (B1 : 1 <= B). { unfold B. change 1 with (bpow radix2 0). apply bpow_le. lia. }
  assert (TB : 16 * (tiny * B) <= bpow radix2 (-100)).
  { unfold tiny, B. change 16 with (bpow radix2 4). rewrite <- !bpow_plus. apply bpow_le. lia. }
  pose proof tiny_pos as T0.
  assert (T1 : tiny <= / 16).
  { unfold tiny. apply Rle_trans with (bpow radix2 (-4)); [apply bpow_le; lia|cbn; lra]. }
  clearbody B. pose proof (qnorm_pos p) as Pp. pose proof (qnorm_pos q) as Pq. pose proof (qnorm_pos r) as Pr.
  set (P := qnorm p) in *. set (Q := qnorm q) in *. set (R := qnorm r) in *.
  assert (PQ : P * Q <= B * B) by (apply Rmult_le_compat; auto).
  assert (QR : Q * R <= B * B) by (apply Rmult_le_compat; auto).
  assert (BB : 1 <= B * B) by nra. assert (BBB : B * B <= B * B * B) by nra.
  assert (PQ0 : 0 <= P * Q) by nra. assert (QR0 : 0 <= Q * R) by nra.
  destruct (l_hamilton32 lm a b a p q p Ha Hb Ha ltac:(fold P Q; lra)) as (ab & x1 & Eab & _ & Hab & D1).
  destruct (l_hamilton32 lm b c b q r q Hb Hc Hb ltac:(fold Q R; lra)) as (bc & y1 & Ebc & _ & Hbc & D2).
  fold P Q in D1. fold Q R in D2.
  pose proof (qdist_norm x1 (qmul p q)) as N1. pose proof (qdist_norm y1 (qmul q r)) as N2.
  rewrite qnorm_mul in N1, N2. fold P Q in N1. fold Q R in N2.
  pose proof (qnorm_pos x1) as Px. pose proof (qnorm_pos y1) as Py.
  set (X1 := qnorm x1) in *. set (Y1 := qnorm y1) in *.
  assert (X1b : X1 <= P * Q * (1000001 / 1000000) + 2 * tiny) by lra.
  assert (Y1b : Y1 <= Q * R * (1000001 / 1000000) + 2 * tiny) by lra.
  assert (X1R : X1 * R <= P * Q * R * (1000001 / 1000000) + 2 * (tiny * B)).
  { apply Rle_trans with ((P * Q * (1000001 / 1000000) + 2 * tiny) * R); [apply Rmult_le_compat_r; auto|].
    assert (tiny * R <= tiny * B) by (apply Rmult_le_compat_l; lra). lra. }
  assert (PY1 : P * Y1 <= P * Q * R * (1000001 / 1000000) + 2 * (tiny * B)).
  { apply Rle_trans with (P * (Q * R * (1000001 / 1000000) + 2 * tiny)); [apply Rmult_le_compat_l; auto|].
    assert (tiny * P <= tiny * B) by (apply Rmult_le_compat_l; lra). lra. }
  assert (PQR : P * Q * R <= B * B * B) by (apply Rmult_le_compat; auto).
  assert (PQR0 : 0 <= P * Q * R) by (apply Rmult_le_pos; auto).
  assert (TB1 : tiny * B <= B / 16) by (apply Rle_trans with (/ 16 * B); [apply Rmult_le_compat_r; lra|lra]).
  destruct (l_hamilton32 lm ab c ab x1 r x1 Hab Hc Hab) as (v & x & Ev & _ & Hv & D3).
  { fold X1 R. nra. }
  destruct (l_hamilton32 lm a bc a p y1 p Ha Hbc Ha) as (w & y & Ew & _ & Hw & D4).
  { fold P Y1. nra. }
  fold X1 R in D3. fold P Y1 in D4.
  exists ab, bc, v, w, x, y. do 6 (split; [assumption|]).
  assert (E1 : qdist (qmul x1 r) (qmul (qmul p q) r) <= (/ 1000000 * (P * Q) + 2 * tiny) * R).
  { rewrite qdist_mul_r. fold R. apply Rmult_le_compat_r; auto. }
  assert (E2 : qdist (qmul p y1) (qmul (qmul p q) r) <= P * (/ 1000000 * (Q * R) + 2 * tiny)).
  { rewrite qmul_assoc, qdist_mul_l. fold P. apply Rmult_le_compat_l; auto. }
  pose proof (qdist_tri x (qmul x1 r) (qmul (qmul p q) r)) as T2.
  pose proof (qdist_tri y (qmul p y1) (qmul (qmul p q) r)) as T3.
  pose proof (qdist_tri x (qmul (qmul p q) r) y) as T4. rewrite (qdist_sym (qmul (qmul p q) r) y) in T4.
  assert (tiny * R <= tiny * B) by (apply Rmult_le_compat_l; lra).
  assert (P * tiny <= tiny * B) by (rewrite (Rmult_comm P); apply Rmult_le_compat_l; lra).
  assert (tiny <= tiny * B) by (rewrite <- (Rmult_1_r tiny) at 1; apply Rmult_le_compat_l; lra).
  lra.
Qed.

(*@ C60_associative_exact_refuted *)
(** C60, violation: it is not associative exactly; the real quaternions 0.1, 0.3 and 0.7 *)
Lemma l_assoc32_w :
  forall (lm : Libm), exists (a b c ab bc v w : Vec (T (Arith := F32 lm))),
  wfv a /\ wfv b /\ wfv c /\ q_mul_new a b = Ok ab /\ q_mul_new ab c = Ok v /\ q_mul_new b c = Ok bc /\
  q_mul_new a bc = Ok w /\ obs (v_get v 0) = Ok (S754_finite false 11274289 (-29)) /\
  obs (v_get w 0) = Ok (S754_finite false 11274290 (-29)).
Proof.
  intros lm. set (l (n : Z) := [lit32 n 10; lit32 0 1; lit32 0 1; lit32 0 1]).
  set (k n := mk_vec (A := F32 lm) (l n)).
  assert (W : forall n, (n = 1 \/ n = 3 \/ n = 7)%Z -> vec_is (A := F32 lm) (k n) 4 (fun i => nth i (l n) (B754_zero false))).
  { intros n Hn. apply (fvec_is lm (l n)); [cbn; lia|]. destruct Hn as [->|[->| ->]]; repeat constructor. }
  assert (P : forall a b f g, vec_is (A := F32 lm) a 4 f -> vec_is (A := F32 lm) b 4 g ->
    (forall i, (i < 4)%nat -> is_finite (prodf (A := F32 lm) f g i : f32) = true) ->
    exists v, q_mul_new a b = Ok v /\ vec_is (A := F32 lm) v 4 (prodf f g)).
  { intros a b f g Ha Hb V. apply (pointwise_vnew_ok _ _ _ (fun i Hi => proj2 (valid_finite lm _) (V i Hi)) (q_mul_new_pw a b f g Ha Hb)). }
  pose proof (W 1%Z ltac:(tauto)) as H1. pose proof (W 3%Z ltac:(tauto)) as H3. pose proof (W 7%Z ltac:(tauto)) as H7.
  destruct (P _ _ _ _ H1 H3) as (ab & Eab & Hab). { apply below4; vm_compute; reflexivity. }
  destruct (P _ _ _ _ H3 H7) as (bc & Ebc & Hbc). { apply below4; vm_compute; reflexivity. }
  destruct (P _ _ _ _ Hab H7) as (v & Ev & Hv). { apply below4; vm_compute; reflexivity. }
  destruct (P _ _ _ _ H1 Hbc) as (w & Ew & Hw). { apply below4; vm_compute; reflexivity. }
  exists (k 1%Z), (k 3%Z), (k 7%Z), ab, bc, v, w.
  split; [apply (vi_wf _ _ _ H1)|]. split; [apply (vi_wf _ _ _ H3)|]. split; [apply (vi_wf _ _ _ H7)|].
  do 4 (split; [assumption|]). rewrite (vi_get _ _ _ Hv), (vi_get _ _ _ Hw) by lia.
  split; vm_compute; reflexivity.
Qed.

(*@ C60_dot_nan_refuted *)
(** C60, violation: without the bound on the magnitudes the dot product of two finite vectors is reported as a success
    although it is NaN: (2^100, 2^100) . (2^100, -2^100), which is 0 *)
Lemma l_dot_nan :
  forall (lm : Libm), exists (v w : Vec (T (Arith := F32 lm))) (a b : nat -> R),
  vec_f v 2 a /\ vec_f w 2 b /\ rdot 2 a b = 0 /\ obs (v_dot_product v w) = Ok S754_nan.
Proof.
  intros lm. set (lv := map z32 [2 ^ 100; 2 ^ 100]%Z). set (lw := map z32 [2 ^ 100; - 2 ^ 100]%Z).
  assert (Hv := fvec_is lm lv ltac:(cbn; lia) ltac:(repeat constructor)).
  assert (Hw := fvec_is lm lw ltac:(cbn; lia) ltac:(repeat constructor)).
  exists (mk_vec (A := F32 lm) lv), (mk_vec (A := F32 lm) lw). do 2 eexists. split; [eexists; split; [exact Hv|]; intros; reflexivity|].
  split; [eexists; split; [exact Hw|]; intros; reflexivity|]. split; [|vm_compute; reflexivity].
  unfold rdot. cbn [Rsum nth lv lw map].
  assert (E : B2R (z32 (- 2 ^ 100)) = - B2R (z32 (2 ^ 100))).
  { replace (z32 (- 2 ^ 100)) with (Bopp (z32 (2 ^ 100))) by (apply B2SF_inj; vm_compute; reflexivity). apply B2R_Bopp. }
  rewrite E. ring.
Qed.

(*@ example *)
(** the hypotheses are met by the quaternions 1+2i+3j-4k and 2-i+j, whose product 1+7i+11j-3k is exact *)
Example C60_example :
  exists (a b : Vec (T (Arith := F32 lm_id))),
  quat_f a (Quat 1 2 3 (-4)) /\ quat_f b (Quat 2 (-1) 1 0) /\
  qnorm (Quat 1 2 3 (-4)) <= bpow radix2 30 /\ qnorm (Quat 2 (-1) 1 0) <= bpow radix2 30 /\
  rmap (fun v => map B2SF (v_elems v)) (q_mul_new a b) = Ok (map sf [1; 7; 11; -3]%Z).
Proof.
  exists (mk_vec (A := F32 lm_id) (map z32 [1; 2; 3; -4]%Z)), (mk_vec (A := F32 lm_id) (map z32 [2; -1; 1; 0]%Z)).
  split; [apply (fquat_z lm_id); lia|]. split; [apply (fquat_z lm_id); lia|].
  assert (B : 1000 <= bpow radix2 30). { apply Rle_trans with (bpow radix2 10); [cbn; lra|apply bpow_le; lia]. }
  assert (S : forall q, qnorm2 q <= 1000 * 1000 -> qnorm q <= bpow radix2 30).
  { intros q H. eapply Rle_trans; [|exact B]. rewrite <- (sqrt_square 1000) by lra. apply sqrt_le_1_alt. exact H. }
  split; [apply S; unfold qnorm2; cbn; lra|]. split; [apply S; unfold qnorm2; cbn; lra|].
  vm_compute. reflexivity.
Qed.
