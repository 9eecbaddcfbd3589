(** C23, C24, C25: rotation recognition, logarithm, adjugate, Lyapunov equation. *)
(*@+*)
From Coq Require Import List Arith ZArith Reals Lia Bool Lra SpecFloat.
From Flocq Require Import Core BinarySingleNaN.
From Verif Require Import M_Base M_Arith M_Utils M_Vector M_Matrix M_F32 M_RX
  S_Spec S_Linalg S_Compare S_Norm S_Lu S_Decomp P_Inst.
Import ListNotations.
Local Open Scope R_scope.
(*@-*)
From Verif Require Import P_Hoare P_Cont P_Loops P_Access P_Pointwise P_Trans P_Float P_Product P_Norm P_Dot P_Compare P_Diag P_Lup P_Det P_Lr P_Qr P_Chol P_Quat.

(** ** R R' against the identity *)
Lemma tti_rwp {A : Arith} {OK : ArithOk A} m r c f : mat_is m r c f ->
  rwp (m_times_transpose_is_identity m)
    (fun b => b = true <-> forall i j, (i < r)%nat -> (j < r)%nat ->
                within EPSILON (fsum c (fun t => f i t * f j t)%F) (if (i =? j)%nat then f1 else f0))
    (fun e => exists i j n u, (i < r)%nat /\ (j < r)%nat /\ (1 <= n <= c)%nat /\
                bad (fsum n (fun t => f i t * f j t)%F) = Some u /\ e = UtilsErr u) False.
Proof.
  intros Hm. destruct (mat_is_dim _ _ _ _ Hm) as [Dr Dc]. unfold m_times_transpose_is_identity. rewrite (mi_rows _ _ _ _ Hm).
  destruct (m_duplicate_ok m r c f Hm) as (d & -> & Hd). cbn [rbind].
  destruct (m_transpose_ok d r c f Hd) as (t & Et & Ht). unfold exec at 1. rewrite Et. cbn [rbind].
  destruct (m_init_new (A := A) r r Dr Dr) as (m0 & E0 & H0). rewrite (exec_step _ _ _ _ E0).
  pose proof (l_identity A _ m0 r r _ H0) as HI. rewrite Nat.eqb_refl in HI. destruct HI as (mi & Ei & Hi).
  unfold exec. rewrite Ei. cbn [rbind].
  pose proof (l_mul_new A _ m t r c c r _ _ Hm Ht) as HP. rewrite Nat.eqb_refl in HP.
  destruct HP as [(_ & p & -> & Hp)|(i & j & n & e & Hi' & Hj & Hn & Hb & ->)]; cbn [rbind].
  - destruct (l_m_equal A p mi r r r r _ _ EPSILON Hp Hi) as (b & -> & Hb). cbn [rwp]. rewrite Hb.
    split; [intros (_ & _ & H); exact H|auto].
  - cbn [rwp]. exists i, j, n, e. auto.
Qed.

(*@ C23_recognise *)
(** C23, for every arithmetic (binary32 included): a yes of [is_so_n] ([is_orthogonal]) means that the matrix is
    square, that the computed determinant (its magnitude) is within EPSILON of 1, and that every computed
    element of R R' is within EPSILON of the identity *)
Lemma l_recognise :
  forall (A : Arith) (OK : ArithOk A) (m : Mat T) (r c : nat) (f : nat -> nat -> T), mat_is m r c f ->
  (m_is_so_n m = Ok true -> r = c /\ (exists d, m_det m = Ok d /\ within EPSILON d f1) /\
     forall i j, (i < r)%nat -> (j < r)%nat ->
       within EPSILON (fsum r (fun t => f i t * f j t)%F) (if (i =? j)%nat then f1 else f0)) /\
  (m_is_orthogonal m = Ok true -> r = c /\ (exists d, m_det m = Ok d /\ within EPSILON (fabs d) f1) /\
     forall i j, (i < r)%nat -> (j < r)%nat ->
       within EPSILON (fsum r (fun t => f i t * f j t)%F) (if (i =? j)%nat then f1 else f0)).
Proof.
  intros A OK m r c f Hm. pose proof (tti_rwp m r c f Hm) as W.
  assert (Sq : forall d, m_det m = Ok d -> r = c).
  { intros d E. unfold m_det in E. rewrite (m_guard_square_is _ _ _ _ Hm) in E. destruct (Nat.eqb_spec r c); [auto|discriminate]. }
  assert (Cl : forall x, allclose_l x f1 EPSILON = Ok true -> within EPSILON x f1).
  { intros x. unfold allclose_l, allclose. destruct (is_valid_value x) as [[]|e|]; cbn; try discriminate.
    rewrite (is_valid_value_ok f1) by apply ok_f1. cbn. unfold within. congruence. }
  split; [unfold m_is_so_n|unfold m_is_orthogonal]; intros E.
  - destruct (m_det m) as [d|e|]; try discriminate. cbn [rbind] in E. specialize (Sq d eq_refl). subst c.
    destruct (allclose_l d f1 EPSILON) as [[|]|e|] eqn:Ec; try discriminate. cbn [rbind negb] in E. rewrite E in W.
    conjs; auto. { exists d. split; auto. } apply W. auto.
  - destruct (m_det m) as [d|e|]; try discriminate. cbn [rbind] in E. specialize (Sq d eq_refl). subst c.
    destruct (allclose_l (fabs d) f1 EPSILON) as [[|]|e|] eqn:Ec; try discriminate. cbn [rbind negb] in E. rewrite E in W.
    conjs; auto. { exists d. split; auto. } apply W. auto.
Qed.

Lemma tti_r m n a : mat_r m n n a -> decides (m_times_transpose_is_identity m)
  (forall i j, (i < n)%nat -> (j < n)%nat -> Rabs (rmul n a (rtr a) i j - rid i j) <= eps).
Proof.
  intros Hm. pose proof (tti_rwp m n n _ Hm) as W. destruct (m_times_transpose_is_identity m) as [b|e|]; cbn [rwp] in W; [| |tauto].
  - exists b. split; auto. rewrite W. split; intros H i j Hi Hj; specialize (H i j Hi Hj).
    + apply (within_RX (rmul n a (rtr a) i j) (rid i j)). unfold rmul, rtr, rid. rewrite <- fsum_RX.
      replace (Some (if (i =? j)%nat then 1 else 0)) with (if (i =? j)%nat then f1 (A := RX) else f0) by (rewrite f1_RX, f0_RX; destruct (i =? j)%nat; auto). exact H.
    + apply (within_RX (rmul n a (rtr a) i j) (rid i j)) in H. unfold rmul, rtr, rid in H. rewrite <- fsum_RX in H.
      replace (Some (if (i =? j)%nat then 1 else 0)) with (if (i =? j)%nat then f1 (A := RX) else f0) in H by (rewrite f1_RX, f0_RX; destruct (i =? j)%nat; auto). exact H.
  - exfalso. destruct W as (i & j & k & u & _ & _ & _ & B & _).
    pose proof (fsum_RX k (fun t => a i t * a j t)) as E.
    match type of B with bad ?x = _ => change x with (fsum (A := RX) k (fun t => Some (a i t * a j t))) in B end.
    rewrite E in B. discriminate.
Qed.

(*@ C23_real *)
(** C23 over exact reals, up to 3 x 3: when the determinant can be computed, [is_so_n] ([is_orthogonal]) says yes
    exactly when every element of R R' is within EPSILON of the identity and det R (its magnitude) of 1 *)
Lemma l_recognise_real :
  forall (m : Mat (T (Arith := RX))) (n : nat) (a : nat -> nat -> R), mat_r m n n a -> (n <= 3)%nat ->
  (exists lu p, lup m = Ok (lu, p)) ->
  decides (m_is_so_n m) (Rabs (rdet n a - 1) <= eps /\
    forall i j, (i < n)%nat -> (j < n)%nat -> Rabs (rmul n a (rtr a) i j - rid i j) <= eps) /\
  decides (m_is_orthogonal m) (Rabs (Rabs (rdet n a) - 1) <= eps /\
    forall i j, (i < n)%nat -> (j < n)%nat -> Rabs (rmul n a (rtr a) i j - rid i j) <= eps).
Proof.
  intros m n a Hm Hn (lu & p & El). destruct (l_det m n a Hm) as (H1 & _ & _).
  destruct (H1 lu p El) as (pi & _ & _ & E). destruct (Nat.eqb_spec n 4); [lia|]. cbn [andb] in E. rewrite Rmult_1_l in E.
  destruct (tti_r m n a Hm) as (b & Eb & Hb).
  assert (K : forall x (rest : res LinalgError bool), rest = Ok b ->
     decides (let? close := allclose_l (A := RX) (Some x) f1 EPSILON in if negb close then Ok false else rest)
       (Rabs (x - 1) <= eps /\ forall i j, (i < n)%nat -> (j < n)%nat -> Rabs (rmul n a (rtr a) i j - rid i j) <= eps)).
  { intros x rest ->. destruct (allclose_ok (A := RX) (Some x) f1 EPSILON (valid_RX x) ok_f1) as (cl & -> & Hc).
    rewrite f1_RX, within_RX in Hc. cbn [rbind]. destruct cl; cbn [negb].
    - exists b. split; auto. rewrite Hb. tauto.
    - exists false. split; auto. split; [discriminate|]. intros (H & _). apply Hc in H. discriminate. }
  unfold m_is_so_n, m_is_orthogonal. rewrite E. cbn [rbind fabs RX rx1]. split; apply K; auto.
Qed.

(*@ C23_complete *)
(** C23 over exact reals: a rotation up to 3 x 3 is never answered no *)
Lemma l_so_complete :
  forall (m : Mat (T (Arith := RX))) (n : nat) (a : nat -> nat -> R), mat_r m n n a -> (n <= 3)%nat ->
  req n n (rmul n a (rtr a)) rid -> rdet n a = 1 ->
  m_is_so_n m = Ok true \/ m_is_so_n m = Err Singular.
Proof.
  intros m n a Hm Hn Ho Hd. destruct (l_lup m n a Hm) as [(lu & p & _ & _ & El & _)|El].
  - left. destruct (l_recognise_real m n a Hm Hn) as ((b & -> & Hb) & _); [eauto|]. f_equal. apply Hb.
    pose proof eps_pos. rewrite Hd. split; [rewrite Rminus_diag_eq, Rabs_R0; lra|].
    intros i j Hi Hj. rewrite (Ho i j Hi Hj), Rminus_diag_eq, Rabs_R0; lra.
  - right. destruct (l_det m n a Hm) as (_ & H2 & _). unfold m_is_so_n. rewrite (H2 _ El). reflexivity.
Qed.

(*@ C23_rejected_refuted *)
(** C23, violation for every libm: the rotations by -90 degrees in the plane and about the z axis are exact in binary32,
    and both tests report Singular *)
Lemma l_so_w :
  exists m2 m3 : Mat f32, forall lm : Libm, wfm (A := F32 lm) m2 /\ wfm (A := F32 lm) m3 /\
  show_m m2 = (2%nat, 2%nat, true, map sf [0; 1; -1; 0]%Z) /\
  show_m m3 = (3%nat, 3%nat, true, map sf [0; 1; 0; -1; 0; 0; 0; 0; 1]%Z) /\
  m_is_so_n (A := F32 lm) m2 = Err Singular /\ m_is_orthogonal (A := F32 lm) m2 = Err Singular /\
  m_is_so_n (A := F32 lm) m3 = Err Singular /\ m_is_orthogonal (A := F32 lm) m3 = Err Singular.
Proof.
  exists (mk_mat (A := F32 lm_id) 2 2 (map z32 [0; 1; -1; 0]%Z)), (mk_mat (A := F32 lm_id) 3 3 (map z32 [0; 1; 0; -1; 0; 0; 0; 0; 1]%Z)).
  intros lm. split; [apply wfm_b_ok; vm_compute; reflexivity|]. split; [apply wfm_b_ok; vm_compute; reflexivity|].
  conjs; vm_compute; reflexivity.
Qed.

(*@ example *)
(** test: a yes and a no *)
Example C23_example :
  let A := F32 lm_id in
  let u := mk_mat 2 2 [lit32 3 5; lit32 (-4) 5; lit32 4 5; lit32 3 5] in
  let v := mk_mat 2 2 (map z32 [2; 1; 1; 1]%Z) in
  let w := mk_mat 2 2 [lit32 3 5; lit32 4 5; lit32 4 5; lit32 (-3) 5] in
  wfm u /\ m_is_so_n u = Ok true /\ m_is_so_n v = Ok false /\ m_is_so_n w = Ok false /\ m_is_orthogonal w = Ok true.
Proof. cbv zeta. split; [apply wfm_b_ok; vm_compute; reflexivity|]. split; [|split; [|split]]; vm_compute; reflexivity. Qed.

(** ** logarithm *)

Definition trace_r (n : nat) (a : nat -> nat -> R) : R := Rsum n (fun i => a i i).

Lemma scale_r m n f (x : rx) : mat_r m n n f ->
  match x with
  | Some v => exists m', m_mul_by_scalar_in_place (A := RX) x m = (m', Ok tt) /\ mat_r m' n n (fun i j => f i j * v)
  | None => exists m', m_mul_by_scalar_in_place (A := RX) x m = (m', Err (UtilsErr Nan)) /\ mat_r m' n n f
  end.
Proof.
  intros Hm. destruct (l_matrix_in_place RX m m n n _ _ Hm Hm x) as (_ & _ & _ & _ & P & _). destruct x as [v|].
  - destruct (fun V => pointwise_m_ok _ _ _ _ _ V P) as (m' & E & H); [|eauto].
    intros i j _ _. apply valid_RX.
  - destruct (mat_is_dim _ _ _ _ Hm) as [Dn _].
    destruct P as [(V & _)|(i & j & k & Hi & Hj & Hb & V & E & H)].
    + destruct (V 0%nat 0%nat ltac:(lia) ltac:(lia)); discriminate.
    + injection Hb as <-.
      assert (N : before 0 0 i j = false).
      { destruct (before 0 0 i j) eqn:B; auto. destruct (V 0%nat 0%nat ltac:(lia) ltac:(lia) B); discriminate. }
      destruct (m_mul_by_scalar_in_place (A := RX) None m) as [m' o]. cbn [fst snd] in *. subst o. exists m'. split; auto.
      eapply mat_is_ext; [exact H|]. intros a b Ha Hb. cbv beta.
      assert (i = 0%nat /\ j = 0%nat) as [-> ->].
      { unfold before in N. destruct i, j; cbn in N; try discriminate; auto. }
      destruct (before a b 0 0) eqn:B; auto. unfold before in B. destruct a, b; cbn in B; discriminate.
Qed.

(*@ C24_log *)
(** C24: once the determinant can be computed (whatever [is_so_n] answers: the answer is not used), [log] and
    [log_in_place] compute theta/(2 sin theta) (R - R') with cos theta = (trace - 1)/2 exactly when
    -1 < trace < 3, and fail with a NaN error otherwise, [log_in_place] then leaving R - R' behind *)
Lemma l_log :
  forall (m : Mat (T (Arith := RX))) (n : nat) (a : nat -> nat -> R) (b : bool), mat_r m n n a -> m_is_so_n m = Ok b ->
  let tr := Rsum n (fun i => a i i) in
  let theta := acos ((tr - 1) / 2) in
  (-1 < tr < 3 ->
     (exists ml, m_log m = Ok ml /\ mat_r ml n n (fun i j => theta / (2 * sin theta) * (a i j - a j i))) /\
     exists m', m_log_in_place m = (m', Ok tt) /\ mat_r m' n n (fun i j => theta / (2 * sin theta) * (a i j - a j i))) /\
  (tr <= -1 \/ 3 <= tr ->
     m_log m = Err (UtilsErr Nan) /\
     exists m', m_log_in_place m = (m', Err (UtilsErr Nan)) /\ mat_r m' n n (fun i j => a i j - a j i)).
Proof.
  intros m n a b Hm Eb tr theta.
  set (k := (fun x : T (Arith := RX) => facos ((x - f1) / f2) / (f2 * fsin (facos ((x - f1) / f2))))%F (Some tr)).
  assert (Et : m_trace m = Ok (Some tr)).
  { rewrite (l_trace RX m n n _ Hm), Nat.eqb_refl, fsum_RX. reflexivity. }
  destruct (m_duplicate_ok m n n _ Hm) as (d & Ed & Hd).
  destruct (m_transpose_ok d n n _ Hd) as (t & Et' & Ht).
  assert (HS : exists s, m_sub_new m t = Ok s /\ mat_r s n n (fun i j => a i j - a j i)).
  { destruct (l_matrix_new RX _ m t n n _ _ Hm Ht f0) as (_ & P & _).
    eapply pointwise_mnew_ok in P; [exact P|]. intros i j _ _. apply valid_RX. }
  destruct HS as (s & Es & Hs).
  assert (HS' : exists s, m_sub_in_place t m = (s, Ok tt) /\ mat_r s n n (fun i j => a i j - a j i)).
  { destruct (l_matrix_in_place RX m t n n _ _ Hm Ht f0) as (_ & P & _).
    destruct (fun V => pointwise_m_ok _ _ _ _ _ V P) as (m' & E & H); [|eauto].
    intros i j _ _. apply valid_RX. }
  destruct HS' as (s' & Es' & Hs').
  assert (E1 : m_log m = exec (m_mul_by_scalar_in_place k) s).
  { unfold m_log. rewrite Eb. cbn [rbind]. rewrite Et. cbn [rbind]. rewrite Ed. cbn [rbind]. unfold exec at 1. rewrite Et'. cbn [rbind].
    rewrite Es. cbn [rbind]. reflexivity. }
  assert (E2 : m_log_in_place m = m_mul_by_scalar_in_place k s').
  { unfold m_log_in_place, sbind, reads, lift. rewrite Eb, Et, Ed. unfold exec. rewrite Et', Es'. reflexivity. }
  assert (K : k = if Rlt_dec (-1) tr then if Rlt_dec tr 3 then Some (theta / (2 * sin theta)) else None else None).
  { unfold k. rewrite f1_RX, f2_RX. cbn [fsub fdiv RX rx2 rx_div]. rewrite Req_bool_false by lra. cbn [facos RX rx_acos].
    unfold in_unit. destruct (Rle_bool_spec (-1) ((tr - 1) / 2)) as [L|L], (Rle_bool_spec ((tr - 1) / 2) 1) as [U|U]; cbn [andb].
    2-4: destruct (Rlt_dec (-1) tr), (Rlt_dec tr 3); auto; exfalso; lra.
    fold theta. cbn [fsin RX rx1 fmul rx2 fdiv rx_div].
    assert (S2 : sin theta = sqrt (1 - Rsqr ((tr - 1) / 2))) by (apply sin_acos; lra).
    destruct (Rlt_dec (-1) tr) as [L'|L'], (Rlt_dec tr 3) as [U'|U'].
    2-4: assert (Z : sin theta = 0); [rewrite S2; unfold theta; assert (Q : 1 - Rsqr ((tr - 1) / 2) = 0); [unfold Rsqr; assert (tr = -1 \/ tr = 3) as [-> | ->] by lra; field|rewrite Q; apply sqrt_0]|rewrite Z, Rmult_0_r, Req_bool_true; auto].
    rewrite Req_bool_false; auto. apply Rmult_integral_contrapositive_currified; [lra|].
    rewrite S2. apply Rgt_not_eq, sqrt_lt_R0. unfold Rsqr. nra. }
  rewrite E1, E2. split.
  - intros [L U]. destruct (Rlt_dec (-1) tr); [|lra]. destruct (Rlt_dec tr 3); [|lra]. rewrite K. split.
    + destruct (scale_r s n _ (Some (theta / (2 * sin theta))) Hs) as (m' & E & H). unfold exec. rewrite E.
      eexists. split; [reflexivity|]. eapply mat_is_ext; [exact H|]. intros i j _ _. cbv beta. f_equal. ring.
    + destruct (scale_r s' n _ (Some (theta / (2 * sin theta))) Hs') as (m' & E & H). rewrite E.
      eexists. split; [reflexivity|]. eapply mat_is_ext; [exact H|]. intros i j _ _. cbv beta. f_equal. ring.
  - intros D. assert (K' : k = None) by (rewrite K; destruct (Rlt_dec (-1) tr), (Rlt_dec tr 3); auto; lra). rewrite K'. split.
    + destruct (scale_r s n _ None Hs) as (m' & E & H). unfold exec. rewrite E. reflexivity.
    + destruct (scale_r s' n _ None Hs') as (m' & E & H). rewrite E. eauto.
Qed.

(*@ C24_skew *)
(** C24: the logarithm, when there is one, is skew-symmetric *)
Lemma l_log_skew :
  forall (m ml : Mat (T (Arith := RX))) (n : nat) (a : nat -> nat -> R), mat_r m n n a -> m_log m = Ok ml ->
  exists l, mat_r ml n n l /\ forall i j, (i < n)%nat -> (j < n)%nat -> l i j = - l j i.
Proof.
  intros m ml n a Hm E. destruct (m_is_so_n m) as [b|e|] eqn:Eb.
  2,3: unfold m_log in E; rewrite Eb in E; discriminate.
  destruct (l_log m n a b Hm Eb) as (H1 & H2). set (tr := Rsum n (fun i => a i i)) in *.
  destruct (Rlt_dec (-1) tr) as [L|L]; [destruct (Rlt_dec tr 3) as [U|U]|].
  - destruct (H1 (conj L U)) as ((ml' & E' & H) & _). rewrite E' in E. injection E as <-. eexists. split; [exact H|].
    intros i j _ _. cbv beta. ring.
  - destruct (H2 ltac:(lra)) as (E' & _). congruence.
  - destruct (H2 ltac:(lra)) as (E' & _). congruence.
Qed.

(*@ C24_rodrigues *)
(** C24: on the rotation by t (0 < t < PI) about a unit axis u, [log] is t times the cross-product matrix of u,
    provided the determinant can be computed *)
Lemma l_log_rodrigues :
  forall (m : Mat (T (Arith := RX))) (t x y z : R) (b : bool), x * x + y * y + z * z = 1 -> 0 < t < PI ->
  mat_r m 3 3 (rodrigues t x y z) -> m_is_so_n m = Ok b ->
  exists ml, m_log m = Ok ml /\ mat_r ml 3 3 (fun i j => t * cross_m x y z i j).
Proof.
  intros m t x y z b Hu Ht Hm Eb. destruct (l_log m 3 _ b Hm Eb) as (H & _).
  assert (Tr : Rsum 3 (fun i => rodrigues t x y z i i) = 1 + 2 * cos t).
  { unfold rodrigues; cbn [Rsum nth Nat.add Nat.mul]. replace (z * z) with (1 - x * x - y * y) by lra. ring. }
  rewrite Tr in H.
  assert (C1 : cos t < 1). { rewrite <- cos_0. apply cos_decreasing_1; lra. }
  assert (C2 : -1 < cos t). { rewrite <- cos_PI. apply cos_decreasing_1; lra. }
  destruct (H ltac:(lra)) as ((ml & E & Hl) & _). exists ml. split; auto.
  replace ((1 + 2 * cos t - 1) / 2) with (cos t) in Hl by field. rewrite acos_cos in Hl by lra.
  pose proof (sin_gt_0 t (proj1 Ht) (proj2 Ht)) as Sp.
  eapply mat_is_ext; [exact Hl|]. intros i j Hi Hj. cbv beta. f_equal.
  destruct i as [|[|[|i]]]; [| | |lia]; (destruct j as [|[|[|j]]]; [| | |lia]); unfold rodrigues, cross_m; cbn [nth Nat.add Nat.mul]; field; lra.
Qed.

(*@ C24_plane_refuted *)
(** C24, violation: the plane rotation by PI/3 has logarithm +-PI/3 off the diagonal; [log] succeeds with
    PI sqrt 3 / 4 (30 percent more) because it uses the trace formula of dimension 3 *)
Lemma l_log_plane :
  exists m ml : Mat (T (Arith := RX)), exists l, mat_r m 2 2 (fun i j => nth (i * 2 + j) [cos (PI / 3); - sin (PI / 3); sin (PI / 3); cos (PI / 3)] 0) /\
  m_log m = Ok ml /\ mat_r ml 2 2 l /\ l 1%nat 0%nat = PI * sqrt 3 / 4 /\ l 1%nat 0%nat <> PI / 3.
Proof.
  set (L := [cos (PI / 3); - sin (PI / 3); sin (PI / 3); cos (PI / 3)]). exists (rmat 2 2 L).
  assert (Hm : mat_r (rmat 2 2 L) 2 2 (fun i j => nth (i * 2 + j) L 0)) by (apply rmat_is; cbn; lia).
  set (m := rmat 2 2 L) in *. clearbody m. set (a := fun i j : nat => nth (i * 2 + j) L 0) in *.
  assert (S3 : 1 < sqrt 3). { rewrite <- sqrt_1. apply sqrt_lt_1; lra. }
  assert (E9 : eps <= 1 / 2). { unfold eps. lra. }
  assert (El : exists lu p, lup m = Ok (lu, p)).
  { apply (l_lup_2 m a Hm).
    - unfold a, L. cbn [nth Nat.add Nat.mul]. rewrite cos_PI3, Rabs_right; lra.
    - unfold a, L. cbn [nth Nat.add Nat.mul]. rewrite sin_PI3, Rabs_right; lra. }
  destruct (l_recognise_real m 2 a Hm ltac:(lia) El) as ((b & Eb & _) & _).
  destruct (l_log m 2 a b Hm Eb) as (H & _).
  assert (Tr : Rsum 2 (fun i => a i i) = 1). { unfold a, L. cbn [Rsum nth Nat.add Nat.mul]. rewrite cos_PI3. field. }
  rewrite Tr in H. destruct (H ltac:(lra)) as ((ml & E & Hl) & _). exists ml. eexists. split; [exact Hm|]. split; [exact E|]. split; [exact Hl|].
  cbv beta. replace ((1 - 1) / 2) with (cos (PI / 2)) by (rewrite cos_PI2; field).
  assert (PI > 0) by (apply PI_RGT_0). rewrite acos_cos by lra. rewrite sin_PI2. unfold a, L. cbn [nth Nat.add Nat.mul]. rewrite sin_PI3.
  split; [field|]. intros Q. assert (sqrt 3 = 4 / 3). { apply Rmult_eq_reg_l with PI; [|lra]. lra. }
  assert (sqrt 3 * sqrt 3 = 3) by (apply sqrt_sqrt; lra). nra.
Qed.

(*@ C24_identity *)
(** C24, violation: the logarithm of the 3 x 3 identity is zero, yet in binary32 [log] fails with a NaN error,
    for every libm with acos 1 = 0 and sin 0 = 0 *)
Lemma l_log_identity :
  forall lm : Libm, lm_acos lm (z32 1) = B754_zero false -> lm_sin lm (B754_zero false) = B754_zero false ->
  let m := mk_mat (A := F32 lm) 3 3 (map z32 [1; 0; 0; 0; 1; 0; 0; 0; 1]%Z) in
  wfm (A := F32 lm) m /\ m_is_so_n (A := F32 lm) m = Ok true /\ m_log (A := F32 lm) m = Err (UtilsErr Nan).
Proof.
  intros lm Ha Hs m. assert (Eb : m_is_so_n (A := F32 lm) m = Ok true) by (vm_compute; reflexivity).
  split; [apply wfm_b_ok; vm_compute; reflexivity|]. split; auto.
  unfold m_log. rewrite Eb. cbn [rbind].
  assert (Et : rmap B2SF (m_trace (A := F32 lm) m) = Ok (sf 3)) by (vm_compute; reflexivity).
  assert (Et' : exists tr, m_trace (A := F32 lm) m = Ok tr /\ B2SF tr = sf 3).
  { revert Et. generalize (sf 3). intros x Et. destruct (m_trace (A := F32 lm) m) as [tr|e|]; [|discriminate|discriminate].
    exists tr. split; [reflexivity|cbn [rmap] in Et; congruence]. }
  destruct Et' as (tr & -> & Et'). cbn [rbind].
  assert (tr = z32 3) as -> by (apply B2SF_inj; exact Et').
  assert (A1 : facos (Arith := F32 lm) (fdiv (Arith := F32 lm) (fsub (Arith := F32 lm) (z32 3) (f1 (A := F32 lm))) (f2 (A := F32 lm))) = B754_zero false).
  { cbn [facos F32]. rewrite <- Ha. f_equal. apply B2SF_inj. vm_compute. reflexivity. }
  rewrite A1. cbn [fsin F32]. rewrite Hs.
  set (k := (_ / _)%F). assert (Hk : k = B754_nan) by (apply B2SF_inj; vm_compute; reflexivity). rewrite Hk. clear.
  vm_compute. reflexivity.
Qed.

(*@ example *)
(** test: C24_rodrigues applies to a quarter turn about x whose recognition succeeds *)
Example C24_example :
  let A := F32 lm_id in
  let m := mk_mat 3 3 (map z32 [1; 0; 0; 0; 0; -1; 0; 1; 0]%Z) in
  wfm m /\ m_is_so_n m = Ok true /\ 1 * 1 + 0 * 0 + 0 * 0 = 1 /\ 0 < PI / 2 < PI /\
  (forall i j, (i < 3)%nat -> (j < 3)%nat -> rodrigues (PI / 2) 1 0 0 i j = nth (i * 3 + j) [1; 0; 0; 0; 0; -1; 0; 1; 0] 0).
Proof.
  cbv zeta. split; [apply wfm_b_ok; vm_compute; reflexivity|]. split; [vm_compute; reflexivity|]. split; [ring|].
  pose proof PI_RGT_0. split; [lra|]. intros i j Hi Hj. unfold rodrigues. rewrite cos_PI2, sin_PI2.
  destruct i as [|[|[|i]]]; [| | |lia]; (destruct j as [|[|[|j]]]; [| | |lia]); cbn [nth Nat.add Nat.mul]; ring.
Qed.

(** ** adjugate *)
(*@ C25_adjugate *)
(** C25: [adjugate_in_place] is R' times the computed determinant; on an orthogonal matrix up to 3 x 3 this satisfies
    R adj(R) = det(R) I *)
Lemma l_adjugate :
  forall (m : Mat (T (Arith := RX))) (n : nat) (a : nat -> nat -> R) (b : bool) (d : R), mat_r m n n a ->
  m_is_so_n m = Ok b -> m_det m = Ok (Some d) ->
  exists m', m_adjugate_in_place m = (m', Ok tt) /\ mat_r m' n n (fun i j => d * a j i) /\
  (req n n (rmul n a (rtr a)) rid ->
     forall i j, (i < n)%nat -> (j < n)%nat -> rmul n a (fun i j => d * a j i) i j = d * rid i j) /\
  ((n <= 3)%nat -> d = rdet n a).
Proof.
  intros m n a b d Hm Eb Ed.
  destruct (m_transpose_ok m n n _ Hm) as (t & Et & Ht).
  destruct (scale_r t n _ (Some d) Ht) as (m' & E & H). exists m'. conjs.
  - unfold m_adjugate_in_place, sbind, reads. rewrite Eb, Ed, Et. exact E.
  - eapply mat_is_ext; [exact H|]. intros i j _ _. cbv beta. f_equal. ring.
  - intros Ho i j Hi Hj. rewrite <- (Ho i j Hi Hj). unfold rmul, rtr. rewrite <- Rsum_scal. apply Rsum_ext. intros; ring.
  - intros Hn. pose proof (l_det_small m n a (Some d) Hm Hn Ed) as Q. congruence.
Qed.

(*@ C25_adjugate_refuted *)
(** C25, violation for every libm: diag(2,1) has adjugate diag(1,2); [adjugate_in_place] succeeds with diag(4,2) *)
Lemma l_adjugate_w :
  exists m : Mat f32, forall lm : Libm, wfm (A := F32 lm) m /\ show_m m = (2%nat, 2%nat, true, map sf [2; 0; 0; 1]%Z) /\
  rmap show_m (exec (m_adjugate_in_place (A := F32 lm)) m) = Ok (2%nat, 2%nat, true, map sf [4; 0; 0; 2]%Z).
Proof.
  exists (mk_mat (A := F32 lm_id) 2 2 (map z32 [2; 0; 0; 1]%Z)). intros lm. split; [|split].
  - apply wfm_b_ok. vm_compute. reflexivity.
  - vm_compute. reflexivity.
  - vm_compute. reflexivity.
Qed.

(*@ C25_dlyap *)
(** C25, violation for every arithmetic: whatever A and Q, a successful [dlyap] returns the zero matrix *)
Lemma l_dlyap :
  forall (A : Arith) (OK : ArithOk A) (ma mq mp : Mat T) (r c rq cq : nat) (f g : nat -> nat -> T),
  mat_is ma r c f -> mat_is mq rq cq g -> m_dlyap ma mq = Ok mp -> r = c /\ rq = r /\ cq = r /\ mat_is mp r r (fun _ _ => f0).
Proof.
  intros A OK ma mq mp r c rq cq f g Ha Hq E. destruct (mat_is_dim _ _ _ _ Ha) as [Dr Dc]. unfold m_dlyap in E. rewrite (m_guard_square_is _ _ _ _ Ha) in E.
  destruct (Nat.eqb_spec r c) as [<-|N]; [|discriminate]. cbn [rbind] in E.
  destruct (m_is_positive_definite mq) as [[|]|e|]; try discriminate. cbn [rbind negb] in E.
  rewrite (m_same_ok _ _ _ _ _ _ _ _ Ha Hq) in E. cbn [rbind] in E.
  destruct (Nat.eqb_spec r rq) as [<-|N1]; [|discriminate]. destruct (Nat.eqb_spec r cq) as [<-|N2]; [|discriminate]. cbn [andb negb] in E.
  rewrite (mi_rows _ _ _ _ Ha), (mi_cols _ _ _ _ Ha) in E. destruct (m_init_new (A := A) r r Dr Dr) as (m0 & E0 & H0).
  unfold exec in E. rewrite E0 in E. injection E as <-. auto.
Qed.

(*@ C25_dlyap_unsolved *)
(** C25, violation over exact reals: the result P of a successful [dlyap A Q] satisfies A P A' - P + Q = 0 exactly when Q = 0 *)
Lemma l_dlyap_unsolved :
  forall (ma mq mp : Mat (T (Arith := RX))) (n : nat) (a q : nat -> nat -> R), mat_r ma n n a -> mat_r mq n n q -> m_dlyap ma mq = Ok mp ->
  exists p, mat_r mp n n p /\
    (req n n (fun i j => rmul n (rmul n a p) (rtr a) i j - p i j + q i j) (fun _ _ => 0) <-> req n n q (fun _ _ => 0)).
Proof.
  intros ma mq mp n a q Ha Hq E. destruct (l_dlyap RX _ ma mq mp n n n n _ _ Ha Hq E) as (_ & _ & _ & H).
  exists (fun _ _ => 0). split; [eapply mat_is_ext; [exact H|]; intros; rewrite f0_RX; auto|].
  assert (Z : forall i j, rmul n (rmul n a (fun _ _ => 0)) (rtr a) i j = 0).
  { intros. unfold rmul at 1. apply Rsum_0. intros k Hk. unfold rmul. rewrite (Rsum_0 n (fun t => a i t * 0)) by (intros; ring). ring. }
  split; intros HH i j Hi Hj; specialize (HH i j Hi Hj); cbv beta in *; rewrite ?Z in *; lra.
Qed.

(*@ example *)
(** test: [dlyap] succeeds on A = Q = identity, so the violation is not vacuous *)
Example C25_example :
  let A := F32 lm_id in
  let m := mk_mat 2 2 (map z32 [1; 0; 0; 1]%Z) in
  wfm m /\ rmap show_m (m_dlyap m m) = Ok (2%nat, 2%nat, true, map sf [0; 0; 0; 0]%Z) /\
  m_is_so_n m = Ok true /\ rmap B2SF (m_det m) = Ok (sf 1) /\
  rmap show_m (exec m_adjugate_in_place m) = Ok (2%nat, 2%nat, true, map sf [1; 0; 0; 1]%Z).
Proof. cbv zeta. split; [apply wfm_b_ok; vm_compute; reflexivity|]. split; [|split; [|split]]; vm_compute; reflexivity. Qed.
