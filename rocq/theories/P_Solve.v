(** C15, C16: linear solve and inverse. *)
(*@+*)
From Coq Require Import List Arith ZArith Reals Lia Bool Lra.
From Flocq Require Import Core BinarySingleNaN.
From Verif Require Import M_Base M_Arith M_Utils M_Vector M_Matrix M_F32 M_RX
  S_Spec S_Linalg S_Norm S_Lu P_Inst.
Import ListNotations.
Local Open Scope R_scope.
(*@-*)
From Verif Require Import P_Hoare P_Cont P_Loops P_Access P_Pointwise P_Trans P_Float P_Product P_Norm P_Lup P_Uninit.

(** the step [x.set(row, x[row] - lu[p[row]][col] * x[col])] *)
Definition sub_step (mat : Mat (T (Arith := RX))) (p : Vec nat) (row col : nat) : ST (Vec (T (Arith := RX))) LinalgError unit :=
  let! xr := reads (fun x => v_get x row) in
  let! i := lift (v_get p row) in
  let! a := lift (m_get mat i col) in
  let! xc := reads (fun x => v_get x col) in
  v_set row (xr - a * xc)%F.

Lemma solve_unfold mat b p : solve (A := RX) mat b p =
  (let? _ := m_guard_square mat in
   let? n := m_get_rows mat in
   exec (
      v_init n ;;!
      for_ (range 0 n) (fun row =>
        let! i := lift (v_get p row) in
        let! bi := lift (v_get b i) in
        v_set row bi ;;!
        for_ (range 0 row) (sub_step mat p row)) ;;!
      for_ (rev (range 0 n)) (fun row =>
        for_ (range (row + 1) n) (sub_step mat p row) ;;!
        let! i := lift (v_get p row) in
        let! d := lift (m_get mat i row) in
        if (fabs d >? EPSILON)%F then
          let! xr := reads (fun x => v_get x row) in
          v_set row (xr / d)%F
        else sthrow Unsolvable)) vnew).
Proof. reflexivity. Qed.

Lemma vec_r_ext v n x y : vec_r v n x -> (forall i, (i < n)%nat -> x i = y i) -> vec_r v n y.
Proof. intros H E. eapply vec_is_ext; [exact H|]. intros i Hi. cbv beta. f_equal. auto. Qed.
Lemma wp_v_set_r v n x i y (Q : unit -> Vec (T (Arith := RX)) -> Prop) (X : LinalgError -> Vec (T (Arith := RX)) -> Prop) (P : Prop) :
  vec_r v n x -> (i < n)%nat ->
  (forall v', vec_r v' n (fun k => if (k =? i)%nat then y else x k) -> Q tt v') -> wp (v_set (A := RX) i (Some y)) v Q X P.
Proof.
  intros Hv Hi HQ. eapply wp_v_set; [exact Hv|auto| |].
  - intros _ v' H'. apply HQ. eapply vec_is_ext; [exact H'|]. intros k Hk. cbv beta. unfold fupd1. destruct (k =? i)%nat; auto.
  - intros k Hb. discriminate.
Qed.

Section Solve.
  Variables (n : nat) (mt : Mat (T (Arith := RX))) (f : nat -> nat -> R) (p : Vec nat) (pi : nat -> nat).
  Hypothesis (Hm : mat_r mt n n f) (Hp : idx_is p n pi) (Pp : perm n pi).
  Let B i j := f (pi i) j.

  Lemma sub_step_wp v x row col (Q : unit -> Vec (T (Arith := RX)) -> Prop) (X : LinalgError -> Vec (T (Arith := RX)) -> Prop) (P : Prop) :
    vec_r v n x -> (row < n)%nat -> (col < n)%nat ->
    (forall v', vec_r v' n (fun k => if (k =? row)%nat then x row - B row col * x col else x k) -> Q tt v') ->
    wp (sub_step mt p row col) v Q X P.
  Proof.
    intros Hv Hr Hc HQ. unfold sub_step.
    apply wp_bind, wp_reads. rewrite (vi_get _ _ _ Hv) by auto. cbn [rwp].
    apply wp_bind, wp_lift. rewrite (ix_get _ _ _ Hp) by auto. cbn [rwp].
    apply wp_bind, wp_lift. rewrite (mi_get _ _ _ _ Hm) by (auto; apply Pp; auto). cbn [rwp].
    apply wp_bind, wp_reads. rewrite (vi_get _ _ _ Hv) by auto. cbn [rwp fsub fmul RX rx2].
    eapply wp_v_set_r; eauto.
  Qed.

  Lemma solve_rwp b bv : vec_r b n bv ->
    rwp (solve mt b p)
      (fun v => (forall i, (i < n)%nat -> eps < Rabs (B i i)) /\ exists x y, vec_r v n x /\
         (forall i, (i < n)%nat -> y i + Rsum i (fun t => B i t * y t) = bv (pi i)) /\
         (forall i, (i < n)%nat -> Rsum n (fun t => upp B i t * x t) = y i))
      (fun e => e = Unsolvable /\ exists i, (i < n)%nat /\ Rabs (B i i) <= eps) False.
  Proof.
    intros Hb. destruct (mat_is_dim _ _ _ _ Hm) as [Dn _].
    rewrite solve_unfold. rewrite (m_guard_square_is _ _ _ _ Hm), Nat.eqb_refl. cbn [rbind].
    unfold m_get_rows. rewrite (mi_init _ _ _ _ Hm), (mi_rows _ _ _ _ Hm). cbn [negb rbind].
    apply wp_exec, wp_bind, wp_v_init; [exact Dn|]. intros v0 H0.
    apply wp_bind.
    (* forward substitution *)
    apply wp_for with (I := fun r v => exists x, vec_r v n x /\
      forall i, (i < r)%nat -> x i + Rsum i (fun t => B i t * x t) = bv (pi i)).
    { exists (fun _ => 0). split; [eapply vec_is_ext; [exact H0|]; intros; apply f0_RX|]. intros; lia. }
    { intros r v Hr (x & Hx & E).
      apply wp_bind, wp_lift. rewrite (ix_get _ _ _ Hp) by lia. cbn [rwp].
      apply wp_bind, wp_lift. rewrite (vi_get _ _ _ Hb) by (apply Pp; lia). cbn [rwp].
      apply wp_bind. eapply wp_v_set_r; [exact Hx|lia|]. intros v1 H1.
      apply wp_for with (I := fun c v => vec_r v n (fun k => if (k =? r)%nat then bv (pi r) - Rsum c (fun t => B r t * x t) else x k)).
      - eapply vec_r_ext; [exact H1|]. intros i Hi. cbn [Rsum]. destruct (i =? r)%nat; auto. ring.
      - intros c v2 Hc H2. eapply sub_step_wp; [exact H2|lia|lia|]. intros v3 H3.
        eapply vec_r_ext; [exact H3|]. intros i Hi. cbv beta. rewrite Nat.eqb_refl. cbn [Rsum].
        destruct (Nat.eqb_spec c r); [lia|]. destruct (i =? r)%nat; auto. ring.
      - intros v2 H2. rewrite Nat.max_0_l in H2. eexists. split; [exact H2|]. intros i Hi. cbv beta.
        assert (S : forall k, (k <= r)%nat -> Rsum k (fun t => B i t * (if (t =? r)%nat then bv (pi r) - Rsum r (fun t0 => B r t0 * x t0) else x t))
                   = Rsum k (fun t => B i t * x t)).
        { intros k Hk. apply Rsum_ext. intros t Ht. destruct (Nat.eqb_spec t r); [lia|auto]. }
        destruct (Nat.eqb_spec i r) as [->|Ne].
        + rewrite S by lia. ring.
        + rewrite S by lia. apply E. lia. }
    intros v1 (y & Hy & Ey). rewrite Nat.max_0_l in Ey.
    (* back substitution *)
    apply wp_for_rev with (I := fun r v => exists x, vec_r v n x /\ (forall i, (i < r)%nat -> x i = y i) /\
      (forall i, (r <= i < n)%nat -> eps < Rabs (B i i)) /\
      (forall i, (r <= i < n)%nat -> B i i * x i + Rsum n (fun t => if (i <? t)%nat then B i t * x t else 0) = y i)).
    { exists y. rewrite Nat.max_0_l. conjs; auto; intros; lia. }
    { intros r v Hr (x & Hx & E1 & E2 & E3). apply wp_bind.
      apply wp_for with (I := fun c v => exists x', vec_r v n x' /\ (forall i, i <> r -> (i < n)%nat -> x' i = x i) /\
         x' r = y r - Rsum c (fun t => if (r <? t)%nat then B r t * x t else 0)).
      - exists x. conjs; auto. rewrite (Rsum_0 (r + 1)); [rewrite E1 by lia; ring|].
        intros t Ht. destruct (Nat.ltb_spec r t); [lia|auto].
      - intros c v2 Hc (x' & H2 & Ex & Er). eapply sub_step_wp; [exact H2|lia|lia|]. intros v3 H3.
        eexists. split; [exact H3|]. cbv beta. rewrite Nat.eqb_refl. split.
        + intros i Hi Hi'. destruct (Nat.eqb_spec i r); [lia|]. auto.
        + rewrite Er. cbn [Rsum]. destruct (Nat.ltb_spec r c); [|lia]. rewrite (Ex c) by lia. ring.
      - intros v2 (x' & H2 & Ex & Er). replace (Nat.max (r + 1) n) with n in Er by lia.
        apply wp_bind, wp_lift. rewrite (ix_get _ _ _ Hp) by lia. cbn [rwp].
        apply wp_bind, wp_lift. rewrite (mi_get _ _ _ _ Hm) by (try apply Pp; lia). cbn [rwp].
        change (fabs (Arith := RX) (Some (f (pi r) r))) with (Some (Rabs (B r r))). rewrite eps_RX.
        cbn [fltb RX rxcmp].
        destruct (Rlt_bool_spec eps (Rabs (B r r))) as [L|L].
        2:{ apply wp_sthrow. split; auto. exists r. split; [lia|]. exact L. }
        apply wp_bind, wp_reads. rewrite (vi_get _ _ _ H2) by lia. cbn [rwp fdiv RX rx_div].
        assert (Nz : B r r <> 0). { intros Z. rewrite Z, Rabs_R0 in L. pose proof eps_pos. lra. }
        change (f (pi r) r) with (B r r). rewrite Req_bool_false by auto.
        eapply wp_v_set_r; [exact H2|lia|]. intros v3 H3. eexists. split; [exact H3|]. cbv beta. conjs.
        + intros i Hi. destruct (Nat.eqb_spec i r); [lia|]. rewrite Ex by lia. apply E1. lia.
        + intros i Hi. destruct (Nat.eq_dec i r) as [->|]; auto. apply E2. lia.
        + intros i Hi.
          assert (S : Rsum n (fun t => if (i <? t)%nat then B i t * (if (t =? r)%nat then x' r / B r r else x' t) else 0)
                      = Rsum n (fun t => if (i <? t)%nat then B i t * x t else 0)).
          { apply Rsum_ext. intros t Ht. destruct (Nat.ltb_spec i t); auto. destruct (Nat.eqb_spec t r); [lia|]. rewrite Ex by lia. auto. }
          rewrite S. destruct (Nat.eqb_spec i r) as [->|].
          * rewrite Er. field. auto.
          * rewrite Ex by lia. apply E3. lia. }
    intros v (x & Hx & _ & E2 & E3). split; [intros i Hi; apply E2; lia|]. exists x, y. split; [exact Hx|]. split; [exact Ey|].
    intros i Hi. rewrite <- (E3 i) by lia. rewrite (Rsum_split n i) by auto.
    rewrite (Rsum_0 i). 2:{ intros t Ht. unfold upp. destruct (Nat.leb_spec i t); [lia|ring]. }
    unfold upp at 1. rewrite Nat.leb_refl, Rplus_0_l. f_equal. apply Rsum_ext. intros t Ht.
    unfold upp. destruct (Nat.ltb_spec i t), (Nat.leb_spec i t); auto; lia.
  Qed.
End Solve.

(** LU y = b through the factors *)
Lemma lu_solve n a f pi x y bv : lu_of n a f pi ->
  (forall i, (i < n)%nat -> y i + Rsum i (fun t => f (pi i) t * y t) = bv (pi i)) ->
  (forall i, (i < n)%nat -> Rsum n (fun t => upp (fun a b => f (pi a) b) i t * x t) = y i) ->
  forall i, (i < n)%nat -> rmv n a x i = bv i.
Proof.
  intros [P E V] Hy Hx i Hi. destruct (perm_onto n pi P i Hi) as (k & Hk & <-).
  rewrite <- Hy by auto. rewrite <- (Rsum_low n (fun a b => f (pi a) b)) by auto.
  unfold rmv. set (L := ulow _). set (U := upp _) in *.
  rewrite (Rsum_ext n _ (fun j => Rsum n (fun t => L k t * U t j * x j))).
  2:{ intros j Hj. rewrite E by auto. unfold rmul. rewrite <- Rsum_scal_r. reflexivity. }
  rewrite Rsum_swap. apply Rsum_ext. intros t Ht. rewrite <- Hx by auto. rewrite <- Rsum_scal.
  apply Rsum_ext. intros j Hj. ring.
Qed.
(** the matrix is injective when all pivots are non-zero *)
Lemma low_inj n f z : (forall i, (i < n)%nat -> z i + Rsum i (fun t => f i t * z t) = 0) -> forall i, (i < n)%nat -> z i = 0.
Proof.
  intros H i. induction i as [i IH] using lt_wf_ind. intros Hi. specialize (H i Hi).
  rewrite Rsum_0 in H; [lra|]. intros t Ht. rewrite IH by lia. ring.
Qed.
Lemma upp_inj n f x : (forall i, (i < n)%nat -> f i i <> 0) -> (forall i, (i < n)%nat -> Rsum n (fun t => upp f i t * x t) = 0) ->
  forall i, (i < n)%nat -> x i = 0.
Proof.
  intros Nz H i Hi. remember (n - i)%nat as k eqn:Hk. revert i Hi Hk. induction k as [k IH] using lt_wf_ind. intros i Hi Hk.
  specialize (H i Hi). rewrite (Rsum_split n i) in H by auto.
  rewrite (Rsum_0 i) in H. 2:{ intros t Ht. unfold upp. destruct (Nat.leb_spec i t); [lia|ring]. }
  rewrite (Rsum_0 n) in H.
  2:{ intros t Ht. destruct (Nat.ltb_spec i t); auto. rewrite (IH (n - t)%nat) by lia. ring. }
  unfold upp in H. rewrite Nat.leb_refl in H.
  assert (f i i * x i = 0) by lra. apply Rmult_integral in H0. destruct H0; auto. exfalso. apply (Nz i Hi). auto.
Qed.
Lemma lu_inj n a f pi x : lu_of n a f pi -> (forall i, (i < n)%nat -> f (pi i) i <> 0) ->
  (forall i, (i < n)%nat -> rmv n a x i = 0) -> forall i, (i < n)%nat -> x i = 0.
Proof.
  intros [P E V] Nz H. apply (upp_inj n (fun a b => f (pi a) b)); auto.
  apply (low_inj n (fun a b => f (pi a) b)). intros i Hi.
  set (U := upp _) in *. rewrite <- (Rsum_low n (fun a b => f (pi a) b) (fun i => Rsum n (fun t => U i t * x t))) by auto.
  rewrite <- (H (pi i)) by (apply P; auto). unfold rmv. set (L := ulow _) in *.
  rewrite (Rsum_ext n (fun t => a (pi i) t * x t) (fun j => Rsum n (fun t => L i t * U t j * x j))).
  2:{ intros j Hj. rewrite E by auto. unfold rmul. rewrite <- Rsum_scal_r. reflexivity. }
  rewrite Rsum_swap. apply Rsum_ext. intros t Ht. rewrite <- Rsum_scal.
  apply Rsum_ext. intros j Hj. ring.
Qed.
Lemma piv_nz x : eps < Rabs x -> x <> 0.
Proof. intros H ->. rewrite Rabs_R0 in H. pose proof eps_pos. lra. Qed.

(*@ C15_solve *)
(** C15: after a successful [lup], [solve] either finds x with A x = b or reports Unsolvable, and the latter
    happens exactly when some pivot is within EPSILON of zero *)
Lemma l_solve :
  forall (m lu : Mat (T (Arith := RX))) (p : Vec nat) (b : Vec (T (Arith := RX))) (n : nat) (a : nat -> nat -> R) (bv : nat -> R),
  mat_r m n n a -> vec_r b n bv -> lup m = Ok (lu, p) ->
  exists f pi, mat_r lu n n f /\ idx_is p n pi /\
  ((exists v x, solve lu b p = Ok v /\ vec_r v n x /\ (forall i, (i < n)%nat -> rmv n a x i = bv i) /\
      (forall i, (i < n)%nat -> eps < Rabs (f (pi i) i)))
   \/ (solve lu b p = Err Unsolvable /\ exists i, (i < n)%nat /\ Rabs (f (pi i) i) <= eps)).
Proof.
  intros m lu p b n a bv Hm Hb E. pose proof (lup_rwp m n a Hm) as W. rewrite E in W. cbn in W.
  destruct W as (f & pi & H1 & H2 & H3). exists f, pi. split; auto. split; auto.
  pose proof (solve_rwp n lu f p pi H1 H2 (lu_perm _ _ _ _ H3) b bv Hb) as S.
  destruct (solve lu b p) as [v|e|]; cbn in S.
  - left. destruct S as (Piv & x & y & Hx & Ey & Ex). exists v, x. conjs; auto. eapply lu_solve; eauto.
  - right. destruct S as (-> & i & Hi & L). eauto.
  - tauto.
Qed.

(*@ C15_unique *)
(** C15: the solution found is the only one *)
Lemma l_solve_unique :
  forall (m lu : Mat (T (Arith := RX))) (p : Vec nat) (b v : Vec (T (Arith := RX))) (n : nat) (a : nat -> nat -> R) (bv x z : nat -> R),
  mat_r m n n a -> vec_r b n bv -> lup m = Ok (lu, p) -> solve lu b p = Ok v -> vec_r v n x ->
  (forall i, (i < n)%nat -> rmv n a z i = bv i) -> forall i, (i < n)%nat -> z i = x i.
Proof.
  intros m lu p b v n a bv x z Hm Hb E Es Hv Hz i Hi.
  pose proof (lup_rwp m n a Hm) as W. rewrite E in W. cbn in W.
  destruct W as (f & pi & H1 & H2 & H3).
  pose proof (solve_rwp n lu f p pi H1 H2 (lu_perm _ _ _ _ H3) b bv Hb) as S. rewrite Es in S. cbn in S.
  destruct S as (Piv & x' & y & Hx & Ey & Ex).
  destruct (vec_is_fun _ _ _ _ _ Hv Hx) as [_ Exx].
  assert (D : forall k, (k < n)%nat -> (fun k => z k - x k) k = 0).
  { apply (lu_inj n a f pi _ H3).
    - intros k Hk. apply piv_nz, Piv, Hk.
    - intros k Hk. unfold rmv. rewrite (Rsum_ext n _ (fun t => a k t * z t + (-1) * (a k t * x' t))).
      2:{ intros t Ht. specialize (Exx t Ht). injection Exx as ->. ring. }
      rewrite Rsum_plus, Rsum_scal. change (rmv n a z k + -1 * rmv n a x' k = 0).
      rewrite Hz, (lu_solve n a f pi x' y bv H3 Ey Ex) by auto. ring. }
  specialize (D i Hi). cbv beta in D. lra.
Qed.

(*@ example *)
Example C15_example :
  let A := F32 lm_id in
  let m := mk_mat 3 3 (map z32 [1; 2; 3; 2; 4; 8; 4; 2; 0]%Z) in
  let b := mk_vec (map z32 [2; 2; 8]%Z) in
  wfm m /\ wfv b /\
  rmap (fun s => rmap show_v (solve (fst s) b (snd s))) (lup m) = Ok (Ok (3%nat, true, map sf [1; 2; -1]%Z)).
Proof.
  cbv zeta. split; [apply wfm_b_ok; vm_compute; reflexivity|].
  split; [apply wfv_b_ok; vm_compute; reflexivity|vm_compute; reflexivity].
Qed.

(** ** inverse *)
Lemma m_set_r m r c f i j x : mat_r m r c f -> (i < r)%nat -> (j < c)%nat ->
  exists m', m_set (A := RX) i j (Some x) m = (m', Ok tt) /\
    mat_r m' r c (fun a b => if (a =? i)%nat && (b =? j)%nat then x else f a b).
Proof.
  intros Hm Hi Hj. destruct (m_set_in m r c _ i j (Some x) Hm Hi Hj (valid_RX x)) as (m' & E & H).
  exists m'. split; auto. eapply mat_is_ext; [exact H|]. intros a b Ha Hb. cbv beta. unfold fupd2.
  destruct ((a =? i)%nat && (b =? j)%nat); auto.
Qed.

Lemma invert_wp m n a : mat_r m n n a ->
  wp m_invert m
    (fun _ m' => exists b f pi, mat_r m' n n b /\ (exists lu p, lup m = Ok (lu, p) /\ mat_r lu n n f /\ idx_is p n pi) /\ lu_of n a f pi /\ (forall i, (i < n)%nat -> eps < Rabs (f (pi i) i)) /\
       req n n (rmul n a b) rid)
    (fun e m' => e = NotInversible /\ m' = m /\
       (lup m = Err Singular \/ exists lu p f pi, lup m = Ok (lu, p) /\ mat_r lu n n f /\ idx_is p n pi /\ perm n pi /\
          exists i, (i < n)%nat /\ Rabs (f (pi i) i) <= eps)) False.
Proof.
  intros Hm. destruct (mat_is_dim _ _ _ _ Hm) as [Dn _].
  eapply wp_fold; [unfold m_invert; reflexivity|].
  apply wp_bind, wp_reads. rewrite (m_guard_square_is _ _ _ _ Hm), Nat.eqb_refl. cbn [rwp].
  apply wp_bind, wp_lift. rewrite (mi_rows _ _ _ _ Hm), (mi_cols _ _ _ _ Hm).
  destruct (v_init_new (A := RX) n Dn) as (tv & Et & Ht). unfold exec at 1. rewrite Et. cbn [rwp].
  apply wp_bind, wp_lift. unfold to_not_inversible at 1. apply rwp_map_err.
  pose proof (lup_rwp m n a Hm) as LW. destruct (lup m) as [[lu p]|e|] eqn:EL; cbn [rwp] in LW |- *.
  2:{ destruct LW as [-> _]. auto. }
  2:{ exact LW. }
  destruct LW as (f & pi & Hlu & Hp & Hof). cbn [fst snd] in Hlu, Hp. apply wp_bind.
  apply wp_local.
  apply wp_for with (I := fun i s => exists X, mat_r (fst s) n n (fun r c => if (r <? i)%nat then X r c else a r c) /\
     vec_r (snd s) n (fun _ => 0) /\
     (forall r k, (r < i)%nat -> (k < n)%nat -> rmv n a (X r) k = rid r k) /\
     ((i > 0)%nat -> forall k, (k < n)%nat -> eps < Rabs (f (pi k) k)) /\ (i = 0%nat -> fst s = m)).
  - exists a. cbn [fst snd]. conjs; auto; try (intros; lia).
    eapply vec_is_ext; [exact Ht|]. intros; apply f0_RX.
  - intros i [g v] Hi (X & Hg & Hv & EX & Piv & E0). cbn [fst snd] in *.
    apply wp_bind. unfold on_tmp at 1. apply wp_zoom. cbn [snd]. rewrite f1_RX.
    eapply wp_v_set_r; [exact Hv|lia|]. intros v1 Hv1. cbn [fst snd].
    apply wp_bind, wp_reads. unfold to_not_inversible. apply rwp_map_err. cbn [snd].
    eapply rwp_conseq; [eapply solve_rwp; [exact Hlu|exact Hp|apply Hof|exact Hv1]| | |auto].
    2:{ cbn [fst snd]. intros e (-> & k & Hk & Lk). split; auto. destruct (Nat.eq_dec i 0) as [->|Ne]; [split; [apply E0; auto|right; exists lu, p, f, pi; conjs; eauto; apply Hof]|].
        exfalso. specialize (Piv ltac:(lia) k Hk). lra. }
    intros xv (Pv & x & y & Hx & Ey & Ex).
    pose proof (lu_solve n a f pi x y (fun k => if (k =? i)%nat then 1 else 0) Hof Ey Ex) as AX. cbv beta in AX.
    apply wp_bind.
    apply wp_for with (I := fun c s => mat_r (fst s) n n (fun r k => if (r <? i)%nat then X r k else if (r =? i)%nat && (k <? c)%nat then x k else a r k)
      /\ snd s = v1).
    + cbn [fst snd]. split; auto. eapply mat_is_ext; [exact Hg|]. intros r k Hr Hk. cbv beta.
      destruct (Nat.ltb_spec k 0); [lia|]. rewrite andb_false_r. reflexivity.
    + intros c [g1 w] Hc (Hg1 & Ew). cbn [fst snd] in *. subst w.
      apply wp_bind, wp_lift. rewrite (vi_get _ _ _ Hx) by lia. cbn [rwp].
      unfold on_self. apply wp_zoom. cbn [fst snd].
      destruct (m_set_r g1 n n _ i c (x c) Hg1 ltac:(lia) ltac:(lia)) as (g2 & E2 & Hg2). unfold wp. rewrite E2.
      split; auto. cbn [fst]. eapply mat_is_ext; [exact Hg2|]. intros r k Hr Hk. cbv beta. f_equal.
      destruct (Nat.ltb_spec r i), (Nat.eqb_spec r i), (Nat.eqb_spec k c), (Nat.ltb_spec k c), (Nat.ltb_spec k (S c)); cbn [andb]; subst; auto; lia.
    + rewrite Nat.max_0_l. intros [g1 w] (Hg1 & Ew). cbn [fst snd] in *. subst w.
      unfold on_tmp. apply wp_zoom. cbn [snd fst]. rewrite f0_RX. eapply wp_v_set_r; [exact Hv1|lia|]. intros v2 Hv2.
      exists (fun r k => if (r =? i)%nat then x k else X r k). cbn [fst snd]. conjs.
      * eapply mat_is_ext; [exact Hg1|]. intros r k Hr Hk. cbv beta. f_equal.
        destruct (Nat.ltb_spec r i), (Nat.eqb_spec r i), (Nat.ltb_spec r (S i)), (Nat.ltb_spec k n); cbn [andb]; subst; auto; lia.
      * eapply vec_r_ext; [exact Hv2|]. intros k Hk. cbv beta. destruct (Nat.eqb_spec k i); auto.
      * intros r k Hr Hk. destruct (Nat.eqb_spec r i) as [->|Ne].
        -- change (fun k0 => x k0) with x. rewrite AX by auto. unfold rid. rewrite Nat.eqb_sym. reflexivity.
        -- apply EX; auto. lia.
      * auto.
      * intros; lia.
  - rewrite Nat.max_0_l. intros [g v] (X & Hg & Hv & EX & Piv & _). cbn [fst snd] in *.
    destruct (m_transpose_ok g n n _ Hg) as (g' & Eg & Hg'). unfold wp. rewrite Eg.
    exists (fun i j => X j i), f, pi. conjs; eauto.
    + eapply mat_is_ext; [exact Hg'|]. intros i j Hi Hj. cbv beta. destruct (Nat.ltb_spec j n); [auto|lia].
    + intros i Hi. apply Piv; auto. lia.
    + intros i j Hi Hj. unfold rmul. change (rmv n a (X j) i = rid i j). rewrite EX by auto.
      unfold rid. rewrite Nat.eqb_sym. reflexivity.
Qed.
Lemma left_inverse n a f pi b : lu_of n a f pi -> (forall i, (i < n)%nat -> f (pi i) i <> 0) ->
  req n n (rmul n a b) rid -> req n n (rmul n b a) rid.
Proof.
  intros H Nz E i j Hi Hj.
  assert (D : forall k, (k < n)%nat -> (fun k => rmul n b a k j - rid k j) k = 0).
  { apply (lu_inj n a f pi _ H Nz). intros k Hk. unfold rmv.
    rewrite (Rsum_ext n _ (fun t => a k t * rmul n b a t j + (-1) * (a k t * rid t j))).
    2:{ intros t Ht. ring. }
    rewrite Rsum_plus, Rsum_scal.
    change (rmul n a (rmul n b a) k j + -1 * rmul n a rid k j = 0).
    rewrite <- rmul_assoc, rmul_id_r by auto.
    rewrite (rmul_ext n (rmul n a b) rid a a k j); [|intros t Ht; apply E; auto|auto]. rewrite rmul_id_l by auto. ring. }
  specialize (D i Hi). cbv beta in D. lra.
Qed.

(*@ C16_invert *)
(** C16: [invert] of a square matrix either yields the two-sided inverse, or reports NotInversible and
    leaves the matrix unchanged *)
Lemma l_invert :
  forall (m : Mat (T (Arith := RX))) (n : nat) (a : nat -> nat -> R), mat_r m n n a ->
  (exists m' b, m_invert m = (m', Ok tt) /\ mat_r m' n n b /\
     req n n (rmul n a b) rid /\ req n n (rmul n b a) rid)
  \/ m_invert m = (m, Err NotInversible).
Proof.
  intros m n a Hm. pose proof (invert_wp m n a Hm) as W. unfold wp in W.
  destruct (m_invert m) as [m' [[]|e|]].
  - left. destruct W as (b & f & pi & H1 & _ & H2 & H3 & H4). exists m', b. conjs; auto.
    eapply left_inverse; eauto. intros i Hi. apply piv_nz; auto.
  - right. destruct W as (-> & -> & _). reflexivity.
  - tauto.
Qed.

(*@ C16_iff *)
(** C16: [invert] succeeds exactly when [lup] succeeds with every pivot beyond EPSILON *)
Lemma l_invert_iff :
  forall (m : Mat (T (Arith := RX))) (n : nat) (a : nat -> nat -> R), mat_r m n n a ->
  ((exists m', m_invert m = (m', Ok tt)) <->
   (exists lu p f pi, lup m = Ok (lu, p) /\ mat_r lu n n f /\ idx_is p n pi /\ perm n pi /\
     forall i, (i < n)%nat -> eps < Rabs (f (pi i) i))).
Proof.
  intros m n a Hm. pose proof (invert_wp m n a Hm) as W. unfold wp in W.
  destruct (m_invert m) as [m' [[]|e|]]; [| |tauto].
  - destruct W as (b & f & pi & _ & (lu & p & E & Hl & Hp) & Hof & Pv & _). split; intros _; [|eauto].
    exists lu, p, f, pi. conjs; auto. apply Hof.
  - destruct W as (_ & _ & W). split; [intros [? ?]; discriminate|].
    intros (lu & p & f & pi & E & Hl & Hp & Pp & Pv). exfalso.
    destruct W as [W|(lu' & p' & f' & pi' & E' & Hl' & Hp' & _ & i & Hi & L)]; [congruence|].
    rewrite E in E'. injection E' as <- <-. specialize (Pv i Hi).
    pose proof (ix_get _ _ _ Hp i Hi) as G1. rewrite (ix_get _ _ _ Hp' i Hi) in G1. injection G1 as G1. rewrite G1 in L.
    pose proof (mi_get _ _ _ _ Hl (pi i) i ltac:(apply Pp; auto) Hi) as G2.
    rewrite (mi_get _ _ _ _ Hl' (pi i) i ltac:(apply Pp; auto) Hi) in G2. injection G2 as G2. rewrite G2 in L. lra.
Qed.

(*@ C16_guards *)
(** C16: an uninitialised matrix is reported NotInit, a non-square one NotSquare, and both are unchanged,
    whatever the arithmetic *)
Lemma l_invert_guards :
  forall (A : Arith) (m : Mat (T (Arith := A))), wfm m ->
  (m_initialized m = false -> m_invert m = (m, Err NotInit)) /\
  (m_initialized m = true -> m_rows m <> m_cols m -> m_invert m = (m, Err NotSquare)).
Proof.
  intros A m Hw. split.
  - intros Hi. unfold m_invert, sbind at 1, reads. rewrite (m_gsquare_uninit m Hi). reflexivity.
  - intros Hi Hne. unfold m_invert, sbind at 1, reads. unfold m_guard_square, m_is_square, m_get_rows, m_get_cols. rewrite Hi. cbn [negb rbind].
    destruct (Nat.eqb_spec (m_rows m) (m_cols m)); [lia|]. reflexivity.
Qed.

(*@ C16_unchanged_f32_refuted *)
(** C16, violation: in binary32 [invert] can fail after overwriting rows: [[1, 1e38], [0, 0.001]] is left as
    [[1, 0], [0, 0.001]], and the failure is reported as NotInversible *)
Lemma l_invert_f32_w :
  exists m : Mat f32, forall lm : Libm, wfm (A := F32 lm) m /\
  show_m m = (2%nat, 2%nat, true, map B2SF [z32 1; z32 (10 ^ 38); z32 0; lit32 1 1000]) /\
  snd (m_invert (A := F32 lm) m) = Err NotInversible /\
  show_m (fst (m_invert (A := F32 lm) m)) = (2%nat, 2%nat, true, map B2SF [z32 1; z32 0; z32 0; lit32 1 1000]).
Proof.
  exists (mk_mat (A := F32 lm_id) 2 2 [z32 1; z32 (10 ^ 38); z32 0; lit32 1 1000]). intros lm. split; [|split; [|split]].
  - apply wfm_b_ok. vm_compute. reflexivity.
  - vm_compute. reflexivity.
  - vm_compute. reflexivity.
  - vm_compute. reflexivity.
Qed.

(*@ example *)
Example C16_example :
  let A := F32 lm_id in
  let m := mk_mat 2 2 (map z32 [1; 2; 3; 4]%Z) in
  wfm m /\ snd (m_invert m) = Ok tt /\
  mat_r (rmat 2 2 [2; 1; 1; 1]) 2 2 (fun i j => nth (i * 2 + j) [2; 1; 1; 1] 0).
Proof.
  cbv zeta. split; [apply wfm_b_ok; vm_compute; reflexivity|].
  split; [vm_compute; reflexivity|apply rmat_is; cbn; lia].
Qed.
