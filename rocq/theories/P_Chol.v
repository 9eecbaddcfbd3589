(** C22: Cholesky decomposition and the positive-definiteness test. *)
(*@+*)
From Coq Require Import List Arith ZArith Reals Lia Bool Lra Classical SpecFloat.
From Flocq Require Import Core BinarySingleNaN.
From Verif Require Import M_Base M_Arith M_Utils M_Vector M_Matrix M_F32 M_RX
  S_Spec S_Linalg S_Compare S_Norm S_Lu P_Inst.
Import ListNotations.
Local Open Scope R_scope.
(*@-*)
From Verif Require Import P_Hoare P_Cont P_Loops P_Access P_Pointwise P_Trans P_Float P_Product P_Norm P_Dot P_Compare P_Lup P_Det P_Lr P_Qr.

(** one column of the factor *)
Section Chol.
  Context {A : Arith}.
  Definition chol_cell (self : Mat T) (col : nat) (s1 : T) (row : nat) : ST (Mat T) LinalgError unit :=
    let! s2 := reads (fun l => rfold (range 0 col) (fun k acc =>
      let? x := m_get l row k in
      let? y := m_get l col k in Ok (acc + x * y)%F) f0) in
    let! e := reads (fun l =>
      if row =? col then
        let? a := m_get self row col in Ok (fsqrt (a - s1)%F)
      else
        let? d := m_get l col col in
        let? a := m_get self row col in Ok ((f1 / d) * (a - s2))%F) in
    m_set row col e.
  Definition chol_col (self : Mat T) (col : nat) : ST (Mat T) LinalgError unit :=
    let! s1 := reads (fun l => rfold (range 0 col) (fun k acc =>
      let? x := m_get l col k in
      let? y := m_get l col k in Ok (acc + x * y)%F) f0) in
    let! d := reads (fun l => m_get l col col) in
    (if (d <? EPSILON)%F then m_set col col EPSILON else sret tt) ;;!
    for_ (range 0 (m_rows self)) (chol_cell self col s1).
  Lemma chol_unfold m : m_chol m =
    let? pd := m_is_positive_definite m in
    if negb pd then Err NotPositiveDefinite
    else exec (m_init (m_rows m) (m_cols m) ;;! for_ (range 0 (m_cols m)) (chol_col m)) mnew.
  Proof. reflexivity. Qed.
End Chol.

Lemma row_fold_r m r c f i1 i2 n : mat_r m r c f -> (i1 < r)%nat -> (i2 < r)%nat -> (n <= c)%nat ->
  rfold (range 0 n) (fun k acc => let? x := m_get (A := RX) m i1 k in let? y := m_get m i2 k in Ok (acc + x * y)%F) f0
  = Ok (Some (Rsum n (fun k => f i1 k * f i2 k))).
Proof.
  intros Hm H1 H2 Hn. rewrite (rfold_fsum (A := RX) n (fun k => Some (f i1 k * f i2 k))).
  - rewrite fsum_RX. reflexivity.
  - intros i acc Hi. rewrite !(mi_get _ _ _ _ Hm) by lia. reflexivity.
Qed.

(** the factor after [c] columns *)
Definition chol_inv n c (l a : nat -> nat -> R) : Prop :=
  (forall i j, (i < n)%nat -> (j < n)%nat -> (i < j \/ c <= j)%nat -> l i j = 0) /\
  (forall j, (j < c)%nat -> 0 <= l j j) /\
  (forall i j, (j <= i)%nat -> (i < n)%nat -> (j < c)%nat -> Rsum (S j) (fun k => l i k * l j k) = a i j).

Lemma chol_col_wp m n a s l c : mat_r m n n a -> (forall i j, (i < n)%nat -> (j < n)%nat -> a i j = a j i) ->
  (c < n)%nat -> mat_r s n n l -> chol_inv n c l a ->
  wp (chol_col m c) s (fun _ s' => exists l', mat_r s' n n l' /\ chol_inv n (S c) l' a) (fun e _ => e = UtilsErr Nan) False.
Proof.
  intros Hm Hsym Hc Hs (I1 & I2 & I3). unfold chol_col.
  apply wp_bind, wp_reads. rewrite (row_fold_r s n n l) by (auto; lia). cbn [rwp].
  set (s1 := Rsum c (fun k => l c k * l c k)).
  apply wp_bind, wp_reads. rewrite (mi_get _ _ _ _ Hs) by auto. cbn [rwp]. rewrite (I1 c c) by lia.
  rewrite eps_RX. cbn [fltb RX rxcmp]. pose proof eps_pos as EP. rewrite Rlt_bool_true by auto.
  apply wp_bind. eapply wp_m_set_r; [exact Hs|lia|lia| |discriminate]. intros v s0 Ev Hs0. injection Ev as <-.
  rewrite (mi_rows _ _ _ _ Hm).
  set (g := fun i : nat => if (i <? c)%nat then 0 else if (i =? c)%nat then sqrt (a c c - s1) else (1 / sqrt (a c c - s1)) * (a i c - Rsum c (fun k => l i k * l c k))).
  apply wp_for with (I := fun r s => mat_r s n n (fun i j => if (j =? c)%nat then (if (i <? r)%nat then g i else if (i =? c)%nat then eps else 0) else l i j) /\
     ((c < r)%nat -> 0 <= a c c - s1) /\ ((S c < r)%nat -> sqrt (a c c - s1) <> 0)).
  - split; [|split; lia]. eapply mat_is_ext; [exact Hs0|]. intros i j Hi Hj. cbv beta. destruct (Nat.ltb_spec i 0); [lia|].
    destruct (Nat.eqb_spec i c), (Nat.eqb_spec j c); cbn [andb]; subst; auto. rewrite (I1 i c) by lia. auto.
  - intros r s2 Hr (H2 & Pos & Nz). unfold chol_cell. apply wp_bind, wp_reads.
    rewrite (row_fold_r s2 n n _ r c c H2) by lia. cbn [rwp].
    rewrite (Rsum_ext c _ (fun k => l r k * l c k)).
    2:{ intros k Hk. destruct (Nat.eqb_spec k c); [lia|auto]. }
    apply wp_bind, wp_reads.
    destruct (Nat.eqb_spec r c) as [->|Nrc].
    + rewrite (mi_get _ _ _ _ Hm) by lia. cbn [rbind rwp fsub RX rx2 fsqrt rx_sqrt].
      destruct (Rlt_bool_spec (a c c - s1) 0) as [Neg|Pos'].
      * eapply wp_m_set_r; [exact H2|lia|lia|discriminate|auto].
      * eapply wp_m_set_r; [exact H2|lia|lia| |discriminate]. intros v s3 Ev H3. injection Ev as <-.
        split; [|split; [auto|lia]].
        eapply mat_is_ext; [exact H3|]. intros i j Hi Hj. cbv beta. f_equal.
        destruct (Nat.eqb_spec i c), (Nat.eqb_spec j c), (Nat.ltb_spec i c), (Nat.ltb_spec i (S c)); cbn [andb]; subst; auto; try lia.
        unfold g. destruct (Nat.ltb_spec c c); [lia|]. rewrite Nat.eqb_refl. auto.
    + rewrite (mi_get _ _ _ _ H2), (mi_get _ _ _ _ Hm) by lia. cbn [rbind rwp]. rewrite Nat.eqb_refl.
      destruct (Nat.ltb_spec c r) as [Lcr|Lrc].
      * (* below the diagonal *)
        assert (Eg : g c = sqrt (a c c - s1)).
        { unfold g. destruct (Nat.ltb_spec c c); [lia|]. rewrite Nat.eqb_refl. auto. }
        rewrite Eg, f1_RX. cbn [fdiv RX rx_div fsub fmul rx2].
        destruct (Req_bool_spec (sqrt (a c c - s1)) 0) as [Z|NZ]; cbn [rx2].
        -- eapply wp_m_set_r; [exact H2|lia|lia|discriminate|auto].
        -- eapply wp_m_set_r; [exact H2|lia|lia| |discriminate]. intros v s3 Ev H3. injection Ev as <-.
           split; [|split; auto].
           eapply mat_is_ext; [exact H3|]. intros i j Hi Hj. cbv beta. f_equal.
           destruct (Nat.eqb_spec i r), (Nat.eqb_spec j c), (Nat.ltb_spec i r), (Nat.ltb_spec i (S r)); cbn [andb]; subst; auto; try lia.
           unfold g. destruct (Nat.ltb_spec r c); [lia|]. destruct (Nat.eqb_spec r c); [lia|]. auto.
      * (* above the diagonal *)
        rewrite f1_RX. cbn [fdiv RX rx_div fsub fmul rx2]. rewrite Req_bool_false by lra. cbn [rx2].
        eapply wp_m_set_r; [exact H2|lia|lia| |discriminate]. intros v s3 Ev H3. injection Ev as <-.
        split; [|split; lia].
        eapply mat_is_ext; [exact H3|]. intros i j Hi Hj. cbv beta. f_equal.
        destruct (Nat.eqb_spec i r), (Nat.eqb_spec j c), (Nat.ltb_spec i r), (Nat.ltb_spec i (S r)); cbn [andb]; subst; auto; try lia.
        unfold g. destruct (Nat.ltb_spec r c); [|lia].
        assert (E : Rsum c (fun k => l r k * l c k) = a r c).
        { rewrite (Rsum_split c r) by lia. rewrite (Rsum_0 c (fun t => if (r <? t)%nat then l r t * l c t else 0)).
          - rewrite (Hsym r c) by lia. rewrite <- (I3 c r) by lia. cbn [Rsum]. rewrite Rplus_0_r. f_equal; [|ring]. apply Rsum_ext; intros; ring.
          - intros t Ht. destruct (Nat.ltb_spec r t); auto. rewrite (I1 r t) by lia. ring. }
        rewrite E. ring.
  - rewrite Nat.max_0_l. intros s2 (H2 & Pos & Nz).
    exists (fun i j => if (j =? c)%nat then g i else l i j). split.
    { eapply mat_is_ext; [exact H2|]. intros i j Hi Hj. cbv beta. destruct (Nat.ltb_spec i n); [auto|lia]. }
    assert (Gc : g c = sqrt (a c c - s1)).
    { unfold g. destruct (Nat.ltb_spec c c); [lia|]. rewrite Nat.eqb_refl. auto. }
    split; [|split].
    + intros i j Hi Hj D. destruct (Nat.eqb_spec j c) as [->|Nj].
      * unfold g. destruct (Nat.ltb_spec i c); [auto|lia].
      * apply I1; lia.
    + intros j Hj. destruct (Nat.eqb_spec j c) as [->|Nj]; [rewrite Gc; apply sqrt_pos|apply I2; lia].
    + intros i j Hji Hi Hj.
      destruct (Nat.eq_dec j c) as [->|Nj].
      * cbn [Rsum]. rewrite Nat.eqb_refl.
        rewrite (Rsum_ext c _ (fun k => l i k * l c k)) by (intros k Hk; destruct (Nat.eqb_spec k c); [lia|auto]).
        rewrite Gc. destruct (Nat.eq_dec i c) as [->|Ni].
        -- rewrite Gc, sqrt_sqrt by (apply Pos; lia). unfold s1. ring.
        -- assert (Gi : g i = (1 / sqrt (a c c - s1)) * (a i c - Rsum c (fun k => l i k * l c k))).
           { unfold g. destruct (Nat.ltb_spec i c); [lia|]. destruct (Nat.eqb_spec i c); [lia|]. auto. }
           rewrite Gi. field. apply Nz. lia.
      * rewrite <- (I3 i j) by lia. apply Rsum_ext. intros k Hk. destruct (Nat.eqb_spec k c); [lia|auto].
Qed.

(** ** the positive-definiteness test *)
Lemma block_ok {A : Arith} {OK : ArithOk A} m n f k : mat_is m n n f -> (k < n)%nat ->
  exists t, exec (m_init (k + 1) (k + 1) ;;! for_ (range 0 (k + 1)) (fun row => for_ (range 0 (k + 1)) (fun col =>
     let! x := lift (m_get m row col) in m_set row col x))) mnew = Ok t /\ mat_is t (S k) (S k) f.
Proof.
  intros Hm Hk. destruct (mat_is_dim _ _ _ _ Hm) as [Dn _].
  destruct (m_init_new (A := A) (k + 1) (k + 1) ltac:(lia) ltac:(lia)) as (m0 & E0 & H0). rewrite (exec_step _ _ _ _ E0).
  assert (P : pointwise_m (k + 1) (k + 1) (fun _ _ => f0) f (m_loop (fun _ i j => m_get m i j) m0)).
  { eapply m_loop_pointwise; [exact H0|]. intros. apply (mi_get _ _ _ _ Hm); lia. }
  destruct (fun V => pointwise_m_ok _ _ _ _ _ V P) as (t & Et & Ht).
  { intros i j Hi Hj. eapply mat_is_valid; [exact Hm|lia|lia]. }
  exists t. split; [|replace (S k) with (k + 1)%nat by lia; exact Ht].
  unfold m_loop in Et. rewrite (mi_rows _ _ _ _ H0), (mi_cols _ _ _ _ H0) in Et.
  unfold exec. match type of Et with ?x = _ => match goal with |- context [for_ ?a ?b ?c] => change (for_ a b c) with x end end.
  rewrite Et. reflexivity.
Qed.

Lemma within_RX x y : within (A := RX) EPSILON (Some x) (Some y) <-> Rabs (x - y) <= eps.
Proof.
  unfold within. rewrite eps_RX. cbn [fabs fsub fleb RX rx2 rx1 rxcmp]. destruct (Rle_bool_spec (Rabs (x - y)) eps); split; intros; auto; try lra; try discriminate.
Qed.

(** the value [det] computes, when it computes one *)
Lemma det_cases m n a : mat_r m n n a ->
  rwp (m_det m) (fun d => exists s, (s = 1 \/ s = -1) /\ ((n <= 3)%nat -> s = 1) /\ d = Some (s * rdet n a)) (fun e => lup m = Err e) False.
Proof.
  intros Hm. destruct (l_det m n a Hm) as (H1 & H2 & H3). destruct (lup m) as [[lu p]|e|].
  - destruct (H1 lu p eq_refl) as (pi & _ & _ & ->). cbn [rwp]. eexists. split; [|split; [|reflexivity]].
    + destruct (_ && _); auto.
    + intros Hn. destruct (Nat.eqb_spec n 4); [lia|auto].
  - rewrite (H2 e eq_refl). reflexivity.
  - congruence.
Qed.

Definition close_sym (n : nat) (a : nat -> nat -> R) : Prop :=
  forall i j, (i < n)%nat -> (j < n)%nat -> Rabs (a i j - a j i) <= eps.

Lemma pd_rwp m n a : mat_r m n n a ->
  rwp (m_is_positive_definite m)
    (fun b => close_sym n a /\ exists s, (forall k, (k < n)%nat -> (s k = 1 \/ s k = -1) /\ ((k < 3)%nat -> s k = 1)) /\
              (b = true <-> forall k, (k < n)%nat -> 0 <= s k * rdet (S k) a))
    (fun e => ~ close_sym n a /\ e = NotSymetric \/
              close_sym n a /\ exists k t, (k < n)%nat /\ mat_r t (S k) (S k) a /\ lup t = Err e) False.
Proof.
  intros Hm. destruct (mat_is_dim _ _ _ _ Hm) as [Dn _]. unfold m_is_positive_definite.
  destruct (l_symmetric RX m n n _ Hm) as (b & -> & Hb). cbn [rbind].
  assert (Hb' : b = true <-> close_sym n a).
  { rewrite Hb. unfold close_sym. split.
    - intros [_ H] i j Hi Hj. apply within_RX. auto.
    - intros H. split; auto. intros. apply within_RX. auto. }
  clear Hb. destruct b; cbn [negb].
  2:{ cbn [rwp]. left. split; auto. intros H. apply Hb' in H. discriminate. }
  assert (CS : close_sym n a) by (apply Hb'; auto).
  rewrite (mi_rows _ _ _ _ Hm).
  assert (H : exists s, (forall k, (k < n)%nat -> (s k = 1 \/ s k = -1) /\ ((k < 3)%nat -> s k = 1)) /\
     (forall k, (k < n)%nat -> forall t, mat_r t (S k) (S k) a ->
       exec (m_init (k + 1) (k + 1) ;;! for_ (range 0 (k + 1)) (fun row => for_ (range 0 (k + 1)) (fun col =>
        let! x := lift (m_get m row col) in m_set row col x))) mnew = Ok t ->
       rwp (m_det t) (fun d => d = Some (s k * rdet (S k) a)) (fun e => lup t = Err e) False)).
  { set (blk := fun k => exec (m_init (A := RX) (k + 1) (k + 1) ;;! for_ (range 0 (k + 1)) (fun row => for_ (range 0 (k + 1)) (fun col =>
        let! x := lift (m_get m row col) in m_set row col x))) mnew).
    exists (fun k => match blk k with Ok t => match m_det t with Ok (Some d) => if Req_EM_T d (rdet (S k) a) then 1 else -1 | _ => 1 end | _ => 1 end).
    split.
    - intros k Hk. destruct (blk k) as [t|e|] eqn:Eb; auto. destruct (m_det t) as [[d|]|e|] eqn:Ed; auto.
      destruct (Req_EM_T d (rdet (S k) a)) as [->|N]; auto. split; auto. intros Hk3.
      destruct (block_ok m n _ k Hm Hk) as (t' & Et & Ht). fold (blk k) in Et. rewrite Eb in Et. injection Et as <-.
      pose proof (det_cases t (S k) a Ht) as W. rewrite Ed in W. cbn [rwp] in W. destruct W as (s & _ & Hs & E). rewrite Hs in E by lia. rewrite Rmult_1_l in E. congruence.
    - intros k Hk t Ht Et. fold (blk k) in Et. cbv beta. rewrite Et.
      pose proof (det_cases t (S k) a Ht) as W. destruct (m_det t) as [d|e|] eqn:Ed; cbn [rwp] in *; auto.
      destruct W as (s & Hs & _ & ->). destruct (Req_EM_T (s * rdet (S k) a) (rdet (S k) a)) as [E|N]; f_equal; [lra|].
      destruct Hs as [-> | ->]; [exfalso; apply N; ring|auto]. }
  destruct H as (s & Hs1 & Hs2).
  eapply rwp_rall with (t := fun k => 0 <= s k * rdet (S k) a).
  - intros k Hk. destruct (block_ok m n _ k Hm) as (t & Et & Ht); [lia|]. rewrite Et. cbn [rbind].
    apply rwp_bind. eapply rwp_conseq; [apply (Hs2 k ltac:(lia) t Ht Et)| | |auto].
    + intros d ->. rewrite f0_RX. cbn [rwp fltb RX rxcmp]. destruct (Rlt_bool_spec (s k * rdet (S k) a) 0); cbn [negb]; split; intros; auto; first [lra|discriminate].
    + intros e He. right. split; auto. exists k, t. conjs; auto. lia.
  - intros x Hx. split; auto. exists s. split; auto. rewrite Hx. split; intros H k Hk; apply H; lia.
Qed.

Lemma chol_rwp m n a : mat_r m n n a -> (forall i j, (i < n)%nat -> (j < n)%nat -> a i j = a j i) ->
  m_is_positive_definite m = Ok true ->
  rwp (m_chol m) (fun ml => exists l, mat_r ml n n l /\ chol_inv n n l a) (fun e => e = UtilsErr Nan) False.
Proof.
  intros Hm Hs Hpd. destruct (mat_is_dim _ _ _ _ Hm) as [Dn _]. rewrite chol_unfold, Hpd. cbn [rbind negb].
  rewrite (mi_rows _ _ _ _ Hm), (mi_cols _ _ _ _ Hm). apply wp_exec, wp_bind.
  apply wp_m_init; [lia|lia|]. intros m0 H0.
  apply wp_for with (I := fun c s => exists l, mat_r s n n l /\ chol_inv n c l a).
  - exists (fun _ _ => 0). split; [eapply mat_is_ext; [exact H0|]; intros; rewrite f0_RX; auto|].
    split; [|split]; intros; auto; lia.
  - intros c s Hc (l & Hl & Il). eapply wp_conseq; [apply (chol_col_wp m n a s l c Hm Hs ltac:(lia) Hl Il)| |auto|auto].
    intros _ s' (l' & Hl' & Il'). eauto.
  - rewrite Nat.max_0_l. auto.
Qed.

(*@ C22_chol *)
(** C22: when [chol] of an exactly symmetric matrix succeeds, the result is lower triangular with non-negative
    diagonal and L L' = A; [chol] never panics *)
Lemma l_chol :
  forall (m : Mat (T (Arith := RX))) (n : nat) (a : nat -> nat -> R), mat_r m n n a -> req n n a (rtr a) ->
  m_chol m <> Panic /\
  (forall ml, m_chol m = Ok ml -> exists l, mat_r ml n n l /\ lower n l /\
     (forall i, (i < n)%nat -> 0 <= l i i) /\ req n n (rmul n l (rtr l)) a).
Proof.
  intros m n a Hm Hs. destruct (m_is_positive_definite m) as [[|]|e|] eqn:Hpd.
  2:{ rewrite chol_unfold, Hpd. cbn [rbind negb]. split; discriminate. }
  2:{ rewrite chol_unfold, Hpd. cbn [rbind negb]. split; discriminate. }
  2:{ pose proof (pd_rwp m n a Hm) as W. rewrite Hpd in W. destruct W. }
  pose proof (chol_rwp m n a Hm Hs Hpd) as W. split; [intros E; rewrite E in W; exact W|].
  intros ml E. rewrite E in W. destruct W as (l & Hl & I1 & I2 & I3). exists l. conjs; auto.
  - intros i j Hi Hj L. apply I1; lia.
  - assert (G : forall i j, (j <= i)%nat -> (i < n)%nat -> rmul n l (rtr l) i j = a i j).
    { intros i j Hji Hi. rewrite <- (I3 i j) by lia. unfold rmul, rtr.
      rewrite (Rsum_split n j) by lia. rewrite (Rsum_0 n (fun t => if (j <? t)%nat then l i t * l j t else 0)).
      - cbn [Rsum]. ring.
      - intros t Ht. destruct (Nat.ltb_spec j t); auto. rewrite (I1 j t) by lia. ring. }
    intros i j Hi Hj. destruct (Nat.le_gt_cases j i) as [L|L]; [apply G; auto|].
    rewrite (Hs i j) by auto. unfold rtr at 2. rewrite <- (G j i) by lia.
    unfold rmul, rtr. apply Rsum_ext. intros; ring.
Qed.

(*@ C22_psd *)
(** C22: a matrix on which [chol] succeeds is positive semi-definite *)
Lemma l_chol_psd :
  forall (m ml : Mat (T (Arith := RX))) (n : nat) (a : nat -> nat -> R) (x : nat -> R), mat_r m n n a -> req n n a (rtr a) ->
  m_chol m = Ok ml -> 0 <= rdot n x (rmv n a x).
Proof.
  intros m ml n a x Hm Hs E. destruct (l_chol m n a Hm Hs) as (_ & H). destruct (H ml E) as (l & _ & _ & _ & HL).
  assert (G : rdot n x (rmv n a x) = Rsum n (fun t => Rsum n (fun i => x i * l i t) * Rsum n (fun i => x i * l i t))).
  { destruct (mat_is_dim _ _ _ _ Hm) as [Dn _].
    unfold rdot, rmv. rewrite (Rsum_ext n _ (fun t => x t * Rsum n (fun j => Rsum n (fun k => l t k * l j k) * x j))).
    2:{ intros t Ht. f_equal. apply Rsum_ext. intros j Hj. rewrite <- (HL t j Ht Hj). reflexivity. }
    assert (C : n = 1%nat \/ n = 2%nat \/ n = 3%nat \/ n = 4%nat) by lia.
    destruct C as [-> |[-> |[-> | ->]]]; cbn [Rsum]; ring. }
  rewrite G. apply (Rsum_sq n (fun t => Rsum n (fun i => x i * l i t))).
Qed.

(*@ C22_pd *)
(** C22: [is_positive_definite] rejects a matrix that is not symmetric within EPSILON; up to 3 x 3 its answer is
    yes exactly when no leading principal minor is negative, and for 4 x 4 a yes still implies that the first
    three are not; it never panics *)
Lemma l_pd :
  forall (m : Mat (T (Arith := RX))) (n : nat) (a : nat -> nat -> R), mat_r m n n a ->
  ((exists i j, (i < n)%nat /\ (j < n)%nat /\ eps < Rabs (a i j - a j i)) -> m_is_positive_definite m = Err NotSymetric) /\
  (m_is_positive_definite m = Ok true -> forall k, (k < n)%nat -> (k < 3)%nat -> 0 <= rdet (S k) a) /\
  (m_is_positive_definite m = Ok false -> (n <= 3)%nat -> exists k, (k < n)%nat /\ rdet (S k) a < 0) /\
  m_is_positive_definite m <> Panic.
Proof.
  intros m n a Hm. pose proof (pd_rwp m n a Hm) as W. conjs.
  - intros (i & j & Hi & Hj & L). destruct (m_is_positive_definite m) as [b|e|]; cbn [rwp] in W; [| |tauto].
    + destruct W as (W & _). specialize (W i j Hi Hj). lra.
    + destruct W as [(_ & ->)|(W & _)]; auto. specialize (W i j Hi Hj). lra.
  - intros E k Hk H3. rewrite E in W. destruct W as (_ & s & H1 & H2). destruct (H1 k Hk) as [_ Es].
    replace (rdet (S k) a) with (s k * rdet (S k) a) by (rewrite Es by auto; ring). apply H2; auto.
  - intros E Hn. rewrite E in W. destruct W as (_ & s & H1 & H2). 
    destruct (classic (exists k, (k < n)%nat /\ rdet (S k) a < 0)) as [|N]; auto. exfalso.
    assert (false = true); [|discriminate]. apply H2. intros k Hk. destruct (H1 k Hk) as [_ Es]. rewrite Es by lia.
    destruct (Rle_or_lt 0 (rdet (S k) a)); [lra|]. exfalso. apply N. eauto.
  - intros E. rewrite E in W. exact W.
Qed.

(*@ C22_pd_accepts *)
(** C22: a symmetric positive definite matrix up to 3 x 3 is never rejected *)
Lemma l_pd_accepts :
  forall (m : Mat (T (Arith := RX))) (n : nat) (a : nat -> nat -> R), mat_r m n n a -> (n <= 3)%nat -> req n n a (rtr a) ->
  (forall x, (exists i, (i < n)%nat /\ x i <> 0) -> 0 < rdot n x (rmv n a x)) ->
  m_is_positive_definite m <> Ok false.
Proof.
  intros m n a Hm Hn Hs Hp E. destruct (mat_is_dim _ _ _ _ Hm) as [Dn _].
  destruct (l_pd m n a Hm) as (_ & _ & H & _). destruct (H E Hn) as (k & Hk & Neg). clear H.
  unfold req, rtr in Hs.
  assert (P0 : 0 < a 0%nat 0%nat).
  { pose proof (Hp (fun i => if (i =? 0)%nat then 1 else 0)) as H.
    assert (C : n = 1%nat \/ n = 2%nat \/ n = 3%nat) by lia.
    destruct C as [-> |[-> | ->]]; unfold rdot, rmv in H; cbn in H;
      (eapply Rlt_le_trans; [apply H; exists 0%nat; cbn; split; [lia|lra]|right; ring]). }
  destruct (Nat.eq_dec k 0) as [->|N0]. { unfold rdet, Nat.ltb in Neg; cbn in Neg. lra. }
  assert (P1 : 0 < a 0%nat 0%nat * a 1%nat 1%nat - a 0%nat 1%nat * a 0%nat 1%nat).
  { apply Rmult_lt_reg_l with (1 := P0). rewrite Rmult_0_r.
    pose proof (Hp (fun i => if (i =? 0)%nat then - a 0%nat 1%nat else if (i =? 1)%nat then a 0%nat 0%nat else 0)) as H.
    assert (S10 : a 1%nat 0%nat = a 0%nat 1%nat) by (apply Hs; lia).
    assert (C : n = 2%nat \/ n = 3%nat) by lia.
    destruct C as [-> | ->]; unfold rdot, rmv in H; cbn in H; rewrite ?S10 in H;
      (eapply Rlt_le_trans; [apply H; exists 1%nat; cbn; split; [lia|lra]|right; ring]). }
  destruct (Nat.eq_dec k 1) as [->|N1].
  { unfold rdet, Nat.ltb in Neg; cbn in Neg. rewrite (Hs 1%nat 0%nat) in Neg by lia. lra. }
  assert (k = 2%nat) by lia. assert (n = 3%nat) by lia. subst k n.
  assert (P2 : 0 < rdet 3 a); [|lra].
  apply Rmult_lt_reg_l with (1 := P1). rewrite Rmult_0_r.
  pose proof (Hp (fun i => if (i =? 0)%nat then a 0%nat 1%nat * a 1%nat 2%nat - a 0%nat 2%nat * a 1%nat 1%nat
     else if (i =? 1)%nat then a 0%nat 2%nat * a 0%nat 1%nat - a 0%nat 0%nat * a 1%nat 2%nat
     else a 0%nat 0%nat * a 1%nat 1%nat - a 0%nat 1%nat * a 0%nat 1%nat)) as H.
  eapply Rlt_le_trans; [apply H; exists 2%nat; cbn; split; [lia|lra]|right].
  unfold rdot, rmv, rdet, Nat.ltb. cbn. rewrite (Hs 1%nat 0%nat), (Hs 2%nat 0%nat), (Hs 2%nat 1%nat) by lia. ring.
Qed.

(*@ C22_zero_refuted *)
(** C22, violation for every libm: the zero 1 x 1 matrix is called positive definite *)
Lemma l_pd_zero :
  exists m : Mat f32, forall lm : Libm, wfm (A := F32 lm) m /\
  show_m m = (1%nat, 1%nat, true, map sf [0]%Z) /\ m_is_positive_definite (A := F32 lm) m = Ok true.
Proof.
  exists (mk_mat (A := F32 lm_id) 1 1 (map z32 [0]%Z)). intros lm. split; [|split].
  - apply wfm_b_ok. vm_compute. reflexivity.
  - vm_compute. reflexivity.
  - vm_compute. reflexivity.
Qed.


(*@ C22_asymmetric_refuted *)
(** C22, violation: [[1, 2^-14], [0, 1]] passes as symmetric; the returned factor has a non-zero element above
    the diagonal (0.61) and the first diagonal element of L L' is above 1.37 instead of 1 *)
Lemma l_chol_w :
  exists m : Mat f32, forall lm : Libm, wfm (A := F32 lm) m /\
  show_m m = (2%nat, 2%nat, true, [sf 1; S754_finite false 8388608 (-37); sf 0; sf 1]) /\
  rmap show_m (m_chol (A := F32 lm) m) = Ok (2%nat, 2%nat, true, [sf 1; S754_finite false 10240000 (-24); sf 0; sf 1]) /\
  rmap (fun p => (fleb (Arith := F32 lm) (lit32 137 100) (fst p), fleb (Arith := F32 lm) (snd p) (lit32 138 100)))
    (let? l := m_chol (A := F32 lm) m in let? t := m_duplicate (A := F32 lm) l in let? t := exec (m_transpose (A := F32 lm)) t in
     let? p := m_mul_new (A := F32 lm) l t in let? x := m_get (A := F32 lm) p 0 0 in Ok (x, x)) = Ok (true, true).
Proof.
  exists (mk_mat (A := F32 lm_id) 2 2 [z32 1; lit32 1 16384; z32 0; z32 1]). intros lm. split; [|split; [|split]].
  - apply wfm_b_ok. vm_compute. reflexivity.
  - vm_compute. reflexivity.
  - vm_compute. reflexivity.
  - vm_compute. reflexivity.
Qed.

(*@ example *)
(** test: the hypotheses of C22_chol hold and [chol] succeeds on [[4,2],[2,10]] *)
Example C22_example :
  let A := F32 lm_id in
  let m := mk_mat 2 2 (map z32 [4; 2; 2; 10]%Z) in
  wfm m /\ rmap show_m (m_chol m) = Ok (2%nat, 2%nat, true, map sf [2; 0; 1; 3]%Z) /\
  (let l := fun i j : nat => nth (i * 2 + j) [2; 0; 1; 3] 0 in
   req 2 2 (rmul 2 l (rtr l)) (fun i j => nth (i * 2 + j) [4; 2; 2; 10] 0)).
Proof.
  cbv zeta. split; [apply wfm_b_ok; vm_compute; reflexivity|split; [vm_compute; reflexivity|]].
  intros i j Hi Hj. destruct i as [|[|i]]; [| |lia]; (destruct j as [|[|j]]; [| |lia]); unfold rmul, rtr; cbn; ring.
Qed.
