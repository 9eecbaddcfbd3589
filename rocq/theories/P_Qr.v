(** C21: the QR decomposition. *)
(*@+*)
From Coq Require Import List Arith ZArith Reals Lia Bool Lra.
From Flocq Require Import Core BinarySingleNaN.
From Verif Require Import M_Base M_Arith M_Utils M_Vector M_Matrix M_F32 M_RX
  S_Spec S_Linalg S_Norm S_Lu S_Decomp P_Inst.
Import ListNotations.
Local Open Scope R_scope.
(*@-*)
From Verif Require Import P_Hoare P_Cont P_Loops P_Access P_Pointwise P_Trans P_Float P_Product P_Norm P_Dot P_Lup P_Lr.

Section Gs.
  Context {A : Arith} {OK : ArithOk A}.
  (** the orthogonalisation loop *)
  Definition gs_sub (rows col row : nat) : ST (Mat T) LinalgError unit :=
    let! dot_product := reads (fun q =>
      rfold (range 0 rows) (fun k acc =>
        let? x := m_get q k row in
        let? y := m_get q k col in Ok (acc + x * y)%F) f0) in
    for_ (range 0 rows) (fun k =>
      let! x := reads (fun q => m_get q k col) in
      let! y := reads (fun q => m_get q k row) in
      m_set k col (x - dot_product * y)%F).
  Definition gs_norm (rows col : nat) : ST (Mat T) LinalgError bool :=
    let! s := reads (fun q =>
      rfold (range 0 rows) (fun row acc =>
        let? x := m_get q row col in
        let? y := m_get q row col in Ok (acc + x * y)%F) f0) in
    let norm := fsqrt s in
    if (norm >? EPSILON)%F then
      for_ (range 0 rows) (fun k =>
        let! x := reads (fun q => m_get q k col) in
        m_set k col (x / norm)%F) ;;!
      sret true
    else sret false.
  Definition gs (rows cols : nat) : ST (Mat T) LinalgError unit :=
    for_break (range 0 cols) (fun col => for_ (range 0 col) (gs_sub rows col) ;;! gs_norm rows col).
  Lemma qr_unfold m : m_qr_decomp m =
    let? q0 := exec (m_init (m_rows m) (m_cols m) ;;! m_copy_from m) mnew in
    let? r0 := exec (m_init (m_rows m) (m_cols m)) mnew in
    let? tmp0 := exec (m_init (m_rows m) (m_cols m)) mnew in
    let? q := exec (gs (m_rows m) (m_cols m)) q0 in
    let? tmp := exec (m_copy_from q ;;! m_transpose) tmp0 in
    let? r := exec (m_mul tmp m) r0 in
    Ok (q, r).
  Proof. reflexivity. Qed.

  Lemma dot_fold m r c f k1 k2 : mat_is m r c f -> (k1 < c)%nat -> (k2 < c)%nat ->
    rfold (range 0 r) (fun k acc => let? x := m_get m k k1 in let? y := m_get m k k2 in Ok (acc + x * y)%F) f0
    = Ok (fsum r (fun k => f k k1 * f k k2)%F).
  Proof.
    intros Hm H1 H2. apply rfold_fsum. intros i acc Hi. rewrite !(mi_get _ _ _ _ Hm) by auto. reflexivity.
  Qed.

  Definition utils_err (e : LinalgError) : Prop := exists u, e = UtilsErr u.
  (** shapes only *)
  Lemma col_loop_shape m r c f col (g : T -> nat -> Mat T -> T) (body : nat -> ST (Mat T) LinalgError unit) (Q : unit -> Mat T -> Prop) :
    mat_is m r c f -> (col < c)%nat ->
    (forall k s h, (k < r)%nat -> mat_is s r c h -> exists x, body k s = m_set k col x s) ->
    (forall m' f', mat_is m' r c f' -> Q tt m') ->
    wp (for_ (range 0 r) body) m Q (fun e _ => utils_err e) False.
  Proof.
    intros Hm Hc Hb HQ. apply wp_for with (I := fun _ s => exists h, mat_is s r c h); [eauto| |].
    - intros k s Hk (h & Hs). destruct (Hb k s h ltac:(lia) Hs) as (x & E).
      apply (wp_fold _ (m_set k col x)); [exact E|]. eapply wp_m_set; [exact Hs|lia|lia| |].
      + intros _ m' H'. eauto.
      + intros e _. exists e. auto.
    - intros s (h & Hs). eauto.
  Qed.

  Lemma gs_shape m r c f : mat_is m r c f ->
    wp (gs r c) m (fun _ q => exists h, mat_is q r c h) (fun e _ => utils_err e) False.
  Proof.
    intros Hm. unfold gs. apply wp_for_break with (I := fun _ s => exists h, mat_is s r c h); [eauto| |auto].
    intros col s Hcol (h & Hs). apply wp_bind.
    apply wp_for with (I := fun _ s => exists h, mat_is s r c h); [eauto| |].
    - intros row s' Hrow (h' & Hs'). unfold gs_sub. apply wp_bind, wp_reads. rewrite (dot_fold _ _ _ _ _ _ Hs') by lia. cbn [rwp].
      eapply (col_loop_shape s' r c h' col (fun x _ _ => x)); [exact Hs'|lia| |eauto].
      intros k t h1 Hk Ht. eexists. unfold sbind, reads. rewrite !(mi_get _ _ _ _ Ht) by lia. reflexivity.
    - intros s' (h' & Hs'). unfold gs_norm. apply wp_bind, wp_reads. rewrite (dot_fold _ _ _ _ _ _ Hs') by lia. cbn [rwp].
      destruct (_ >? _)%F; [|apply wp_sret; eauto]. apply wp_bind.
      eapply (col_loop_shape s' r c h' col (fun x _ _ => x)); [exact Hs'|lia| |].
      + intros k t h1 Hk Ht. eexists. unfold sbind, reads. rewrite !(mi_get _ _ _ _ Ht) by lia. reflexivity.
      + intros m' f' H'. apply wp_sret. eauto.
  Qed.

  Lemma qr_shape m r c f : mat_is m r c f ->
    rwp (m_qr_decomp m) (fun s => r = c /\ exists g h, mat_is (fst s) r r g /\ mat_is (snd s) r r h)
      (fun e => utils_err e \/ (r <> c /\ e = InvalidSize)) False.
  Proof.
    intros Hm. destruct (mat_is_dim _ _ _ _ Hm) as [Dr Dc]. rewrite qr_unfold.
    rewrite (mi_rows _ _ _ _ Hm), (mi_cols _ _ _ _ Hm).
    destruct (m_init_new (A := A) r c Dr Dc) as (m0 & E0 & H0). rewrite (exec_step _ _ _ _ E0).
    destruct (m_copy_from_ok m0 _ r c _ _ H0 Hm) as (m1 & E1 & H1). unfold exec at 1. rewrite E1. cbn [rbind].
    unfold exec at 1. rewrite E0. cbn [rbind]. unfold exec at 1. rewrite E0. cbn [rbind].
    apply rwp_bind, wp_exec. eapply wp_conseq; [apply (gs_shape m1 r c _ H1)| | |auto].
    2:{ intros e s' H. left. auto. }
    intros _ q (h & Hq).
    destruct (m_copy_from_ok m0 _ r c _ _ H0 Hq) as (t1 & F1 & K1). rewrite (exec_step _ _ _ _ F1).
    destruct (m_transpose_ok t1 r c _ K1) as (t2 & F2 & K2). unfold exec at 1. rewrite F2. cbn [rbind].
    destruct (Nat.eq_dec r c) as [Erc|Nrc].
    - subst c. apply rwp_bind.
      destruct (m_mul_wp m0 t2 m r r r _ _ _ H0 K2 Hm) as [(_ & E & H)|(i & j & n & e & Hi & Hj & Hn & He & _ & _ & E & _)].
      + unfold exec. rewrite (surjective_pairing (m_mul t2 m m0)), E. cbn [rwp]. split; auto. cbn [fst snd]. eauto.
      + unfold exec. rewrite (surjective_pairing (m_mul t2 m m0)), E. cbn [rwp]. left. eexists; eauto.
    - unfold exec. rewrite (m_mul_size m0 t2 m r c _ c r _ r c _ H0 K2 Hm) by lia. cbn. auto.
  Qed.
End Gs.

(** ** exact arithmetic *)
Section Real.
  Variable n : nat.
  Definition cdot (q : nat -> nat -> R) (s : nat) (v : nat -> R) : R := Rsum n (fun k => q k s * v k).
  (** columns [< c] of [q] are orthonormal *)
  Definition ortho (c : nat) (q : nat -> nat -> R) : Prop :=
    forall s t, (s < c)%nat -> (t < c)%nat -> cdot q s (fun k => q k t) = rid s t.
  (** column [j] of [a] is the combination of the first [j+1] columns of [q] *)
  Definition spans (c : nat) (q a : nat -> nat -> R) : Prop :=
    forall i j, (i < n)%nat -> (j < c)%nat ->
      a i j = Rsum (S j) (fun s => cdot q s (fun k => a k j) * q i s).
  (** the residual of column [c] after removing [t] directions *)
  Definition resid (q a : nat -> nat -> R) (c t : nat) (i : nat) : R :=
    a i c - Rsum t (fun s => cdot q s (fun k => a k c) * q i s).

  Lemma cdot_ext q q' s v v' : (forall k, (k < n)%nat -> q k s = q' k s) -> (forall k, (k < n)%nat -> v k = v' k) ->
    cdot q s v = cdot q' s v'.
  Proof. intros H H'. apply Rsum_ext. intros k Hk. rewrite H, H' by auto. reflexivity. Qed.
  Lemma cdot_resid q a c t u : ortho c q -> (t <= c)%nat -> (u < c)%nat ->
    cdot q u (resid q a c t) = if (u <? t)%nat then 0 else cdot q u (fun k => a k c).
  Proof.
    intros H Ht Hu. unfold cdot at 1, resid.
    rewrite (Rsum_ext n _ (fun k => q k u * a k c + (-1) * Rsum t (fun s => cdot q s (fun k => a k c) * (q k u * q k s)))).
    2:{ intros k Hk.
        assert (E : Rsum t (fun s => cdot q s (fun k => a k c) * (q k u * q k s)) = q k u * Rsum t (fun s => cdot q s (fun k => a k c) * q k s))
          by (rewrite <- Rsum_scal; apply Rsum_ext; intros; ring).
        rewrite E. ring. }
    rewrite Rsum_plus, Rsum_scal, Rsum_swap.
    rewrite (Rsum_ext t _ (fun s => if (s =? u)%nat then cdot q s (fun k => a k c) else 0)).
    2:{ intros s Hs. rewrite Rsum_scal. change (Rsum n (fun i => q i u * q i s)) with (cdot q u (fun k => q k s)).
        rewrite H by lia. unfold rid. rewrite Nat.eqb_sym. destruct (s =? u)%nat; ring. }
    fold (cdot q u (fun k => a k c)).
    destruct (Nat.ltb_spec u t).
    - rewrite Rsum_pick by auto. ring.
    - rewrite (Rsum_0 t (fun s => if (s =? u)%nat then cdot q s (fun k => a k c) else 0)); [ring|].
      intros s Hs. destruct (Nat.eqb_spec s u); [lia|auto].
  Qed.
End Real.

Lemma Rsum_sq n g : 0 <= Rsum n (fun k => g k * g k).
Proof. induction n as [|k IH]; cbn; [lra|]. pose proof (Rle_0_sqr (g k)). unfold Rsqr in *. lra. Qed.
Lemma dot_fold_r m r c f k1 k2 : mat_r m r c f -> (k1 < c)%nat -> (k2 < c)%nat ->
  rfold (range 0 r) (fun k acc => let? x := m_get (A := RX) m k k1 in let? y := m_get m k k2 in Ok (acc + x * y)%F) f0
  = Ok (Some (Rsum r (fun k => f k k1 * f k k2))).
Proof. intros Hm H1 H2. rewrite (dot_fold (A := RX) m r c _ k1 k2 Hm H1 H2). cbn [fmul RX rx2]. rewrite fsum_RX. reflexivity. Qed.

Lemma gs_sub_r n m q a c t (X : LinalgError -> Mat (T (Arith := RX)) -> Prop) (Q : unit -> Mat (T (Arith := RX)) -> Prop) :
  (c < n)%nat -> (t < c)%nat -> ortho n c q ->
  mat_r m n n (fun i j => if (j =? c)%nat then resid n q a c t i else q i j) ->
  (forall m', mat_r m' n n (fun i j => if (j =? c)%nat then resid n q a c (S t) i else q i j) -> Q tt m') ->
  wp (gs_sub n c t) m Q X False.
Proof.
  intros Hc Ht Ho Hm HQ. unfold gs_sub. apply wp_bind, wp_reads. rewrite (dot_fold_r _ _ _ _ _ _ Hm) by lia. cbn [rwp].
  assert (ED : Rsum n (fun k => (if (t =? c)%nat then resid n q a c t k else q k t) * (if (c =? c)%nat then resid n q a c t k else q k c))
     = cdot n q t (fun k => a k c)).
  { rewrite (Rsum_ext n _ (fun k => q k t * resid n q a c t k)).
    2:{ intros k Hk. rewrite Nat.eqb_refl. destruct (Nat.eqb_spec t c); [lia|auto]. }
    change (cdot n q t (resid n q a c t) = cdot n q t (fun k => a k c)). rewrite (cdot_resid n q a c t t Ho) by lia.
    destruct (Nat.ltb_spec t t); [lia|auto]. }
  rewrite ED. clear ED.
  apply wp_for with (I := fun k s => mat_r s n n (fun i j => if (j =? c)%nat then (if (i <? k)%nat then resid n q a c (S t) i else resid n q a c t i) else q i j)).
  - eapply mat_is_ext; [exact Hm|]. intros i j Hi Hj. cbv beta. destruct (Nat.ltb_spec i 0); [lia|auto].
  - intros k s Hk Hs. apply wp_bind, wp_reads. rewrite (mi_get _ _ _ _ Hs) by lia. cbn [rwp].
    apply wp_bind, wp_reads. rewrite (mi_get _ _ _ _ Hs) by lia. cbn [rwp]. rewrite Nat.eqb_refl.
    destruct (Nat.ltb_spec k k); [lia|]. destruct (Nat.eqb_spec t c); [lia|]. cbn [fsub fmul RX rx2].
    eapply wp_m_set_r; [exact Hs|lia|lia| |discriminate].
    intros v m' Ev H'. injection Ev as <-. eapply mat_is_ext; [exact H'|]. intros i j Hi Hj. cbv beta. f_equal.
    destruct (Nat.eqb_spec i k), (Nat.eqb_spec j c), (Nat.ltb_spec i k), (Nat.ltb_spec i (S k)); cbn [andb]; subst; auto; try lia.
    unfold resid. cbn [Rsum]. ring.
  - rewrite Nat.max_0_l. intros s Hs. apply HQ. eapply mat_is_ext; [exact Hs|]. intros i j Hi Hj. cbv beta.
    destruct (Nat.ltb_spec i n); [auto|lia].
Qed.

Lemma resid_0 n q a c i : resid n q a c 0 i = a i c.
Proof. unfold resid. cbn. ring. Qed.

(** the first [c] columns of [q] are images by [a] of vectors that vanish beyond the column index *)
Definition images n c (q a : nat -> nat -> R) : Prop :=
  forall t, (t < c)%nat -> exists x : nat -> R, (forall s, (t < s)%nat -> x s = 0) /\ forall i, (i < n)%nat -> q i t = rmv n a x i.
Lemma resid_image n q a c t : (c < n)%nat -> (t <= c)%nat -> images n c q a ->
  exists x : nat -> R, x c = 1 /\ (forall s, (c < s)%nat -> x s = 0) /\ forall i, (i < n)%nat -> resid n q a c t i = rmv n a x i.
Proof.
  intros Hc Ht Hi. induction t as [|t IH].
  - exists (fun s => if (s =? c)%nat then 1 else 0). split; [|split].
    + rewrite Nat.eqb_refl. auto.
    + intros s Hs. destruct (Nat.eqb_spec s c); [lia|auto].
    + intros i Hi'. rewrite resid_0. unfold rmv.
      rewrite (Rsum_ext n _ (fun t => if (t =? c)%nat then a i t else 0)) by (intros s Hs; destruct (s =? c)%nat; ring).
      rewrite Rsum_pick; auto.
  - destruct IH as (x & X1 & X2 & X3); [lia|]. destruct (Hi t ltac:(lia)) as (y & Y1 & Y2).
    set (k := cdot n q t (fun k => a k c)).
    exists (fun s => x s - k * y s). split; [|split].
    + rewrite X1, Y1 by lia. ring.
    + intros s Hs. rewrite X2, Y1 by lia. ring.
    + intros i Hi'. assert (E : resid n q a c (S t) i = resid n q a c t i - k * q i t).
      { unfold resid. cbn [Rsum]. fold k. ring. }
      rewrite E, X3, Y2 by auto. unfold rmv. 
      rewrite (Rsum_ext n (fun t0 => a i t0 * (x t0 - k * y t0)) (fun s => a i s * x s + (- k) * (a i s * y s))) by (intros; ring).
      rewrite Rsum_plus, Rsum_scal. ring.
Qed.

Definition gs_inv n c q a : Prop := ortho n c q /\ spans n c q a /\ (forall i j, (i < n)%nat -> (c <= j)%nat -> (j < n)%nat -> q i j = a i j) /\ images n c q a.

Lemma gs_rwp n m a : mat_r m n n a ->
  wp (gs n n) m (fun _ m' => exists q, mat_r m' n n q /\
      (gs_inv n n q a \/ near_singular n a))
    (fun _ _ => False) False.
Proof.
  intros Hm. unfold gs. apply wp_for_break with (I := fun c s => exists q, mat_r s n n q /\ gs_inv n c q a).
  - exists a. split; [exact Hm|]. split; [|split; [|split]]; intros ?; intros; try lia; auto.
  - intros c s Hc (q & Hs & Ho & Hsp & Hr & Him). apply wp_bind.
    apply wp_for with (I := fun t s => mat_r s n n (fun i j => if (j =? c)%nat then resid n q a c t i else q i j)).
    + eapply mat_is_ext; [exact Hs|]. intros i j Hi Hj. cbv beta. destruct (Nat.eqb_spec j c) as [->|]; auto.
      rewrite resid_0, Hr by lia. auto.
    + intros t s' Ht Hs'. eapply gs_sub_r; [lia| |exact Ho|exact Hs'|auto]. lia.
    + rewrite Nat.max_0_l. intros s' Hs'. unfold gs_norm. apply wp_bind, wp_reads.
      rewrite (dot_fold_r _ _ _ _ _ _ Hs') by lia. cbn [rwp]. rewrite Nat.eqb_refl.
      set (v := resid n q a c c) in *.
      set (N2 := Rsum n (fun k => v k * v k)) in *.
      assert (P2 : 0 <= N2).
      { apply Rsum_sq. }
      cbn [fsqrt RX rx_sqrt]. rewrite Rlt_bool_false by auto. rewrite eps_RX. cbn [fltb RX rxcmp].
      destruct (Rlt_bool_spec eps (sqrt N2)) as [Lt|Ge].
      2:{ apply wp_sret. exists (fun i j => if (j =? c)%nat then v i else q i j). split; [exact Hs'|]. right.
          destruct (resid_image n q a c c ltac:(lia) ltac:(lia) Him) as (x & X1 & _ & X3). exists c, x. split; [lia|]. split; [auto|].
          rewrite (Rsum_ext n _ (fun k => v k * v k)); [exact Ge|]. intros k Hk. unfold v. rewrite X3 by auto. ring. }
      pose proof eps_pos as EP. assert (Np : 0 < sqrt N2) by lra.
      apply wp_bind.
      apply wp_for with (I := fun k s => mat_r s n n (fun i j => if (j =? c)%nat then (if (i <? k)%nat then v i / sqrt N2 else v i) else q i j)).
      * eapply mat_is_ext; [exact Hs'|]. intros i j Hi Hj. cbv beta. destruct (Nat.ltb_spec i 0); [lia|auto].
      * intros k s1 Hk Hs1. apply wp_bind, wp_reads. rewrite (mi_get _ _ _ _ Hs1) by lia. cbn [rwp]. rewrite Nat.eqb_refl.
        destruct (Nat.ltb_spec k k); [lia|]. cbn [fdiv RX rx_div]. rewrite Req_bool_false by lra.
        eapply wp_m_set_r; [exact Hs1|lia|lia| |discriminate].
        intros w m' Ev H'. injection Ev as <-. eapply mat_is_ext; [exact H'|]. intros i j Hi Hj. cbv beta. f_equal.
        destruct (Nat.eqb_spec i k), (Nat.eqb_spec j c), (Nat.ltb_spec i k), (Nat.ltb_spec i (S k)); cbn [andb]; subst; auto; lia.
      * rewrite Nat.max_0_l. intros s1 Hs1. apply wp_sret. set (q' := fun i j => if (j =? c)%nat then v i / sqrt N2 else q i j).
        exists q'. split.
        { eapply mat_is_ext; [exact Hs1|]. intros i j Hi Hj. cbv beta. unfold q'. destruct (Nat.ltb_spec i n); [auto|lia]. }
        assert (Q1 : forall k t, (t < c)%nat -> q' k t = q k t).
        { intros k t Ht. unfold q'. destruct (Nat.eqb_spec t c); [lia|auto]. }
        assert (Qc : forall k, q' k c = v k / sqrt N2) by (intros k; unfold q'; rewrite Nat.eqb_refl; auto).
        assert (D0 : forall u, (u < c)%nat -> cdot n q u v = 0).
        { intros u Hu. unfold v. rewrite (cdot_resid n q a c c u Ho) by lia. destruct (Nat.ltb_spec u c); [auto|lia]. }
        assert (Dc : forall u w, cdot n q' c (fun k => w k) = Rsum n (fun k => v k * w k) / sqrt N2 /\ u = u :> nat).
        { intros u w. split; auto. unfold cdot. rewrite (Rsum_ext n _ (fun k => / sqrt N2 * (v k * w k))).
          - rewrite Rsum_scal. unfold Rdiv. ring.
          - intros k Hk. rewrite Qc. unfold Rdiv. ring. }
        assert (Sq : sqrt N2 * sqrt N2 = N2) by (apply sqrt_sqrt; auto).
        assert (Av : forall i, a i c = v i + Rsum c (fun s => cdot n q s (fun k => a k c) * q i s)).
        { intros i. unfold v, resid. ring. }
        assert (Va : Rsum n (fun k => v k * a k c) = N2).
        { rewrite (Rsum_ext n _ (fun k => v k * v k + Rsum c (fun s => cdot n q s (fun k0 => a k0 c) * (q k s * v k)))).
          2:{ intros k Hk. rewrite Av at 1. rewrite Rmult_plus_distr_l. f_equal. rewrite <- Rsum_scal. apply Rsum_ext. intros; ring. }
          rewrite Rsum_plus, Rsum_swap. fold N2.
          rewrite (Rsum_0 c (fun j => Rsum n (fun i => cdot n q j (fun k0 => a k0 c) * (q i j * v i)))); [ring|].
          intros s2 Hs2. rewrite Rsum_scal. change (Rsum n (fun i => q i s2 * v i)) with (cdot n q s2 v). rewrite D0 by auto. ring. }
        split; [|split; [|split]].
        -- (* orthonormal *)
           intros s2 t Hs2 Ht.
           destruct (Nat.eq_dec s2 c) as [->|Ns], (Nat.eq_dec t c) as [->|Nt].
           ++ destruct (Dc 0%nat (fun k => q' k c)) as [-> _]. unfold rid. rewrite Nat.eqb_refl.
              rewrite (Rsum_ext n _ (fun k => / sqrt N2 * (v k * v k))) by (intros; rewrite Qc; unfold Rdiv; ring).
              rewrite Rsum_scal. fold N2. rewrite <- Sq at 2. field. lra.
           ++ destruct (Dc 0%nat (fun k => q' k t)) as [-> _]. unfold rid. destruct (Nat.eqb_spec c t); [lia|].
              rewrite (Rsum_ext n _ (fun k => q k t * v k)) by (intros; rewrite Q1 by lia; ring).
              change (Rsum n (fun k => q k t * v k)) with (cdot n q t v). rewrite D0 by lia. unfold Rdiv. ring.
           ++ unfold cdot. rewrite (Rsum_ext n _ (fun k => / sqrt N2 * (q k s2 * v k))) by (intros; rewrite Q1, Qc by lia; unfold Rdiv; ring).
              rewrite Rsum_scal. change (Rsum n (fun k => q k s2 * v k)) with (cdot n q s2 v). rewrite D0 by lia.
              unfold rid. destruct (Nat.eqb_spec s2 c); [lia|]. ring.
           ++ rewrite (cdot_ext n q' q s2 _ (fun k => q k t)); [apply Ho; lia| |]; intros; apply Q1; lia.
        -- (* span *)
           intros i j Hi Hj. destruct (Nat.eq_dec j c) as [->|Nj].
           ++ cbn [Rsum]. destruct (Dc 0%nat (fun k => a k c)) as [-> _]. rewrite Va, Qc.
              rewrite (Rsum_ext c _ (fun s => cdot n q s (fun k => a k c) * q i s)).
              2:{ intros s2 Hs2. rewrite (Q1 i s2) by auto. f_equal. apply cdot_ext; auto. }
              rewrite (Av i) at 1. rewrite Rplus_comm. f_equal. rewrite <- Sq at 1. field. lra.
           ++ rewrite (Hsp i j) at 1 by lia. apply Rsum_ext. intros s2 Hs2. rewrite (Q1 i s2) by lia. f_equal.
              apply cdot_ext; [intros; symmetry; apply Q1; lia|auto].
        -- intros i j Hi Hj Hjn. unfold q'. destruct (Nat.eqb_spec j c); [lia|]. apply Hr; lia.
        -- intros t Ht. destruct (Nat.eq_dec t c) as [->|Nt].
           ++ destruct (resid_image n q a c c ltac:(lia) ltac:(lia) Him) as (x & _ & X2 & X3).
              exists (fun s => x s / sqrt N2). split; [intros s2 Hs2; rewrite X2 by auto; unfold Rdiv; ring|].
              intros i Hi. rewrite Qc. unfold v. rewrite X3 by auto. unfold rmv, Rdiv. rewrite <- Rsum_scal_r. apply Rsum_ext. intros; ring.
           ++ destruct (Him t ltac:(lia)) as (x & X1 & X2). exists x. split; auto. intros i Hi. rewrite Q1 by lia. auto.
  - rewrite Nat.max_0_l. intros s (q & Hs & Hi). exists q. auto.
Qed.

Lemma qr_rwp m n a : mat_r m n n a ->
  rwp (m_qr_decomp m) (fun s => exists q r, mat_r (fst s) n n q /\ mat_r (snd s) n n r /\ req n n r (rmul n (rtr q) a) /\
     (gs_inv n n q a \/ near_singular n a)) (fun _ => False) False.
Proof.
  intros Hm. destruct (mat_is_dim _ _ _ _ Hm) as [Dn _]. rewrite qr_unfold.
  rewrite (mi_rows _ _ _ _ Hm), (mi_cols _ _ _ _ Hm).
  destruct (m_init_new (A := RX) n n Dn Dn) as (m0 & E0 & H0). rewrite (exec_step _ _ _ _ E0).
  destruct (m_copy_from_ok m0 _ n n _ _ H0 Hm) as (m1 & E1 & H1). unfold exec at 1. rewrite E1. cbn [rbind].
  unfold exec at 1. rewrite E0. cbn [rbind]. unfold exec at 1. rewrite E0. cbn [rbind].
  apply rwp_bind, wp_exec. eapply wp_conseq; [apply (gs_rwp n m1 a H1)| |tauto|auto].
  intros _ mq (q & Hq & Hi).
  destruct (m_copy_from_ok m0 _ n n _ _ H0 Hq) as (t1 & F1 & K1). rewrite (exec_step _ _ _ _ F1).
  destruct (m_transpose_ok t1 n n _ K1) as (t2 & F2 & K2). unfold exec at 1. rewrite F2. cbn [rbind].
  destruct (m_mul_r m0 t2 m n n n _ (fun i j => q j i) a H0 K2 Hm) as (mr & F3 & K3). unfold exec. rewrite F3. cbn [rbind rwp fst snd].
  exists q, (rmul n (fun i j => q j i) a). split; [exact Hq|]. split; [exact K3|]. split; [intros i j _ _; reflexivity|exact Hi].
Qed.

Lemma qr_eq n q a : gs_inv n n q a -> req n n (rmul n (rtr q) q) rid /\
  upper n (rmul n (rtr q) a) /\ req n n (rmul n q (rmul n (rtr q) a)) a.
Proof.
  intros (Ho & Hs & _ & _).
  assert (U : upper n (rmul n (rtr q) a)).
  { intros i j Hi Hj L. unfold rmul, rtr.
    rewrite (Rsum_ext n _ (fun k => Rsum (S j) (fun s => cdot n q s (fun k => a k j) * (q k i * q k s)))).
    2:{ intros k Hk. rewrite (Hs k j) at 1 by auto. rewrite <- Rsum_scal. apply Rsum_ext. intros; ring. }
    rewrite Rsum_swap. apply Rsum_0. intros s Hs'. rewrite Rsum_scal.
    change (Rsum n (fun k => q k i * q k s)) with (cdot n q i (fun k => q k s)). rewrite Ho by lia.
    unfold rid. destruct (Nat.eqb_spec i s); [lia|ring]. }
  split; [|split].
  - intros i j Hi Hj. apply Ho; auto.
  - exact U.
  - intros i j Hi Hj. unfold rmul at 1. rewrite (Rsum_split n j) by auto.
    rewrite (Rsum_0 n (fun t => if (j <? t)%nat then _ else 0)).
    2:{ intros t Ht. destruct (Nat.ltb_spec j t); auto. rewrite U by auto. ring. }
    rewrite (Hs i j) by auto. cbn [Rsum]. rewrite Rplus_0_r. f_equal.
    + apply Rsum_ext. intros t Ht. unfold rmul, rtr, cdot. ring.
    + unfold rmul, rtr, cdot. ring.
Qed.

(*@ C21_qr *)
(** C21: [qr_decomp] of a square matrix always succeeds in exact arithmetic, R is Q' A, and either Q is
    orthogonal, R is upper triangular and Q R = A, or A is singular up to EPSILON *)
Lemma l_qr :
  forall (m : Mat (T (Arith := RX))) (n : nat) (a : nat -> nat -> R), mat_r m n n a ->
  exists mq mr q r, m_qr_decomp m = Ok (mq, mr) /\ mat_r mq n n q /\ mat_r mr n n r /\
    req n n r (rmul n (rtr q) a) /\
    ((req n n (rmul n (rtr q) q) rid /\ upper n r /\ req n n (rmul n q r) a)
     \/ near_singular n a).
Proof.
  intros m n a Hm. pose proof (qr_rwp m n a Hm) as W. destruct (m_qr_decomp m) as [[mq mr]|e|]; cbn [rwp fst snd] in W; [|tauto|tauto].
  destruct W as (q & r & Hq & Hr & E & D). exists mq, mr, q, r. conjs; auto.
  destruct D as [D|D]; [left|right; exact D]. destruct (qr_eq n q a D) as (O & U & P). conjs; auto.
  - intros i j Hi Hj L. rewrite E by auto. apply U; auto.
  - intros i j Hi Hj. rewrite <- P by auto. apply rmul_ext; [auto|]. intros t Ht. apply E; auto.
Qed.

(*@ C21_nonsquare *)
(** C21, violation for every arithmetic (binary32 included): on a non-square matrix [qr_decomp] never
    succeeds; on a square one it returns two matrices of that size or a non-finite-value error; it never panics *)
Lemma l_qr_nonsquare :
  forall (A : Arith) (OK : ArithOk A) (m : Mat T) (r c : nat) (f : nat -> nat -> T), mat_is m r c f ->
  (r <> c -> m_qr_decomp m = Err InvalidSize \/ exists u, m_qr_decomp m = Err (UtilsErr u)) /\
  (r = c -> (exists q s g h, m_qr_decomp m = Ok (q, s) /\ mat_is q r r g /\ mat_is s r r h)
            \/ exists u, m_qr_decomp m = Err (UtilsErr u)).
Proof.
  intros A OK m r c f Hm. pose proof (qr_shape m r c f Hm) as W.
  destruct (m_qr_decomp m) as [[q s]|e|]; cbn [rwp fst snd] in W; [| |tauto].
  - destruct W as (-> & g & h & H1 & H2). split; [lia|]. intros _. left. exists q, s, g, h. auto.
  - destruct W as [(u & ->)|(N & ->)]; split; intros; eauto; lia.
Qed.

(*@ C21_nonsquare_refuted *)
(** C21, violation: the 3 x 2 matrix of the first two unit vectors has no QR decomposition according to the
    library *)
Lemma l_qr_w :
  exists m : Mat f32, forall lm : Libm, wfm (A := F32 lm) m /\
  show_m m = (3%nat, 2%nat, true, map sf [1; 0; 0; 1; 0; 0]%Z) /\ m_qr_decomp (A := F32 lm) m = Err InvalidSize.
Proof.
  exists (mk_mat (A := F32 lm_id) 3 2 (map z32 [1; 0; 0; 1; 0; 0]%Z)). intros lm. split; [|split].
  - apply wfm_b_ok. vm_compute. reflexivity.
  - vm_compute. reflexivity.
  - vm_compute. reflexivity.
Qed.

(*@ C21_early_stop_refuted *)
(** C21, violation: on the singular matrix [[0,1],[0,1]] the loop stops at the first column and [qr_decomp]
    returns Ok with Q = A and Q R = [[0,2],[0,2]] *)
Lemma l_qr_stop :
  exists m : Mat f32, forall lm : Libm, wfm (A := F32 lm) m /\
  show_m m = (2%nat, 2%nat, true, map sf [0; 1; 0; 1]%Z) /\
  rmap (fun s => (show_m (fst s), show_m (snd s), rmap show_m (m_mul_new (A := F32 lm) (fst s) (snd s)))) (m_qr_decomp (A := F32 lm) m) =
    Ok ((2%nat, 2%nat, true, map sf [0; 1; 0; 1]%Z), (2%nat, 2%nat, true, map sf [0; 0; 0; 2]%Z),
        Ok (2%nat, 2%nat, true, map sf [0; 2; 0; 2]%Z)).
Proof.
  exists (mk_mat (A := F32 lm_id) 2 2 (map z32 [0; 1; 0; 1]%Z)). intros lm. split; [|split].
  - apply wfm_b_ok. vm_compute. reflexivity.
  - vm_compute. reflexivity.
  - vm_compute. reflexivity.
Qed.

(*@ example *)
Example C21_example :
  let A := F32 lm_id in
  let m := mk_mat 2 2 (map z32 [0; 2; 3; 1]%Z) in
  wfm m /\ rmap (fun s => (show_m (fst s), show_m (snd s))) (m_qr_decomp m) =
    Ok ((2%nat, 2%nat, true, map sf [0; 1; 1; 0]%Z), (2%nat, 2%nat, true, map sf [3; 1; 0; 2]%Z)).
Proof. cbv zeta. split; [apply wfm_b_ok; vm_compute; reflexivity|vm_compute; reflexivity]. Qed.
