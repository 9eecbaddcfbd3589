(** C73: the QR decomposition in f32. *)
(*@+*)
From Coq Require Import List Arith ZArith Reals Lia Bool Lra SpecFloat.
From Flocq Require Import Core BinarySingleNaN.
From Verif Require Import M_Base M_Arith M_Utils M_Vector M_Matrix M_F32
  S_Spec S_Linalg S_Norm S_Lu S_F32 P_Inst P_InstF.
Import ListNotations.
Local Open Scope R_scope.
(*@-*)
From Coq Require Import Psatz.
From Verif Require Import P_Hoare P_Cont P_Loops P_Access P_Pointwise P_Trans P_Float P_Product P_Norm P_Dot P_FErr P_FAcc P_F32App P_Lup P_Lup32 P_Eig P_Qr P_QrConv P_Norm32 P_Chol32 S_Lu32.

(** ** what the loops compute, for every arithmetic *)
Section Built.
  Context {A : Arith} {OK : ArithOk A}.
  (** column [c] of [a] after [t] projections have been removed *)
  Fixpoint gsx (n : nat) (q a : nat -> nat -> T) (c t : nat) : nat -> T :=
    match t with
    | O => fun i => a i c
    | S t => fun i => (gsx n q a c t i - fsum n (fun k => q k t * gsx n q a c t k) * q i t)%F
    end.
  Definition gsn (n : nat) (q a : nat -> nat -> T) (c : nat) : T := fsqrt (fsum n (fun k => gsx n q a c c k * gsx n q a c c k))%F.
  Definition done (n c : nat) (q a : nat -> nat -> T) : Prop :=
    forall j, (j < c)%nat -> (gsn n q a j >? EPSILON)%F = true /\ forall i, (i < n)%nat -> q i j = (gsx n q a j j i / gsn n q a j)%F.
  Definition built (n c : nat) (q a : nat -> nat -> T) : Prop :=
    done n c q a /\ (forall i j, (i < n)%nat -> (c <= j < n)%nat -> q i j = a i j).
  Definition broken (n c : nat) (q a : nat -> nat -> T) : Prop :=
    done n c q a /\ (gsn n q a c >? EPSILON)%F = false /\ (forall i, (i < n)%nat -> q i c = gsx n q a c c i) /\
    (forall i j, (i < n)%nat -> (c < j < n)%nat -> q i j = a i j).

  Lemma gsx_ext n q q' a c t : (forall k j, (k < n)%nat -> (j < t)%nat -> q k j = q' k j) -> forall i, (i < n)%nat -> gsx n q a c t i = gsx n q' a c t i.
  Proof.
    induction t as [|t IH]; intros H i Hi; cbn [gsx]; [reflexivity|].
    assert (IH' : forall i, (i < n)%nat -> gsx n q a c t i = gsx n q' a c t i) by (intros k Hk; apply IH; auto).
    rewrite IH', (H i t) by auto. f_equal. f_equal. apply fsum_ext. intros k Hk. rewrite (H k t), IH' by auto. reflexivity.
  Qed.
  Lemma gsn_ext n q q' a c : (forall k j, (k < n)%nat -> (j < c)%nat -> q k j = q' k j) -> gsn n q a c = gsn n q' a c.
  Proof. intros H. unfold gsn. f_equal. apply fsum_ext. intros k Hk. rewrite (gsx_ext n q q' a c c H k Hk). reflexivity. Qed.
  Lemma done_ext n c q q' a : (forall k j, (k < n)%nat -> (j < c)%nat -> q k j = q' k j) -> done n c q a -> done n c q' a.
  Proof.
    intros H D j Hj. destruct (D j Hj) as [D1 D2]. assert (E : gsn n q a j = gsn n q' a j) by (apply gsn_ext; intros; apply H; lia).
    rewrite <- E. split; [exact D1|]. intros i Hi. rewrite <- H, D2 by lia. f_equal. apply gsx_ext; [intros; apply H; lia|exact Hi].
  Qed.

  Definition all_valid (n : nat) (a : nat -> nat -> T) : Prop :=
    forall c q, (c < n)%nat -> built n c q a -> (forall i j, (i < n)%nat -> (j < n)%nat -> valid (q i j)) ->
    (forall t i, (t <= c)%nat -> (i < n)%nat -> valid (gsx n q a c t i)) /\
    ((gsn n q a c >? EPSILON)%F = true -> forall i, (i < n)%nat -> valid (gsx n q a c c i / gsn n q a c)%F).

  Lemma wp_set_ok m r c f i j x (Q : unit -> Mat T -> Prop) (X : LinalgError -> Mat T -> Prop) (P : Prop) : mat_is m r c f -> (i < r)%nat -> (j < c)%nat ->
    valid x -> (forall m', mat_is m' r c (fupd2 f i j x) -> Q tt m') -> wp (m_set i j x) m Q X P.
  Proof.
    intros Hm Hi Hj V HQ. eapply wp_m_set; eauto. intros k Hk. exfalso. apply bad_Some_not in Hk. auto.
  Qed.

  Lemma gs_wp n m a : mat_is m n n a -> all_valid n a ->
    wp (gs n n) m (fun _ m' => exists q, mat_is m' n n q /\ (built n n q a \/ exists c, (c < n)%nat /\ broken n c q a)) (fun _ _ => False) False.
  Proof.
    intros Hm HV. unfold gs. apply wp_for_break with (I := fun c s => exists q, mat_is s n n q /\ built n c q a).
    - exists a. split; [exact Hm|]. split; [intros j Hj; lia|auto].
    - intros c s Hc (q & Hs & B). apply wp_bind.
      destruct (HV c q ltac:(lia) B (fun i j Hi Hj => mat_is_valid _ _ _ _ i j Hs Hi Hj)) as [V1 V2]. destruct B as [B1 B2].
      apply wp_for with (I := fun t s => mat_is s n n (fun i j => if (j =? c)%nat then gsx n q a c t i else q i j)).
      + eapply mat_is_ext; [exact Hs|]. intros i j Hi Hj. cbv beta. destruct (Nat.eqb_spec j c) as [->|]; [|reflexivity]. cbn [gsx]. apply B2; lia.
      + intros t s' Ht Hs'. unfold gs_sub. apply wp_bind, wp_reads. rewrite (dot_fold _ _ _ _ _ _ Hs') by lia. cbn [rwp].
        rewrite (fsum_ext n _ (fun k => q k t * gsx n q a c t k)%F).
        2:{ intros k Hk. cbv beta. rewrite Nat.eqb_refl. destruct (Nat.eqb_spec t c); [lia|reflexivity]. }
        apply wp_for with (I := fun k s => mat_is s n n (fun i j => if (j =? c)%nat then (if (i <? k)%nat then gsx n q a c (S t) i else gsx n q a c t i) else q i j)).
        * eapply mat_is_ext; [exact Hs'|]. intros i j Hi Hj. cbv beta. destruct (Nat.ltb_spec i 0); [lia|reflexivity].
        * intros k s1 Hk Hs1. apply wp_bind, wp_reads. rewrite (mi_get _ _ _ _ Hs1) by lia. cbn [rwp].
          apply wp_bind, wp_reads. rewrite (mi_get _ _ _ _ Hs1) by lia. cbn [rwp]. rewrite Nat.eqb_refl.
          destruct (Nat.ltb_spec k k); [lia|]. destruct (Nat.eqb_spec t c); [lia|].
          change (wp (m_set k c (gsx n q a c (S t) k)) s1 (fun _ s' => mat_is s' n n (fun i j => if (j =? c)%nat then (if (i <? S k)%nat then gsx n q a c (S t) i else gsx n q a c t i) else q i j)) (fun _ _ => False) False).
          eapply wp_set_ok; [exact Hs1|lia|lia|apply V1; lia|]. intros m' H'. eapply mat_is_ext; [exact H'|]. intros i j Hi Hj. unfold fupd2.
          destruct (Nat.eqb_spec i k), (Nat.eqb_spec j c), (Nat.ltb_spec i k), (Nat.ltb_spec i (S k)); cbn [andb]; subst; auto; lia.
        * rewrite Nat.max_0_l. intros s1 Hs1. eapply mat_is_ext; [exact Hs1|]. intros i j Hi Hj. cbv beta. destruct (Nat.ltb_spec i n); [reflexivity|lia].
      + rewrite Nat.max_0_l. intros s' Hs'. unfold gs_norm. apply wp_bind, wp_reads.
        rewrite (dot_fold _ _ _ _ _ _ Hs') by lia. cbn [rwp]. rewrite Nat.eqb_refl.
        fold (gsn n q a c). destruct (gsn n q a c >? EPSILON)%F eqn:G.
        2:{ apply wp_sret. exists (fun i j => if (j =? c)%nat then gsx n q a c c i else q i j). split; [exact Hs'|]. right. exists c. split; [lia|].
            set (q' := fun i j => if (j =? c)%nat then gsx n q a c c i else q i j).
            assert (X : forall k j, (k < n)%nat -> (j < c)%nat -> q k j = q' k j) by (intros k j _ Hj; unfold q'; destruct (Nat.eqb_spec j c); [lia|reflexivity]).
            split; [apply (done_ext n c q); auto|]. split; [rewrite <- (gsn_ext n q q' a c X); exact G|]. split.
            - intros i Hi. rewrite <- (gsx_ext n q q' a c c X i Hi). unfold q'. rewrite Nat.eqb_refl. reflexivity.
            - intros i j Hi Hj. unfold q'. destruct (Nat.eqb_spec j c); [lia|]. apply B2; lia. }
        apply wp_bind.
        apply wp_for with (I := fun k s => mat_is s n n (fun i j => if (j =? c)%nat then (if (i <? k)%nat then gsx n q a c c i / gsn n q a c else gsx n q a c c i)%F else q i j)).
        * eapply mat_is_ext; [exact Hs'|]. intros i j Hi Hj. cbv beta. destruct (Nat.ltb_spec i 0); [lia|reflexivity].
        * intros k s1 Hk Hs1. apply wp_bind, wp_reads. rewrite (mi_get _ _ _ _ Hs1) by lia. cbn [rwp]. rewrite Nat.eqb_refl. destruct (Nat.ltb_spec k k); [lia|].
          eapply wp_set_ok; [exact Hs1|lia|lia|apply V2; [reflexivity|lia]|]. intros m' H'. eapply mat_is_ext; [exact H'|]. intros i j Hi Hj. unfold fupd2.
          destruct (Nat.eqb_spec i k), (Nat.eqb_spec j c), (Nat.ltb_spec i k), (Nat.ltb_spec i (S k)); cbn [andb]; subst; auto; lia.
        * rewrite Nat.max_0_l. intros s1 Hs1. apply wp_sret. set (q' := fun i j => if (j =? c)%nat then (gsx n q a c c i / gsn n q a c)%F else q i j).
          assert (X : forall k j, (k < n)%nat -> (j < c)%nat -> q k j = q' k j) by (intros k j _ Hj; unfold q'; destruct (Nat.eqb_spec j c); [lia|reflexivity]).
          exists q'. split; [eapply mat_is_ext; [exact Hs1|]; intros i j Hi Hj; cbv beta; unfold q'; destruct (Nat.ltb_spec i n); [reflexivity|lia]|].
          pose proof (done_ext n c q q' a X B1) as D'. split.
          -- intros j Hj. destruct (Nat.eq_dec j c) as [->|Nj]; [|apply D'; lia]. rewrite <- (gsn_ext n q q' a c X). split; [exact G|].
             intros i Hi. rewrite <- (gsx_ext n q q' a c c X i Hi). unfold q'. rewrite Nat.eqb_refl. reflexivity.
          -- intros i j Hi Hj. unfold q'. destruct (Nat.eqb_spec j c); [lia|]. apply B2; lia.
    - rewrite Nat.max_0_l. intros s (q & Hs & B). exists q. auto.
  Qed.

  Lemma qr_ok m n a : mat_is m n n a -> all_valid n a ->
    (forall q, (forall i j, (i < n)%nat -> (j < n)%nat -> valid (q i j)) -> (built n n q a \/ exists c, (c < n)%nat /\ broken n c q a) ->
      forall i j k, (i < n)%nat -> (j < n)%nat -> (1 <= k <= n)%nat -> valid (fsum k (fun t => q t i * a t j)%F)) ->
    exists mq mr q, m_qr_decomp m = Ok (mq, mr) /\ mat_is mq n n q /\ mat_is mr n n (fun i j => fsum n (fun t => q t i * a t j)%F) /\
      (built n n q a \/ exists c, (c < n)%nat /\ broken n c q a).
  Proof.
    intros Hm HV HP. destruct (mat_is_dim _ _ _ _ Hm) as [Dr Dc]. rewrite qr_unfold.
    rewrite (mi_rows _ _ _ _ Hm), (mi_cols _ _ _ _ Hm).
    destruct (m_init_new (A := A) n n Dr Dr) as (m0 & E0 & H0). rewrite (exec_step _ _ _ _ E0).
    destruct (m_copy_from_ok m0 _ n n _ _ H0 Hm) as (m1 & E1 & H1). unfold exec at 1. rewrite E1. cbn [rbind].
    unfold exec at 1. rewrite E0. cbn [rbind]. unfold exec at 1. rewrite E0. cbn [rbind].
    pose proof (gs_wp n m1 a H1 HV) as W. unfold wp in W. unfold exec at 1. destruct (gs n n m1) as [q [o|e|]]; [|contradiction|contradiction]. cbn [snd fst rbind] in *.
    destruct W as (f & Hq & D).
    destruct (m_copy_from_ok m0 _ n n _ _ H0 Hq) as (t1 & F1 & K1). rewrite (exec_step _ _ _ _ F1).
    destruct (m_transpose_ok t1 n n _ K1) as (t2 & F2 & K2). unfold exec at 1. rewrite F2. cbn [rbind].
    destruct (m_mul_ok m0 t2 m n n n _ _ _ H0 K2 Hm) as (r & F3 & K3).
    { intros i j k Hi Hj Hk. apply (HP f (fun i j Hi Hj => mat_is_valid _ _ _ _ i j Hq Hi Hj) D); auto. }
    unfold exec. rewrite F3. cbn [rbind]. exists q, r, f. split; [reflexivity|]. split; [exact Hq|]. split; [exact K3|exact D].
  Qed.
End Built.

(** ** vectors of up to four reals *)
Lemma rdot_cs n x y : Rabs (rdot n x y) <= rnorm n x * rnorm n y.
Proof.
  apply Rsqr_incr_0_var; [|apply Rmult_le_pos; apply rnorm_pos]. rewrite <- Rsqr_abs. unfold Rsqr.
  replace (rnorm n x * rnorm n y * (rnorm n x * rnorm n y)) with ((rnorm n x * rnorm n x) * (rnorm n y * rnorm n y)) by ring.
  rewrite !rnorm_sqr. apply cauchy.
Qed.
Lemma rdot_abs_cs n x y : Rsum n (fun i => Rabs (x i * y i)) <= rnorm n x * rnorm n y.
Proof.
  assert (E : forall z, rnorm n (fun i => Rabs (z i)) = rnorm n z).
  { intros z. unfold rnorm. f_equal. apply Rsum_ext. intros i _. rewrite <- Rabs_mult. apply Rabs_pos_eq, Rle_0_sqr. }
  rewrite <- (E x), <- (E y). eapply Rle_trans; [|apply rdot_cs]. eapply Rle_trans; [|apply Rle_abs]. right. apply Rsum_ext. intros i _. apply Rabs_mult.
Qed.
Lemma rnorm_tri n x y : rnorm n (fun i => x i + y i) <= rnorm n x + rnorm n y.
Proof.
  apply Rsqr_incr_0_var; [|pose proof (rnorm_pos n x); pose proof (rnorm_pos n y); lra]. unfold Rsqr. rewrite rnorm_sqr.
  assert (E : rdot n (fun i => x i + y i) (fun i => x i + y i) = rdot n x x + 2 * rdot n x y + rdot n y y).
  { unfold rdot. rewrite <- Rsum_scal, <- !Rsum_plus. apply Rsum_ext. intros; ring. }
  rewrite E, <- (rnorm_sqr n x), <- (rnorm_sqr n y). pose proof (rdot_cs n x y) as C. apply Rabs_le_inv in C. nra.
Qed.
Lemma rnorm_cell n x e : (n <= 4)%nat -> 0 <= e -> (forall i, (i < n)%nat -> Rabs (x i) <= e) -> rnorm n x <= 2 * e.
Proof.
  intros Hn He H. apply Rsqr_incr_0_var; [|lra]. unfold Rsqr. rewrite rnorm_sqr. apply Rle_trans with (Rsum n (fun _ => e * e)).
  - apply Rsum_le. intros i Hi. specialize (H i Hi). apply Rabs_le_inv in H. nra.
  - rewrite Rsum_const. assert (INR n <= 4) by (replace 4 with (INR 4) by (cbn; lra); apply le_INR, Hn). pose proof (pos_INR n). nra.
Qed.
Lemma rnorm_scal n x k : rnorm n (fun i => k * x i) = Rabs k * rnorm n x.
Proof.
  unfold rnorm. replace (rdot n (fun i => k * x i) (fun i => k * x i)) with (Rsqr k * rdot n x x).
  - rewrite sqrt_mult, sqrt_Rsqr_abs; [reflexivity|apply Rle_0_sqr|apply rdot_pos].
  - unfold rdot, Rsqr. rewrite <- Rsum_scal. apply Rsum_ext. intros; ring.
Qed.
Lemma rnorm_sum n m (g : nat -> nat -> R) : rnorm n (fun i => Rsum m (fun s => g s i)) <= Rsum m (fun s => rnorm n (g s)).
Proof.
  induction m as [|m IH]; cbn [Rsum].
  - right. unfold rnorm. replace (rdot n _ _) with 0; [apply sqrt_0|]. symmetry. apply Rsum_0. intros; ring.
  - eapply Rle_trans; [apply (rnorm_tri n (fun i => Rsum m (fun s => g s i)) (g m))|]. lra.
Qed.
Lemma Rsum_abs_norm n x : (n <= 4)%nat -> Rsum n (fun i => Rabs (x i)) <= 2 * rnorm n x.
Proof.
  intros Hn. rewrite (Rsum_ext n _ (fun i => Rabs (1 * x i))) by (intros; rewrite Rmult_1_l; reflexivity).
  eapply Rle_trans; [apply (rdot_abs_cs n (fun _ => 1) x)|]. apply Rmult_le_compat_r; [apply rnorm_pos|].
  replace 2 with (2 * 1) by ring. apply rnorm_cell; [exact Hn|lra|]. intros. rewrite Rabs_R1. lra.
Qed.
Lemma rdot_cell n x y e : (n <= 4)%nat -> 0 <= e -> (forall i, (i < n)%nat -> Rabs (y i) <= e) -> Rabs (rdot n x y) <= 2 * e * rnorm n x.
Proof.
  intros Hn He H. eapply Rle_trans; [apply rdot_cs|]. rewrite Rmult_comm. apply Rmult_le_compat_r; [apply rnorm_pos|]. apply rnorm_cell; auto.
Qed.

(** ** one column: the residuals [x t] and the coefficients [d t] *)
Definition tau : R := / 1000000000000000000000000000000.
Definition ad : R := 32 / 100000000.
Definition ae : R := 2 / 10000000.
Section Column.
  Variables (n c : nat) (q : nat -> nat -> R) (x : nat -> nat -> R) (d : nat -> R) (M : R).
  Hypothesis Hn : (n <= 4)%nat.
  Hypothesis Hc : (c <= 3)%nat.
  Notation col j := (fun i => q i j).
  Hypothesis HQ : forall t, (t < c)%nat -> Rabs (rnorm n (col t) - 1) <= / 1000000.
  Notation X t := (rnorm n (x t)).
  Definition stepd t := Rabs (d t - rdot n (col t) (x t)) <= ad * X t + tau.
  Definition stepx t := forall i, (i < n)%nat -> Rabs (x (S t) i - (x t i - d t * q i t)) <= ae * X t + tau.

  Lemma step_dot t : (t < c)%nat -> stepd t -> Rabs (d t) <= (1 + 2 / 1000000) * X t + tau.
  Proof.
    intros Ht Hd. unfold stepd in Hd. pose proof (HQ t Ht) as Hq. apply Rabs_le_inv in Hq. pose proof (rdot_cs n (col t) (x t)) as C.
    pose proof (rnorm_pos n (x t)) as P. set (g := rdot n (col t) (x t)) in *. set (Y := X t) in *. set (Qn := rnorm n (col t)) in *.
    assert (Qn * Y <= (1 + / 1000000) * Y) by (apply Rmult_le_compat_r; lra).
    replace (d t) with ((d t - g) + g) by ring. eapply Rle_trans; [apply Rabs_triang|]. unfold ad in *. lra.
  Qed.
  Lemma step_norm t : (t < c)%nat -> stepd t -> stepx t -> X (S t) <= (1 + 3 / 1000000) * X t + 4 * tau.
  Proof.
    intros Ht Hd Hx. pose proof (step_dot t Ht Hd) as Bd. unfold stepd in Hd. pose proof (HQ t Ht) as Hq. apply Rabs_le_inv in Hq.
    pose proof (rdot_cs n (col t) (x t)) as C. pose proof (rnorm_pos n (x t)) as P. pose proof (rnorm_sqr n (x t)) as SX. pose proof (rnorm_sqr n (col t)) as SQ.
    assert (T0 : 0 < tau) by (unfold tau; lra).
    set (y := fun i => x t i - d t * q i t).
    assert (Ey : rdot n y y = rdot n (x t) (x t) - 2 * d t * rdot n (col t) (x t) + d t * d t * rdot n (col t) (col t)).
    { unfold rdot, y. replace (Rsum n (fun t0 => x t t0 * x t t0) - 2 * d t * Rsum n (fun t0 => q t0 t * x t t0) + d t * d t * Rsum n (fun t0 => q t0 t * q t0 t))
        with (Rsum n (fun t0 => x t t0 * x t t0) + (- 2 * d t) * Rsum n (fun t0 => q t0 t * x t t0) + d t * d t * Rsum n (fun t0 => q t0 t * q t0 t)) by ring.
      rewrite <- !Rsum_scal, <- !Rsum_plus. apply Rsum_ext. intros; ring. }
    set (g := rdot n (col t) (x t)) in *. set (Y := X t) in *. set (Qn := rnorm n (col t)) in *.
    assert (By : rnorm n y <= (1 + 2 / 1000000) * Y + 2 * tau).
    { apply Rsqr_incr_0_var; [|unfold tau in *; lra]. unfold Rsqr. rewrite rnorm_sqr, Ey, <- SX, <- SQ.
      replace (Y * Y - 2 * d t * g + d t * d t * (Qn * Qn)) with (Y * Y - g * g + (d t - g) * (d t - g) + d t * d t * (Qn * Qn - 1)) by ring.
      assert (Q2 : Qn * Qn - 1 <= 21 / 10000000) by nra.
      assert (D2 : 0 <= d t * d t <= ((1 + 2 / 1000000) * Y + tau) * ((1 + 2 / 1000000) * Y + tau)).
      { split; [apply Rle_0_sqr|]. rewrite <- (Rabs_pos_eq (d t * d t)) by apply Rle_0_sqr. rewrite Rabs_mult. apply Rmult_le_compat; auto using Rabs_pos. }
      assert (E2 : (d t - g) * (d t - g) <= (ad * Y + tau) * (ad * Y + tau)).
      { rewrite <- (Rabs_pos_eq ((d t - g) * (d t - g))) by apply Rle_0_sqr. rewrite Rabs_mult. apply Rmult_le_compat; auto using Rabs_pos. }
      assert (D3 : d t * d t * (Qn * Qn - 1) <= ((1 + 2 / 1000000) * Y + tau) * ((1 + 2 / 1000000) * Y + tau) * (21 / 10000000)).
      { apply Rle_trans with (d t * d t * (21 / 10000000)); [apply Rmult_le_compat_l; lra|]. apply Rmult_le_compat_r; lra. }
      pose proof (Rle_0_sqr g) as G2. unfold Rsqr in G2.
      assert (YT : 0 <= Y * tau) by (apply Rmult_le_pos; lra). assert (YY : 0 <= Y * Y) by apply Rle_0_sqr. assert (TT : 0 <= tau * tau) by apply Rle_0_sqr.
      unfold ad in E2. lra. }
    assert (Bx : X (S t) <= rnorm n y + rnorm n (fun i => x (S t) i - y i)).
    { eapply Rle_trans; [|apply rnorm_tri]. right. apply rnorm_ext. intros i _. ring. }
    assert (Bz : rnorm n (fun i => x (S t) i - y i) <= 2 * (ae * Y + tau)).
    { apply rnorm_cell; [exact Hn|unfold ae; nra|]. intros i Hi. apply Hx, Hi. }
    unfold ae in *. lra.
  Qed.
  Definition stepsto t := forall s, (s < t)%nat -> stepd s /\ stepx s.
  Lemma norm_upto t : (t <= c)%nat -> X 0 <= M -> stepsto t -> X t <= (1 + INR t * (4 / 1000000)) * M + INR t * 5 * tau.
  Proof.
    induction t as [|t IH]; intros Ht HM H; [cbn [INR]; lra|].
    destruct (H t ltac:(lia)) as [H1 H2]. pose proof (step_norm t ltac:(lia) H1 H2) as S1.
    assert (IH' := IH ltac:(lia) HM ltac:(intros s Hs; apply H; lia)).
    rewrite S_INR. pose proof (pos_INR t). assert (INR t <= 2) by (replace 2 with (INR 2) by (cbn; lra); apply le_INR; lia).
    assert (0 <= M) by (pose proof (rnorm_pos n (x 0%nat)); lra). assert (0 < tau) by (unfold tau; lra).
    set (k := INR t) in *. eapply Rle_trans; [exact S1|].
    apply Rle_trans with ((1 + 3 / 1000000) * ((1 + k * (4 / 1000000)) * M + k * 5 * tau) + 4 * tau); [apply Rplus_le_compat_r, Rmult_le_compat_l; lra|].
    assert (k * M <= 2 * M) by (apply Rmult_le_compat_r; lra). assert (k * tau <= 2 * tau) by (apply Rmult_le_compat_r; lra). lra.
  Qed.
  Lemma norm_all t : (t <= c)%nat -> X 0 <= M -> stepsto t -> X t <= (1 + 2 / 100000) * M + 15 * tau.
  Proof.
    intros Ht HM H. eapply Rle_trans; [apply (norm_upto t Ht HM H)|].
    pose proof (pos_INR t). assert (INR t <= 3) by (replace 3 with (INR 3) by (cbn; lra); apply le_INR; lia).
    assert (0 <= M) by (pose proof (rnorm_pos n (x 0%nat)); lra). assert (0 < tau) by (unfold tau; lra).
    assert (INR t * M <= 3 * M) by (apply Rmult_le_compat_r; lra). assert (INR t * tau <= 3 * tau) by (apply Rmult_le_compat_r; lra). lra.
  Qed.
  Lemma dot_all t : (t < c)%nat -> X 0 <= M -> stepsto (S t) -> Rabs (d t) <= (1 + 3 / 100000) * M + 20 * tau.
  Proof.
    intros Ht HM H. pose proof (step_dot t Ht (proj1 (H t ltac:(lia)))) as B. pose proof (norm_all t ltac:(lia) HM ltac:(intros s Hs; apply H; lia)) as N.
    assert (0 <= M) by (pose proof (rnorm_pos n (x 0%nat)); lra). assert (0 < tau) by (unfold tau; lra). lra.
  Qed.
  Lemma back_upto t i : (t <= c)%nat -> (i < n)%nat -> X 0 <= M -> stepsto t ->
    Rabs (x 0 i - (x t i + Rsum t (fun s => d s * q i s))) <= INR t * (21 / 100000000 * M + 2 * tau).
  Proof.
    induction t as [|t IH]; intros Ht Hi HM H; [cbn [INR Rsum]; rewrite Rplus_0_r, Rminus_diag_eq, Rabs_R0 by reflexivity; lra|].
    destruct (H t ltac:(lia)) as [H1 H2]. specialize (H2 i Hi). assert (H' : stepsto t) by (intros s Hs; apply H; lia).
    pose proof (norm_all t ltac:(lia) HM H') as N. assert (IH' := IH ltac:(lia) Hi HM H'). rewrite S_INR. cbn [Rsum].
    replace (x 0%nat i - (x (S t) i + (Rsum t (fun s => d s * q i s) + d t * q i t)))
      with ((x 0%nat i - (x t i + Rsum t (fun s => d s * q i s))) - (x (S t) i - (x t i - d t * q i t))) by ring.
    eapply Rle_trans; [apply Rabs_triang|]. rewrite Rabs_Ropp.
    assert (0 <= M) by (pose proof (rnorm_pos n (x 0%nat)); lra). assert (0 < tau) by (unfold tau; lra). unfold ae in *. lra.
  Qed.
  (** the component of the residual along an earlier column *)
  Lemma along s t : (s < t)%nat -> (t <= c)%nat -> X 0 <= M -> stepsto t ->
    Rabs (rdot n (col s) (x t) + Rsum t (fun k => if (s <? k)%nat then d k * rdot n (col s) (col k) else 0)) <= 28 / 10000000 * M + 20 * tau + INR (t - S s) * (41 / 100000000 * M + 3 * tau).
  Proof.
    intros Hs. remember (t - S s)%nat as r eqn:Er. revert t Hs Er. induction r as [|r IH]; intros t Hst Er Ht HM H.
    - assert (t = S s) by lia. subst t. rewrite (Rsum_0 (S s)) by (intros k Hk; destruct (Nat.ltb_spec s k); [lia|reflexivity]). rewrite Rplus_0_r.
      destruct (H s ltac:(lia)) as [H1 H2]. assert (H' : stepsto s) by (intros k Hk; apply H; lia).
      pose proof (norm_all s ltac:(lia) HM H') as N. pose proof (dot_all s ltac:(lia) HM H) as D. pose proof (HQ s ltac:(lia)) as Hq. apply Rabs_le_inv in Hq.
      pose proof (rnorm_sqr n (col s)) as SQ. pose proof (rnorm_pos n (x s)) as PX.
      assert (0 <= M) by (pose proof (rnorm_pos n (x 0%nat)); lra). assert (T0 : 0 < tau) by (unfold tau; lra).
      set (z := fun i => x (S s) i - (x s i - d s * q i s)).
      assert (E : rdot n (col s) (x (S s)) = - (d s - rdot n (col s) (x s)) - d s * (rdot n (col s) (col s) - 1) + rdot n (col s) z).
      { unfold rdot, z. rewrite (Rsum_ext n (fun t => q t s * (x (S s) t - (x s t - d s * q t s))) (fun t => q t s * x (S s) t + ((-1) * (q t s * x s t) + d s * (q t s * q t s)))) by (intros; ring).
        rewrite !Rsum_plus, !Rsum_scal. ring. }
      assert (Bz : Rabs (rdot n (col s) z) <= 2 * (ae * X s + tau) * rnorm n (col s)) by (apply rdot_cell; [exact Hn|unfold ae; nra|intros i Hi; apply H2, Hi]).
      rewrite E, <- SQ. set (Qn := rnorm n (col s)) in *. unfold stepd in H1.
      assert (B2 : Rabs (d s * (Qn * Qn - 1)) <= ((1 + 3 / 100000) * M + 20 * tau) * (201 / 100000000)).
      { rewrite Rabs_mult. apply Rmult_le_compat; auto using Rabs_pos. apply Rabs_le. nra. }
      assert (B3 : 2 * (ae * X s + tau) * Qn <= 2 * (ae * X s + tau) * (1 + / 1000000)) by (apply Rmult_le_compat_l; [unfold ae; nra|lra]).
      eapply Rle_trans; [apply Rabs_triang|]. eapply Rle_trans; [apply Rplus_le_compat_r; apply Rabs_triang|]. rewrite !Rabs_Ropp. cbn [INR].
      unfold ad, ae in *. lra.
    - destruct t as [|t]; [lia|]. assert (H' : stepsto t) by (intros k Hk; apply H; lia). specialize (IH t ltac:(lia) ltac:(lia) ltac:(lia) HM H').
      destruct (H t ltac:(lia)) as [H1 H2]. pose proof (norm_all t ltac:(lia) HM H') as N. pose proof (HQ s ltac:(lia)) as Hq. apply Rabs_le_inv in Hq.
      pose proof (rnorm_pos n (x t)) as PX.
      assert (0 <= M) by (pose proof (rnorm_pos n (x 0%nat)); lra). assert (T0 : 0 < tau) by (unfold tau; lra).
      cbn [Rsum]. destruct (Nat.ltb_spec s t); [|lia]. set (z := fun i => x (S t) i - (x t i - d t * q i t)).
      assert (E : rdot n (col s) (x (S t)) = rdot n (col s) (x t) - d t * rdot n (col s) (col t) + rdot n (col s) z).
      { unfold rdot, z. rewrite (Rsum_ext n (fun k => q k s * (x (S t) k - (x t k - d t * q k t))) (fun k => q k s * x (S t) k + ((-1) * (q k s * x t k) + d t * (q k s * q k t)))) by (intros; ring).
        rewrite !Rsum_plus, !Rsum_scal. ring. }
      assert (Bz : Rabs (rdot n (col s) z) <= 2 * (ae * X t + tau) * rnorm n (col s)) by (apply rdot_cell; [exact Hn|unfold ae; nra|intros i Hi; apply H2, Hi]).
      rewrite E. set (Qn := rnorm n (col s)) in *. set (W := Rsum t _) in *.
      assert (B3 : 2 * (ae * X t + tau) * Qn <= 2 * (ae * X t + tau) * (1 + / 1000000)) by (apply Rmult_le_compat_l; [unfold ae; nra|lra]).
      replace (rdot n (col s) (x t) - d t * rdot n (col s) (col t) + rdot n (col s) z + (W + d t * rdot n (col s) (col t)))
        with ((rdot n (col s) (x t) + W) + rdot n (col s) z) by ring.
      eapply Rle_trans; [apply Rabs_triang|]. rewrite S_INR. unfold ae in *. lra.
  Qed.
End Column.

(** ** one column in f32 *)
Lemma big_59 : 1 <= bpow radix2 58 /\ bpow radix2 59 = 2 * bpow radix2 58 /\ bpow radix2 60 = 4 * bpow radix2 58 /\ 1000 * bpow radix2 58 <= bpow radix2 127 /\ 1000 * (bpow radix2 58 * bpow radix2 58) <= huge * 1000 / 16.
Proof.
  split; [change 1 with (bpow radix2 0); apply bpow_le; lia|].
  split; [change 59%Z with (1 + 58)%Z; rewrite bpow_plus; reflexivity|]. split; [change 60%Z with (2 + 58)%Z; rewrite bpow_plus; reflexivity|]. split.
  - apply Rle_trans with (bpow radix2 10 * bpow radix2 58); [apply Rmult_le_compat_r; [apply bpow_ge_0|cbn; lra]|]. rewrite <- bpow_plus. apply bpow_le. lia.
  - unfold huge. rewrite <- bpow_plus. change 120%Z with (4 + (58 + 58))%Z. rewrite (bpow_plus radix2 4). change (bpow radix2 4) with 16. lra.
Qed.
Lemma eta_tau : 0 < 1000 * eta <= tau.
Proof. pose proof eta_small. pose proof eta_pos. unfold tau, u in *. lra. Qed.
Lemma least_tau : 0 < 1000 * least <= tau.
Proof.
  pose proof least_pos. split; [lra|]. unfold least, tau. apply Rle_trans with (1000 * bpow radix2 (-110)); [apply Rmult_le_compat_l; [lra|apply bpow_le; lia]|]. cbn. lra.
Qed.
Lemma prod_sum lm n (f g : nat -> f32) : (n <= 4)%nat ->
  (forall i, (i < n)%nat -> is_finite (f i) = true /\ is_finite (g i) = true) ->
  rnorm n (fun i => B2R (f i)) * rnorm n (fun i => B2R (g i)) <= huge ->
  is_finite (fsum (A := F32 lm) n (fun i => Bmult mode_NE (f i) (g i))) = true /\
  Rabs (B2R (fsum (A := F32 lm) n (fun i => Bmult mode_NE (f i) (g i))) - rdot n (fun i => B2R (f i)) (fun i => B2R (g i))) <=
    3 / 10000000 * (rnorm n (fun i => B2R (f i)) * rnorm n (fun i => B2R (g i))) + tau / 10.
Proof.
  intros Hn F H. pose proof (rdot_abs_cs n (fun i => B2R (f i)) (fun i => B2R (g i))) as C. cbv beta in C.
  destruct (fsum_acc lm n f g Hn F ltac:(lra)) as (F1 & _ & _ & E). split; [exact F1|]. eapply Rle_trans; [exact E|].
  assert (K : 0 <= INR n <= 4) by (split; [apply pos_INR|replace 4 with (INR 4) by (cbn; lra); apply le_INR, Hn]). set (k := INR n) in *.
  set (S := Rsum n _) in *. set (B := _ * rnorm n _) in *.
  assert (S0 : 0 <= S) by (apply Rsum_nonneg; intros; apply Rabs_pos). pose proof eta_tau.
  assert ((k + 1) * (1001 / 1000) * u * S <= 3 / 10000000 * B).
  { apply Rmult_le_compat; [unfold u; lra|exact S0|unfold u; lra|exact C]. }
  assert (3 * (k + 1) * eta <= 15 * eta) by (apply Rmult_le_compat_r; lra). lra.
Qed.
Section Step.
  Variables (lm : Libm) (n : nat) (x q : nat -> f32).
  Hypothesis Hn : (n <= 4)%nat.
  Hypothesis Fx : forall i, (i < n)%nat -> is_finite (x i) = true.
  Hypothesis Fq : forall i, (i < n)%nat -> is_finite (q i) = true.
  Hypothesis HX : rnorm n (fun i => B2R (x i)) <= bpow radix2 59.
  Hypothesis HQ : Rabs (rnorm n (fun i => B2R (q i)) - 1) <= / 1000000.
  Let d : f32 := fsum (A := F32 lm) n (fun k => Bmult mode_NE (q k) (x k)).
  Let X := rnorm n (fun i => B2R (x i)).
  Lemma st_d : is_finite d = true /\ Rabs (B2R d - rdot n (fun i => B2R (q i)) (fun i => B2R (x i))) <= ad * X + tau.
  Proof.
    apply Rabs_le_inv in HQ. pose proof (rnorm_pos n (fun i => B2R (x i))) as PX. fold X in PX, HX. destruct big_59 as (B1 & B2 & B3 & B4 & B5).
    pose proof eta_tau as ET.
    assert (PB : bpow radix2 58 <= bpow radix2 58 * bpow radix2 58) by nra.
    assert (QX : rnorm n (fun i => B2R (q i)) * X <= (1 + / 1000000) * X) by (apply Rmult_le_compat_r; lra).
    destruct (prod_sum lm n q x Hn (fun i Hi => conj (Fq i Hi) (Fx i Hi))) as [F E]; [fold X; lra|]. split; [exact F|].
    eapply Rle_trans; [exact E|]. fold X. unfold ad. lra.
  Qed.
  Lemma st_x i : (i < n)%nat -> is_finite (Bminus mode_NE (x i) (Bmult mode_NE d (q i))) = true /\
    Rabs (B2R (Bminus mode_NE (x i) (Bmult mode_NE d (q i))) - (B2R (x i) - B2R d * B2R (q i))) <= ae * X + tau.
  Proof.
    intros Hi. destruct st_d as [Fd Ed]. apply Rabs_le_inv in HQ. pose proof (rnorm_pos n (fun i => B2R (x i))) as PX. fold X in PX, HX. destruct big_59 as (B1 & B2 & B3 & B4 & B5).
    pose proof eta_tau as ET. pose proof least_tau as LT. pose proof (rdot_cs n (fun i => B2R (q i)) (fun i => B2R (x i))) as C. fold X in C.
    assert (QX : rnorm n (fun i => B2R (q i)) * X <= (1 + / 1000000) * X) by (apply Rmult_le_compat_r; lra).
    set (g := rdot n _ _) in *.
    assert (Bd : Rabs (B2R d) <= (1 + 2 / 1000000) * X + tau).
    { replace (B2R d) with ((B2R d - g) + g) by ring. eapply Rle_trans; [apply Rabs_triang|]. unfold ad in Ed. lra. }
    assert (Bq : Rabs (B2R (q i)) <= 1 + / 1000000) by (eapply Rle_trans; [apply (rnorm_bound n (fun i => B2R (q i)) i Hi)|]; lra).
    assert (Bx : Rabs (B2R (x i)) <= X) by apply (rnorm_bound n (fun i => B2R (x i)) i Hi).
    assert (Bp : Rabs (B2R d * B2R (q i)) <= (1 + 4 / 1000000) * X + 2 * tau).
    { rewrite Rabs_mult. apply Rle_trans with (((1 + 2 / 1000000) * X + tau) * (1 + / 1000000)); [apply Rmult_le_compat; auto using Rabs_pos|]. lra. }
    assert (TS : tau <= 1) by (unfold tau; lra).
    destruct (mult_ok d (q i) Fd (Fq i Hi)) as [Fm Em]; [lra|].
    assert (Em' : Rabs (B2R (Bmult mode_NE d (q i))) <= 2 * X + 3 * tau).
    { rewrite Em. destruct (rnd32_err (B2R d * B2R (q i))) as (e & h & He & Hh & ->).
      eapply Rle_trans; [apply Rabs_triang|]. rewrite Rabs_mult. assert (Rabs (1 + e) <= 1 + u) by (eapply Rle_trans; [apply Rabs_triang|]; rewrite Rabs_R1; lra).
      assert (Rabs (B2R d * B2R (q i)) * Rabs (1 + e) <= ((1 + 4 / 1000000) * X + 2 * tau) * (1 + u)) by (apply Rmult_le_compat; auto using Rabs_pos).
      unfold u in *. lra. }
    destruct (minus_ok (x i) (Bmult mode_NE d (q i)) (Fx i Hi) Fm) as [Fs Es].
    { eapply Rle_trans; [apply Rabs_triang|]. rewrite Rabs_Ropp. lra. }
    split; [exact Fs|]. destruct (sub_err _ _ _ Fs) as (_ & _ & _ & E). cbv zeta in E.
    set (v := B2R (Bminus mode_NE (x i) (Bmult mode_NE d (q i)))) in *. set (p := B2R d * B2R (q i)) in *.
    assert (Bv : Rabs v <= Rabs (B2R (x i)) + Rabs p + Rabs (B2R (x i) - (v + p))).
    { replace v with (B2R (x i) - p - (B2R (x i) - (v + p))) at 1 by ring. eapply Rle_trans; [apply Rabs_triang|]. rewrite Rabs_Ropp.
      pose proof (Rabs_triang (B2R (x i)) (- p)) as T1. rewrite Rabs_Ropp in T1. unfold Rminus in *. lra. }
    replace (v - (B2R (x i) - p)) with (- (B2R (x i) - (v + p))) by ring. rewrite Rabs_Ropp. set (w := Rabs (B2R (x i) - (v + p))) in *.
    unfold ulp1, ae in *. lra.
  Qed.
End Step.

(** the normalisation of a column *)
Lemma norm_tiny lm n (x : nat -> f32) : (n <= 4)%nat -> (forall i, (i < n)%nat -> is_finite (x i) = true) ->
  rnorm n (fun i => B2R (x i)) < / 100000 ->
  Bltb (EPSILON (A := F32 lm) : f32) (Bsqrt mode_NE (fsum (A := F32 lm) n (fun i => Bmult mode_NE (x i) (x i)))) = false.
Proof.
  intros Hn F HN. pose proof (rnorm_pos n (fun i => B2R (x i))) as P. set (N := rnorm n _) in *. pose proof huge_1 as H1.
  assert (NN : N * N <= / 10000000000) by (assert (N * N <= / 100000 * / 100000) by (apply Rmult_le_compat; lra); lra).
  destruct (prod_sum lm n x x Hn (fun i Hi => conj (F i Hi) (F i Hi))) as [Fs E]; [fold N; lra|]. fold N in E.
  pose proof (rnorm_sqr n (fun i => B2R (x i))) as SX. fold N in SX. rewrite <- SX in E.
  set (s := fsum (A := F32 lm) n _ : f32) in *. clearbody s. apply Rabs_le_inv in E. unfold tau in E.
  destruct (eps32 lm) as [Fe Ee]. set (ep := EPSILON (A := F32 lm) : f32) in *. clearbody ep.
  destruct (is_finite (Bsqrt mode_NE s)) eqn:FS.
  - rewrite Bltb_ok by auto. apply Rlt_bool_false. destruct (sqrt_fin s FS) as (_ & W0 & V & D). set (v := B2R (Bsqrt mode_NE s)) in *.
    unfold ulp1 in D. apply Rabs_le_inv in D.
    apply Rnot_lt_le. intros L. assert (99 / 1000000 * (99 / 1000000) <= v * v) by (apply Rmult_le_compat; lra). lra.
  - destruct s as [ss|ss| |ss ms es Hs]; try discriminate; cbn in FS |- *; try discriminate.
    + destruct ss; [destruct ep; reflexivity|]. exfalso. pose proof (Bsqrt_correct prec emax _ _ mode_NE (B754_finite false ms es Hs)) as (_ & C & _).
      cbn [is_finite] in C. cbn in C, FS. congruence.
Qed.
Lemma col_norm lm n (x : nat -> f32) : (n <= 4)%nat -> (forall i, (i < n)%nat -> is_finite (x i) = true) ->
  rnorm n (fun i => B2R (x i)) <= bpow radix2 59 ->
  let r : f32 := Bsqrt mode_NE (fsum (A := F32 lm) n (fun i => Bmult mode_NE (x i) (x i))) in
  if Bltb (EPSILON (A := F32 lm) : f32) r
  then is_finite r = true /\ 98 / 1000000 < B2R r /\ Rabs (B2R r - rnorm n (fun i => B2R (x i))) <= / 1000000 * rnorm n (fun i => B2R (x i)) /\
    (forall i, (i < n)%nat -> is_finite (Bdiv mode_NE (x i) r) = true) /\
    Rabs (rnorm n (fun i => B2R (Bdiv mode_NE (x i) r)) - 1) <= / 1000000 /\
    (forall i, (i < n)%nat -> Rabs (B2R (x i) - B2R (Bdiv mode_NE (x i) r) * B2R r) <= 7 / 100000000 * rnorm n (fun i => B2R (x i)))
  else rnorm n (fun i => B2R (x i)) <= 102 / 1000000.
Proof.
  intros Hn F HX r. destruct (Bltb _ r) eqn:G.
  - destruct (Rlt_le_dec (rnorm n (fun i => B2R (x i))) (/ 100000)) as [L|L].
    { pose proof (norm_tiny lm n x Hn F L) as T. unfold r in G. congruence. }
    destruct big_59 as (B1 & B2 & B3 & _).
    destruct (norm_err lm n x Hn F) as [Fr Er]; [cbv zeta; lra|]. fold r in Fr, Er. set (N := rnorm n (fun i => B2R (x i))) in *.
    destruct (normalize_core lm n x Hn F L Fr Er) as (K1 & K2 & K3).
    change (forall i, (i < n)%nat -> is_finite (Bdiv mode_NE (x i) r) = true) in K1.
    change (Rabs (rnorm n (fun i => B2R (Bdiv mode_NE (x i) r)) - 1) < / 1000000) in K2.
    destruct (eps32 lm) as [Fe Ee]. rewrite Bltb_ok in G by auto.
    apply Rlt_bool_true_inv in G || (destruct (Rlt_bool_spec (B2R (EPSILON (A := F32 lm) : f32)) (B2R r)) as [G'|G']; [|discriminate]).
    split; [exact Fr|]. split; [lra|]. split; [eapply Rle_trans; [exact Er|]; apply Rmult_le_compat_r; [lra|unfold u; lra]|]. split; [exact K1|]. split; [lra|].
    intros i Hi. assert (Nz : B2R r <> 0) by lra. destruct (div_err (x i) r (K1 i Hi) Nz) as [_ D]. cbv zeta in D.
    eapply Rle_trans; [exact D|].
    assert (Bv : Rabs (B2R (Bdiv mode_NE (x i) r)) <= 1 + / 1000000).
    { eapply Rle_trans; [apply (rnorm_bound n (fun i => B2R (Bdiv mode_NE (x i) r)) i Hi)|]. apply Rabs_def2 in K2. lra. }
    apply Rabs_le_inv in Er. unfold u in Er. rewrite (Rabs_pos_eq (B2R r)) by lra. pose proof least_tau as LT. unfold tau in LT.
    apply Rle_trans with (ulp1 * ((1 + 2 / 1000000) * ((1 + / 1000000) * N))); [|unfold ulp1; lra].
    apply Rmult_le_compat_l; [unfold ulp1; lra|]. apply Rmult_le_compat; [left; apply amp_pos|lra|unfold amp; lra|lra].
  - destruct (Rlt_le_dec (rnorm n (fun i => B2R (x i))) (/ 100000)) as [L|L]; [lra|].
    destruct big_59 as (B1 & B2 & B3 & _).
    destruct (norm_err lm n x Hn F) as [Fr Er]; [cbv zeta; lra|]. fold r in Fr, Er. set (N := rnorm n (fun i => B2R (x i))) in *.
    destruct (eps32 lm) as [Fe Ee]. rewrite Bltb_ok in G by auto.
    destruct (Rlt_bool_spec (B2R (EPSILON (A := F32 lm) : f32)) (B2R r)) as [G'|G']; [discriminate|]. apply Rabs_le_inv in Er. unfold u in Er. lra.
Qed.

(** ** all columns *)
Section All.
  Variables (lm : Libm) (n : nat) (Q A : nat -> nat -> f32).
  Notation F := (F32 lm).
  Hypothesis Hn : (1 <= n <= 4)%nat.
  Hypothesis FA : forall i j, (i < n)%nat -> (j < n)%nat -> is_finite (A i j) = true.
  Hypothesis FQ : forall i j, (i < n)%nat -> (j < n)%nat -> is_finite (Q i j) = true.
  Let a i j := B2R (A i j).
  Let q i j := B2R (Q i j).
  Notation nrm j := (rnorm n (fun i => a i j)).
  Hypothesis HA : forall j, (j < n)%nat -> nrm j <= bpow radix2 58.
  Let x j t i := B2R (gsx (A := F) n Q A j t i : f32).
  Let d j t := B2R (fsum (A := F) n (fun k => Bmult mode_NE (Q k t) (gsx (A := F) n Q A j t k)) : f32).
  Let r j : f32 := gsn (A := F) n Q A j.
  Definition unit_to c := forall j, (j < c)%nat -> Rabs (rnorm n (fun i => q i j) - 1) <= / 1000000.
  Lemma col_steps j t : (j < n)%nat -> (t <= j)%nat -> unit_to j ->
    (forall i, (i < n)%nat -> is_finite (gsx (A := F) n Q A j t i : f32) = true) /\ stepsto n q (x j) (d j) t.
  Proof.
    intros Hj. induction t as [|t IH]; intros Ht U.
    - split; [intros i Hi; apply FA; auto|intros s Hs; lia].
    - destruct IH as [I1 I2]; [lia|exact U|].
      assert (N : rnorm n (x j t) <= (1 + 2 / 100000) * bpow radix2 58 + 15 * tau).
      { apply (norm_all n j q (x j) (d j) (bpow radix2 58)); try lia; auto. apply HA, Hj. }
      destruct big_59 as (B1 & B2 & _). assert (N' : rnorm n (x j t) <= bpow radix2 59) by (unfold tau in N; lra).
      assert (Fq : forall i, (i < n)%nat -> is_finite (Q i t) = true) by (intros i Hi; apply FQ; lia).
      pose proof (st_x lm n (gsx (A := F) n Q A j t) (fun i => Q i t) ltac:(lia) I1 Fq N' (U t ltac:(lia))) as K. cbv zeta in K.
      destruct (st_d lm n (gsx (A := F) n Q A j t) (fun i => Q i t) ltac:(lia) I1 Fq N' (U t ltac:(lia))) as [_ K2].
      split; [intros i Hi; apply (K i Hi)|]. intros s Hs. destruct (Nat.eq_dec s t) as [->|Ns]; [|apply I2; lia].
      split; [exact K2|]. intros i Hi. apply (K i Hi).
  Qed.
  Lemma col_end j : (j < n)%nat -> unit_to j -> rnorm n (x j j) <= bpow radix2 59.
  Proof.
    intros Hj U. destruct (col_steps j j Hj ltac:(lia) U) as [_ S]. destruct big_59 as (B1 & B2 & _).
    pose proof (norm_all n j q (x j) (d j) (bpow radix2 58) ltac:(lia) ltac:(lia) U j ltac:(lia) (HA j Hj) S) as N. unfold tau in N. lra.
  Qed.
  Lemma units c : (c <= n)%nat -> done (A := F) n c Q A -> unit_to c.
  Proof.
    induction c as [|c IH]; intros Hc D; [intros j Hj; lia|].
    assert (U : unit_to c) by (apply IH; [lia|intros j Hj; apply D; lia]). intros j Hj. destruct (Nat.eq_dec j c) as [->|Nj]; [|apply U; lia].
    destruct (D c ltac:(lia)) as [G E]. destruct (col_steps c c ltac:(lia) ltac:(lia) U) as [Fx _].
    pose proof (col_norm lm n (gsx (A := F) n Q A c c) ltac:(lia) Fx (col_end c ltac:(lia) U)) as K. cbv zeta in K.
    change (Bltb (EPSILON (A := F) : f32) (gsn (A := F) n Q A c) = true) in G.
    change (Bsqrt mode_NE (fsum (A := F) n (fun i => Bmult mode_NE (gsx (A := F) n Q A c c i) (gsx (A := F) n Q A c c i)))) with (gsn (A := F) n Q A c : f32) in K.
    rewrite G in K. destruct K as (_ & _ & _ & _ & K & _).
    rewrite (rnorm_ext n (fun i => q i c) (fun i => B2R (Bdiv mode_NE (gsx (A := F) n Q A c c i) (gsn (A := F) n Q A c)))); [exact K|].
    intros i Hi. unfold q. rewrite (E i Hi). reflexivity.
  Qed.
  Lemma col_valid c : (c < n)%nat -> done (A := F) n c Q A ->
    (forall t i, (t <= c)%nat -> (i < n)%nat -> valid (A := F) (gsx (A := F) n Q A c t i)) /\
    ((gsn (A := F) n Q A c >? EPSILON)%F = true -> forall i, (i < n)%nat -> valid (A := F) (gsx (A := F) n Q A c c i / gsn (A := F) n Q A c)%F).
  Proof.
    intros Hc D. pose proof (units c ltac:(lia) D) as U. split.
    - intros t i Ht Hi. apply (valid_finite lm). apply (col_steps c t Hc Ht U), Hi.
    - intros G i Hi. apply (valid_finite lm). destruct (col_steps c c ltac:(lia) ltac:(lia) U) as [Fx _].
      pose proof (col_norm lm n (gsx (A := F) n Q A c c) ltac:(lia) Fx (col_end c ltac:(lia) U)) as K. cbv zeta in K.
      change (Bltb (EPSILON (A := F) : f32) (gsn (A := F) n Q A c) = true) in G.
      change (Bsqrt mode_NE (fsum (A := F) n (fun i => Bmult mode_NE (gsx (A := F) n Q A c c i) (gsx (A := F) n Q A c c i)))) with (gsn (A := F) n Q A c : f32) in K.
      rewrite G in K. apply K, Hi.
  Qed.
  (** the upper triangular factor the algorithm implicitly computes *)
  Definition sfac (i j : nat) : R := if (i <? j)%nat then d j i else if (i =? j)%nat then B2R (r j) else 0.
  Definition rest (j : nat) (v : nat -> R) : Prop :=
    (forall i, (i < n)%nat -> Rabs (a i j - (v i + Rsum j (fun t => sfac t j * q i t))) <= 63 / 100000000 * nrm j + 6 * tau) /\
    (forall t, (t < j)%nat -> Rabs (sfac t j) <= (1 + 3 / 100000) * nrm j + 20 * tau) /\ rnorm n v <= (1 + 2 / 100000) * nrm j + 15 * tau /\
    (forall s, (s < j)%nat -> Rabs (rdot n (fun i => q i s) v + Rsum j (fun k => if (s <? k)%nat then sfac k j * rdot n (fun i => q i s) (fun i => q i k) else 0)) <= 37 / 10000000 * nrm j + 30 * tau).
  Lemma col_rest j : (j < n)%nat -> unit_to j -> rest j (x j j).
  Proof.
    intros Hj U. destruct (col_steps j j Hj ltac:(lia) U) as [_ S].
    assert (SF : forall t, (t < j)%nat -> sfac t j = d j t) by (intros t Ht; unfold sfac; destruct (Nat.ltb_spec t j); [reflexivity|lia]).
    assert (T0 : 0 < tau) by (unfold tau; lra). assert (P := rnorm_pos n (fun i => a i j)).
    assert (J3 : INR j <= 3) by (replace 3 with (INR 3) by (cbn; lra); apply le_INR; lia). pose proof (pos_INR j) as J0.
    split; [|split; [|split]].
    - intros i Hi. rewrite (Rsum_ext j _ (fun t => d j t * q i t)) by (intros t Ht; rewrite SF by exact Ht; reflexivity).
      pose proof (back_upto n j q (x j) (d j) (nrm j) ltac:(lia) ltac:(lia) U j i ltac:(lia) Hi (Rle_refl _) S) as B.
      change (x j 0%nat i) with (a i j) in B. eapply Rle_trans; [exact B|].
      assert (INR j * (21 / 100000000 * nrm j + 2 * tau) <= 3 * (21 / 100000000 * nrm j + 2 * tau)) by (apply Rmult_le_compat_r; lra). lra.
    - intros t Ht. rewrite SF by exact Ht. apply (dot_all n j q (x j) (d j) (nrm j)); try lia; auto; [apply Rle_refl|intros s Hs; apply S; lia].
    - apply (norm_all n j q (x j) (d j) (nrm j)); try lia; auto; apply Rle_refl.
    - intros s Hs. rewrite (Rsum_ext j _ (fun k => if (s <? k)%nat then d j k * rdot n (fun i => q i s) (fun i => q i k) else 0)) by (intros k Hk; rewrite SF by exact Hk; reflexivity).
      eapply Rle_trans; [apply (along n j q (x j) (d j) (nrm j) ltac:(lia) ltac:(lia) U s j Hs ltac:(lia) (Rle_refl _) S)|].
      assert (INR (j - Datatypes.S s) <= 2) by (replace 2 with (INR 2) by (cbn; lra); apply le_INR; lia). pose proof (pos_INR (j - Datatypes.S s)).
      assert (INR (j - Datatypes.S s) * (41 / 100000000 * nrm j + 3 * tau) <= 2 * (41 / 100000000 * nrm j + 3 * tau)) by (apply Rmult_le_compat_r; lra). lra.
  Qed.
  Lemma last_norm c : (c < n)%nat -> unit_to c -> (gsn (A := F) n Q A c >? EPSILON)%F = false -> rnorm n (x c c) <= 102 / 1000000.
  Proof.
    intros Hc U G. destruct (col_steps c c Hc ltac:(lia) U) as [Fx _].
    pose proof (col_norm lm n (gsx (A := F) n Q A c c) ltac:(lia) Fx (col_end c Hc U)) as K. cbv zeta in K.
    change (Bltb (EPSILON (A := F) : f32) (gsn (A := F) n Q A c) = false) in G.
    change (Bsqrt mode_NE (fsum (A := F) n (fun i => Bmult mode_NE (gsx (A := F) n Q A c c i) (gsx (A := F) n Q A c c i)))) with (gsn (A := F) n Q A c : f32) in K.
    rewrite G in K. exact K.
  Qed.
  (** a finished column *)
  Definition good (j : nat) : Prop :=
    98 / 1000000 < sfac j j /\
    (forall i, (i < n)%nat -> Rabs (a i j - Rsum (S j) (fun t => q i t * sfac t j)) <= 71 / 100000000 * nrm j + 20 * tau) /\
    (forall t, (t <= j)%nat -> Rabs (sfac t j) <= (1 + 3 / 100000) * nrm j + 20 * tau) /\
    (forall s, (s < j)%nat -> Rabs (Rsum (S j) (fun k => if (s <? k)%nat then rdot n (fun i => q i s) (fun i => q i k) * sfac k j else 0)) <= 39 / 10000000 * nrm j + 40 * tau).
  Lemma col_good c j : (c <= n)%nat -> done (A := F) n c Q A -> (j < c)%nat -> good j.
  Proof.
    intros Hc D Hj. assert (U : unit_to c) by (apply units; auto). assert (Uj : unit_to j) by (intros s Hs; apply U; lia).
    destruct (col_rest j ltac:(lia) Uj) as (R1 & R2 & R3 & R4). destruct (col_steps j j ltac:(lia) ltac:(lia) Uj) as [Fx _].
    pose proof (col_norm lm n (gsx (A := F) n Q A j j) ltac:(lia) Fx (col_end j ltac:(lia) Uj)) as K. cbv zeta in K. destruct (D j Hj) as [G E].
    change (Bltb (EPSILON (A := F) : f32) (gsn (A := F) n Q A j) = true) in G.
    change (Bsqrt mode_NE (fsum (A := F) n (fun i => Bmult mode_NE (gsx (A := F) n Q A j j i) (gsx (A := F) n Q A j j i)))) with (gsn (A := F) n Q A j : f32) in K.
    rewrite G in K. destruct K as (_ & K2 & K3 & _ & _ & K6).
    assert (SJ : sfac j j = B2R (gsn (A := F) n Q A j : f32)) by (unfold sfac; rewrite Nat.ltb_irrefl, Nat.eqb_refl; reflexivity).
    assert (K6' : forall i, (i < n)%nat -> Rabs (x j j i - q i j * sfac j j) <= 7 / 100000000 * rnorm n (x j j)).
    { intros i Hi. rewrite SJ. unfold q. rewrite (E i Hi). apply (K6 i Hi). }
    change (Rabs (B2R (gsn (A := F) n Q A j : f32) - rnorm n (x j j)) <= / 1000000 * rnorm n (x j j)) in K3. rewrite <- SJ in K2, K3.
    assert (T0 : 0 < tau) by (unfold tau; lra). assert (P := rnorm_pos n (fun i => a i j)). assert (PX := rnorm_pos n (x j j)).
    split; [exact K2|]. split; [|split].
    - intros i Hi. cbn [Rsum]. specialize (R1 i Hi). specialize (K6' i Hi).
      rewrite (Rsum_ext j (fun t => q i t * sfac t j) (fun t => sfac t j * q i t)) by (intros; ring). set (W := Rsum j _) in *.
      replace (a i j - (W + q i j * sfac j j)) with ((a i j - (x j j i + W)) + (x j j i - q i j * sfac j j)) by ring.
      eapply Rle_trans; [apply Rabs_triang|]. lra.
    - intros t Ht. destruct (Nat.eq_dec t j) as [->|Nt]; [|apply R2; lia]. apply Rabs_le_inv in K3. rewrite Rabs_pos_eq by lra.
      lra.
    - intros s Hs. cbn [Rsum]. destruct (Nat.ltb_spec s j); [|lia]. specialize (R4 s Hs).
      rewrite (Rsum_ext j (fun k => if (s <? k)%nat then rdot n (fun i => q i s) (fun i => q i k) * sfac k j else 0) (fun k => if (s <? k)%nat then sfac k j * rdot n (fun i => q i s) (fun i => q i k) else 0)) by (intros k _; destruct (s <? k)%nat; ring).
      set (W := Rsum j _) in *.
      assert (E2 : rdot n (fun i => q i s) (fun i => q i j) * sfac j j = rdot n (fun i => q i s) (x j j) - rdot n (fun i => q i s) (fun i => x j j i - q i j * sfac j j)).
      { unfold rdot. rewrite (Rsum_ext n (fun t => q t s * (x j j t - q t j * sfac j j)) (fun t => q t s * x j j t + (- sfac j j) * (q t s * q t j))) by (intros; ring). rewrite Rsum_plus, Rsum_scal. ring. }
      assert (Bz : Rabs (rdot n (fun i => q i s) (fun i => x j j i - q i j * sfac j j)) <= 2 * (7 / 100000000 * rnorm n (x j j)) * rnorm n (fun i => q i s)) by (apply rdot_cell; [lia|lra|exact K6']).
      pose proof (U s ltac:(lia)) as Us. apply Rabs_le_inv in Us.
      assert (Bz2 : 2 * (7 / 100000000 * rnorm n (x j j)) * rnorm n (fun i => q i s) <= 2 * (7 / 100000000 * rnorm n (x j j)) * (1 + / 1000000)) by (apply Rmult_le_compat_l; lra).
      rewrite E2. set (z := rdot n _ (fun i => x j j i - _)) in *. replace (W + (rdot n (fun i => q i s) (x j j) - z)) with ((rdot n (fun i => q i s) (x j j) + W) - z) by ring.
      eapply Rle_trans; [apply Rabs_triang|]. rewrite Rabs_Ropp. lra.
  Qed.
End All.

(** ** consequences over the reals *)
Section Reals.
  Variables (n : nat) (a q s : nat -> nat -> R).
  Hypothesis Hn : (1 <= n <= 4)%nat.
  Notation cl m j := (fun i => m i j).
  Notation nrm j := (rnorm n (fun i => a i j)).
  Hypothesis Sup : forall i j, (j < i)%nat -> s i j = 0.

  Lemma sum_up c i j : (j < c)%nat -> Rsum c (fun t => q i t * s t j) = Rsum (S j) (fun t => q i t * s t j).
  Proof.
    intros Hj. rewrite (Rsum_split c j) by exact Hj. cbn [Rsum]. rewrite (Rsum_0 c); [ring|]. intros k _. destruct (Nat.ltb_spec j k); [|reflexivity]. rewrite Sup by lia. ring.
  Qed.
  Lemma singular c v (e1 e2 : R) : (c < n)%nat -> 0 <= e1 -> 0 <= e2 -> (forall j, (j < c)%nat -> s j j <> 0) ->
    (forall i j, (i < n)%nat -> (j < c)%nat -> Rabs (a i j - Rsum (S j) (fun t => q i t * s t j)) <= e1 * nrm j + e2) ->
    (forall i, (i < n)%nat -> Rabs (a i c - (v i + Rsum c (fun t => s t c * q i t))) <= e1 * nrm c + e2) ->
    exists z, z c = 1 /\ (forall k, (c < k)%nat -> z k = 0) /\ rnorm n (rmv n a z) <= rnorm n v + Rsum n (fun j => Rabs (z j) * (2 * e1 * nrm j + 2 * e2)).
  Proof.
    intros Hc E1 E2 Nz Hj Hv.
    destruct (up_solve c (fun t j => s j t) (fun t => s t c)) as (y & Hy); [intros i j Hij; apply Sup, Hij|exact Nz|]. cbv beta in Hy.
    set (z := fun k => if (k =? c)%nat then 1 else if (k <? c)%nat then - y k else 0).
    set (e := fun i j => if (j =? c)%nat then a i c - (v i + Rsum c (fun t => s t c * q i t)) else if (j <? c)%nat then a i j - Rsum (S j) (fun t => q i t * s t j) else 0).
    exists z. split; [unfold z; rewrite Nat.eqb_refl; reflexivity|]. split; [intros k Hk; unfold z; destruct (Nat.eqb_spec k c), (Nat.ltb_spec k c); try lia; reflexivity|].
    assert (Zc : z c = 1) by (unfold z; rewrite Nat.eqb_refl; reflexivity).
    assert (Zl : forall k, (k < c)%nat -> z k = - y k) by (intros k Hk; unfold z; destruct (Nat.eqb_spec k c), (Nat.ltb_spec k c); try lia; reflexivity).
    assert (Zg : forall k, (c < k)%nat -> z k = 0) by (intros k Hk; unfold z; destruct (Nat.eqb_spec k c), (Nat.ltb_spec k c); try lia; reflexivity).
    assert (EQ : forall i, (i < n)%nat -> rmv n a z i = v i + Rsum n (fun j => z j * e i j)).
    { intros i Hi. unfold rmv. rewrite (Rsum_split n c (fun j => a i j * z j)), (Rsum_split n c (fun j => z j * e i j)) by exact Hc.
      rewrite (Rsum_0 n (fun k => if (c <? k)%nat then a i k * z k else 0)), (Rsum_0 n (fun k => if (c <? k)%nat then z k * e i k else 0)) by (intros k _; destruct (Nat.ltb_spec c k); [rewrite Zg by lia; ring|reflexivity]).
      rewrite Zc. unfold e at 2. rewrite Nat.eqb_refl.
      rewrite (Rsum_ext c (fun j => z j * e i j) (fun j => a i j * z j + Rsum c (fun t => q i t * s t j) * y j)).
      2:{ intros j Hjc. rewrite (sum_up c) by exact Hjc. unfold e. destruct (Nat.eqb_spec j c), (Nat.ltb_spec j c); try lia. rewrite Zl by exact Hjc. ring. }
      rewrite Rsum_plus.
      rewrite (Rsum_ext c (fun j => Rsum c (fun t => q i t * s t j) * y j) (fun j => Rsum c (fun t => q i t * s t j * y j))) by (intros; rewrite Rsum_scal_r; reflexivity).
      rewrite Rsum_swap. rewrite (Rsum_ext c (fun t => Rsum c (fun j => q i t * s t j * y j)) (fun t => s t c * q i t)).
      2:{ intros t Ht. rewrite <- (Hy t Ht). rewrite <- Rsum_scal_r. apply Rsum_ext. intros; ring. }
      ring. }
    rewrite (rnorm_ext n _ (fun i => v i + Rsum n (fun j => z j * e i j))) by exact EQ.
    eapply Rle_trans; [apply rnorm_tri|]. apply Rplus_le_compat_l. eapply Rle_trans; [apply (rnorm_sum n n (fun j i => z j * e i j))|].
    apply Rsum_le. intros j Hjn. rewrite rnorm_scal. apply Rmult_le_compat_l; [apply Rabs_pos|].
    replace (2 * e1 * nrm j + 2 * e2) with (2 * (e1 * nrm j + e2)) by ring. pose proof (rnorm_pos n (fun i => a i j)) as PN.
    apply rnorm_cell; [lia|nra|]. intros i Hi. unfold e. destruct (Nat.eqb_spec j c) as [->|]; [apply Hv, Hi|]. destruct (Nat.ltb_spec j c); [apply Hj; lia|]. rewrite Rabs_R0. nra.
  Qed.

  (** from here on: no column was small *)
  Variables (M sg : R).
  Hypothesis HU : forall j, (j < n)%nat -> Rabs (rnorm n (cl q j) - 1) <= / 1000000.
  Hypothesis HM : forall j, (j < n)%nat -> nrm j <= M.
  Hypothesis Hsg : 0 < sg.
  Hypothesis HMs : 20 * M <= 1000000 * sg.
  Hypothesis Hinj : forall x, sg * rnorm n x <= rnorm n (rmv n a x).
  Hypothesis HE : forall i j, (i < n)%nat -> (j < n)%nat -> Rabs (a i j - Rsum n (fun t => q i t * s t j)) <= 8 / 10000000 * M.
  Lemma M_pos : 0 <= M.
  Proof. pose proof (HM 0%nat ltac:(lia)). pose proof (rnorm_pos n (fun i => a i 0%nat)). lra. Qed.
  Lemma sum_norm (x : nat -> R) (e : R) : 0 <= e -> Rsum n (fun j => Rabs (x j) * e) <= 2 * e * rnorm n x.
  Proof. intros He. rewrite Rsum_scal_r. pose proof (Rsum_abs_norm n x ltac:(lia)). nra. Qed.
  Lemma q_image w : rnorm n (rmv n q w) <= 201 / 100 * rnorm n w.
  Proof.
    unfold rmv. rewrite (rnorm_ext n _ (fun i => Rsum n (fun t => w t * q i t))) by (intros i _; apply Rsum_ext; intros; ring).
    eapply Rle_trans; [apply (rnorm_sum n n (fun t i => w t * q i t))|].
    apply Rle_trans with (Rsum n (fun t => Rabs (w t) * (1 + / 1000000))).
    - apply Rsum_le. intros t Ht. rewrite rnorm_scal. apply Rmult_le_compat_l; [apply Rabs_pos|]. pose proof (HU t Ht) as K. apply Rabs_le_inv in K. lra.
    - eapply Rle_trans; [apply sum_norm; lra|]. pose proof (rnorm_pos n w). lra.
  Qed.
  Lemma s_below y : 41 / 100 * sg * rnorm n y <= rnorm n (rmv n s y).
  Proof.
    pose proof M_pos as MP. set (e := fun i j => a i j - Rsum n (fun t => q i t * s t j)).
    assert (E : forall i, (i < n)%nat -> rmv n a y i = rmv n q (rmv n s y) i + Rsum n (fun j => y j * e i j)).
    { intros i Hi. unfold rmv, e. rewrite (Rsum_ext n (fun j => y j * (a i j - Rsum n (fun t => q i t * s t j))) (fun j => a i j * y j + (-1) * Rsum n (fun t => q i t * s t j * y j))).
      2:{ intros j Hj. rewrite Rsum_scal_r. ring. }
      rewrite Rsum_plus, Rsum_scal, Rsum_swap.
      rewrite (Rsum_ext n (fun t => q i t * Rsum n (fun j => s t j * y j)) (fun t => Rsum n (fun j => q i t * s t j * y j))) by (intros t Ht; rewrite <- Rsum_scal; apply Rsum_ext; intros; ring).
      ring. }
    assert (B1 : rnorm n (rmv n a y) <= 201 / 100 * rnorm n (rmv n s y) + 32 / 10000000 * M * rnorm n y).
    { rewrite (rnorm_ext n _ _ E). eapply Rle_trans; [apply rnorm_tri|]. apply Rplus_le_compat; [apply q_image|].
      eapply Rle_trans; [apply (rnorm_sum n n (fun j i => y j * e i j))|].
      apply Rle_trans with (Rsum n (fun j => Rabs (y j) * (2 * (8 / 10000000 * M)))).
      - apply Rsum_le. intros j Hj. rewrite rnorm_scal. apply Rmult_le_compat_l; [apply Rabs_pos|]. apply rnorm_cell; [lia|lra|]. intros i Hi. apply HE; auto.
      - eapply Rle_trans; [apply sum_norm; lra|]. lra. }
    pose proof (Hinj y) as I. pose proof (rnorm_pos n y) as PY.
    assert (32 / 10000000 * M * rnorm n y <= 16 / 100 * sg * rnorm n y) by (apply Rmult_le_compat_r; lra). 
    assert (0 <= sg * rnorm n y) by (apply Rmult_le_pos; lra). lra.
  Qed.
  Hypothesis HF : forall k j, (k < j)%nat -> (j < n)%nat -> Rabs (Rsum (S j) (fun t => if (k <? t)%nat then rdot n (cl q k) (cl q t) * s t j else 0)) <= 4 / 1000000 * M.
  Hypothesis Sd : forall j, (j < n)%nat -> s j j <> 0.
  Lemma ortho_up k t : (k < t)%nat -> (t < n)%nat -> sg * Rabs (rdot n (cl q k) (cl q t)) <= 20 / 1000000 * M.
  Proof.
    intros Hkt Ht. pose proof M_pos as MP. set (w := fun t => if (k <? t)%nat then rdot n (cl q k) (cl q t) else 0).
    set (f := fun j => Rsum n (fun t => w t * s t j)).
    assert (Bf : forall j, (j < n)%nat -> Rabs (f j) <= 4 / 1000000 * M).
    { intros j Hj. unfold f. rewrite (Rsum_split n j) by exact Hj.
      rewrite (Rsum_0 n) by (intros i _; destruct (Nat.ltb_spec j i); [rewrite Sup by lia; ring|reflexivity]). rewrite Rplus_0_r.
      destruct (Nat.le_gt_cases j k) as [Ljk|Lkj].
      - rewrite Rsum_0; [unfold w; destruct (Nat.ltb_spec k j); [lia|]; rewrite Rmult_0_l, Rplus_0_l, Rabs_R0; lra|].
        intros i Hi. unfold w. destruct (Nat.ltb_spec k i); [lia|ring].
      - pose proof (HF k j Lkj Hj) as B. cbn [Rsum] in B. eapply Rle_trans; [|exact B]. right. f_equal. f_equal.
        + apply Rsum_ext. intros i _. unfold w. destruct (k <? i)%nat; ring.
        + unfold w. destruct (k <? j)%nat; ring. }
    destruct (up_solve n (fun t j => s j t) w) as (y & Hy); [intros i j Hij; apply Sup, Hij|exact Sd|]. cbv beta in Hy.
    pose proof (s_below y) as B. rewrite (rnorm_ext n (rmv n s y) w) in B by exact Hy.
    assert (E : rdot n w w = rdot n f y).
    { unfold rdot, f. rewrite (Rsum_ext n (fun t => Rsum n (fun t0 => w t0 * s t0 t) * y t) (fun t => Rsum n (fun t0 => w t0 * s t0 t * y t))) by (intros; rewrite Rsum_scal_r; reflexivity).
      rewrite Rsum_swap. apply Rsum_ext. intros i Hi. rewrite <- (Hy i Hi) at 2. rewrite <- Rsum_scal. apply Rsum_ext. intros; ring. }
    pose proof (rdot_cs n f y) as C. rewrite <- E in C. rewrite Rabs_pos_eq in C by apply rdot_pos. rewrite <- rnorm_sqr in C.
    assert (Nf : rnorm n f <= 2 * (4 / 1000000 * M)) by (apply rnorm_cell; [lia|lra|exact Bf]).
    pose proof (rnorm_pos n w) as PW. pose proof (rnorm_pos n y) as PY.
    assert (W : sg * rnorm n w <= 20 / 1000000 * M).
    { destruct (Req_dec (rnorm n w) 0) as [Z|Nz]; [rewrite Z; lra|]. apply Rmult_le_reg_r with (rnorm n w); [lra|].
      assert (rnorm n f * rnorm n y <= 2 * (4 / 1000000 * M) * rnorm n y) by (apply Rmult_le_compat_r; lra).
      assert (sg * (rnorm n w * rnorm n w) <= sg * (2 * (4 / 1000000 * M) * rnorm n y)) by (apply Rmult_le_compat_l; lra).
      assert (M * (41 / 100 * sg * rnorm n y) <= M * rnorm n w) by (apply Rmult_le_compat_l; lra). assert (0 <= M * rnorm n w) by (apply Rmult_le_pos; lra). lra. }
    eapply Rle_trans; [|exact W]. apply Rmult_le_compat_l; [lra|]. pose proof (rnorm_bound n w t Ht) as Bw. unfold w in Bw at 1. destruct (Nat.ltb_spec k t); [exact Bw|lia].
  Qed.
  Lemma ortho_any i j : (i < n)%nat -> (j < n)%nat -> i <> j -> sg * Rabs (rdot n (cl q i) (cl q j)) <= 20 / 1000000 * M.
  Proof.
    intros Hi Hj Nij. destruct (Nat.lt_ge_cases i j) as [L|L]; [apply ortho_up; auto|].
    replace (rdot n (cl q i) (cl q j)) with (rdot n (cl q j) (cl q i)) by (apply Rsum_ext; intros; ring). apply ortho_up; lia.
  Qed.
  Lemma sg_M : sg <= M.
  Proof.
    pose proof (Hinj (fun t => if (t =? 0)%nat then 1 else 0)) as I.
    rewrite (rnorm_ext n (rmv n a _) (fun i => a i 0%nat)) in I.
    2:{ intros i Hi. unfold rmv. rewrite (Rsum_ext n _ (fun t => if (t =? 0)%nat then a i t else 0)) by (intros t _; destruct (t =? 0)%nat; ring). apply Rsum_pick. lia. }
    pose proof (rnorm_bound n (fun t => if (t =? 0)%nat then 1 else 0) 0%nat ltac:(lia)) as B. cbn [Nat.eqb] in B. rewrite Rabs_R1 in B.
    pose proof (HM 0%nat ltac:(lia)). assert (sg * 1 <= sg * rnorm n (fun t => if (t =? 0)%nat then 1 else 0)) by (apply Rmult_le_compat_l; lra). lra.
  Qed.
  Lemma unit_cell i j : (i < n)%nat -> (j < n)%nat -> Rabs (rdot n (cl q i) (cl q j) - rid i j) <= 3 / 100000 * (M / sg).
  Proof.
    intros Hi Hj. pose proof sg_M as SM. assert (K : 1 <= M / sg) by (apply Rmult_le_reg_r with sg; [lra|]; unfold Rdiv; rewrite Rmult_assoc, Rinv_l by lra; lra).
    unfold rid. destruct (Nat.eqb_spec i j) as [->|N].
    - rewrite <- rnorm_sqr. pose proof (HU j Hj) as U. apply Rabs_le_inv in U. apply Rabs_le. nra.
    - rewrite Rminus_0_r. pose proof (ortho_any i j Hi Hj N) as O. apply Rmult_le_reg_l with sg; [lra|].
      replace (sg * (3 / 100000 * (M / sg))) with (3 / 100000 * M) by (field; lra). lra.
  Qed.
  Hypothesis HS : forall i j, (i < n)%nat -> (j < n)%nat -> Rabs (s i j) <= 101 / 100 * M.
  Variable r : nat -> nat -> R.
  Hypothesis HR : forall i j, (i < n)%nat -> (j < n)%nat -> Rabs (r i j - rdot n (cl q i) (cl a j)) <= 4 / 10000000 * M.
  Lemma r_s i j : (i < n)%nat -> (j < n)%nat -> Rabs (r i j - s i j) <= 13 / 100000 * (M * M / sg).
  Proof.
    intros Hi Hj. pose proof M_pos as MP. pose proof sg_M as SM. set (k := M / sg). assert (K : 1 <= k) by (unfold k; apply Rmult_le_reg_r with sg; [lra|]; unfold Rdiv; rewrite Rmult_assoc, Rinv_l by lra; lra).
    replace (M * M / sg) with (k * M) by (unfold k; field; lra).
    set (e := fun i => a i j - Rsum n (fun t => q i t * s t j)).
    assert (E : rdot n (cl q i) (cl a j) = s i j + Rsum n (fun t => (rdot n (cl q i) (cl q t) - rid i t) * s t j) + rdot n (cl q i) e).
    { unfold rdot at 1 3. unfold e. rewrite (Rsum_ext n (fun t => q t i * (a t j - Rsum n (fun t0 => q t t0 * s t0 j))) (fun t => q t i * a t j + (-1) * Rsum n (fun t0 => q t i * q t t0 * s t0 j))).
      2:{ intros t Ht. rewrite (Rsum_ext n (fun t0 => q t i * q t t0 * s t0 j) (fun t0 => q t i * (q t t0 * s t0 j))) by (intros; ring). rewrite Rsum_scal. ring. }
      rewrite Rsum_plus, Rsum_scal, Rsum_swap.
      rewrite (Rsum_ext n (fun t => (rdot n (cl q i) (cl q t) - rid i t) * s t j) (fun t => Rsum n (fun k => q k i * q k t * s t j) + (-1) * (if (t =? i)%nat then s t j else 0))).
      2:{ intros t Ht. unfold rdot, rid. rewrite Rsum_scal_r. rewrite Nat.eqb_sym. destruct (t =? i)%nat; ring. }
      rewrite Rsum_plus, Rsum_scal, Rsum_pick by exact Hi. ring. }
    assert (B1 : Rabs (Rsum n (fun t => (rdot n (cl q i) (cl q t) - rid i t) * s t j)) <= 4 * (3 / 100000 * k * (101 / 100 * M))).
    { eapply Rle_trans; [apply Rsum_abs|]. apply Rle_trans with (Rsum n (fun _ => 3 / 100000 * k * (101 / 100 * M))).
      - apply Rsum_le. intros t Ht. rewrite Rabs_mult. apply Rmult_le_compat; auto using Rabs_pos. apply unit_cell; auto.
      - rewrite Rsum_const. assert (INR n <= 4) by (replace 4 with (INR 4) by (cbn; lra); apply le_INR; lia). assert (0 <= 3 / 100000 * k * (101 / 100 * M)) by (apply Rmult_le_pos; lra). nra. }
    assert (B2 : Rabs (rdot n (cl q i) e) <= 2 * (8 / 10000000 * M) * rnorm n (cl q i)) by (apply rdot_cell; [lia|lra|intros t Ht; apply HE; auto]).
    pose proof (HU i Hi) as U. apply Rabs_le_inv in U.
    assert (B3 : 2 * (8 / 10000000 * M) * rnorm n (cl q i) <= 2 * (8 / 10000000 * M) * 2) by (apply Rmult_le_compat_l; lra).
    pose proof (HR i j Hi Hj) as B4. assert (KM : M <= k * M) by nra.
    set (D := Rsum n _) in *. set (d := rdot n (cl q i) (cl a j)) in *. set (g := rdot n (cl q i) e) in *.
    replace (r i j - s i j) with ((r i j - d) + D + g) by (rewrite E; ring).
    eapply Rle_trans; [apply Rabs_triang|]. eapply Rle_trans; [apply Rplus_le_compat_r, Rabs_triang|].
    assert (Ek : 4 * (3 / 100000 * k * (101 / 100 * M)) = 4 * (3 / 100000) * (101 / 100) * (k * M)) by ring. lra.
  Qed.
  Lemma qr_prod i j : (i < n)%nat -> (j < n)%nat -> Rabs (rmul n q r i j - a i j) <= 6 / 10000 * (M * M / sg).
  Proof.
    intros Hi Hj. pose proof M_pos as MP. pose proof sg_M as SM. set (k := M / sg). assert (K : 1 <= k) by (unfold k; apply Rmult_le_reg_r with sg; [lra|]; unfold Rdiv; rewrite Rmult_assoc, Rinv_l by lra; lra).
    assert (EK : M * M / sg = k * M) by (unfold k; field; lra).
    assert (E : rmul n q r i j - a i j = Rsum n (fun t => q i t * (r t j - s t j)) - (a i j - Rsum n (fun t => q i t * s t j))).
    { unfold rmul. rewrite (Rsum_ext n (fun t => q i t * (r t j - s t j)) (fun t => q i t * r t j + (-1) * (q i t * s t j))) by (intros; ring). rewrite Rsum_plus, Rsum_scal. ring. }
    rewrite E. eapply Rle_trans; [apply Rabs_triang|]. rewrite Rabs_Ropp. pose proof (HE i j Hi Hj) as B1.
    assert (B2 : Rabs (Rsum n (fun t => q i t * (r t j - s t j))) <= 4 * ((1 + / 1000000) * (13 / 100000 * (M * M / sg)))).
    { eapply Rle_trans; [apply Rsum_abs|]. assert (0 <= 13 / 100000 * (M * M / sg)) by (rewrite EK; nra).
      apply Rle_trans with (Rsum n (fun _ => (1 + / 1000000) * (13 / 100000 * (M * M / sg)))).
      - apply Rsum_le. intros t Ht. rewrite Rabs_mult. apply Rmult_le_compat; auto using Rabs_pos; [|apply r_s; auto].
        pose proof (rnorm_bound n (cl q t) i Hi) as B. pose proof (HU t Ht) as U. apply Rabs_le_inv in U. cbv beta in B. lra.
      - rewrite Rsum_const. assert (INR n <= 4) by (replace 4 with (INR 4) by (cbn; lra); apply le_INR; lia). nra. }
    rewrite EK in *. assert (M <= k * M) by nra. lra.
  Qed.
End Reals.

(** ** the two conclusions *)
Definition goodr (n : nat) (a q s : nat -> nat -> R) (j : nat) : Prop :=
  98 / 1000000 < s j j /\
  (forall i, (i < n)%nat -> Rabs (a i j - Rsum (S j) (fun t => q i t * s t j)) <= 71 / 100000000 * rnorm n (fun i => a i j) + 20 * tau) /\
  (forall t, (t <= j)%nat -> Rabs (s t j) <= (1 + 3 / 100000) * rnorm n (fun i => a i j) + 20 * tau) /\
  (forall k, (k < j)%nat -> Rabs (Rsum (S j) (fun t => if (k <? t)%nat then rdot n (fun i => q i k) (fun i => q i t) * s t j else 0)) <= 39 / 10000000 * rnorm n (fun i => a i j) + 40 * tau).
Definition outcome (n : nat) (a q s : nat -> nat -> R) : Prop :=
  (forall i j, (j < i)%nat -> s i j = 0) /\
  (((forall j, (j < n)%nat -> Rabs (rnorm n (fun i => q i j) - 1) <= / 1000000) /\ (forall j, (j < n)%nat -> goodr n a q s j)) \/
   exists c v, (c < n)%nat /\ (forall j, (j < c)%nat -> goodr n a q s j) /\ rnorm n v <= 102 / 1000000 /\
     forall i, (i < n)%nat -> Rabs (a i c - (v i + Rsum c (fun t => s t c * q i t))) <= 63 / 100000000 * rnorm n (fun i => a i c) + 6 * tau).

Lemma rnorm_le n k x : (k <= n)%nat -> rnorm k x <= rnorm n x.
Proof.
  intros H. unfold rnorm. apply sqrt_le_1_alt. induction H as [|n H IH]; [lra|]. unfold rdot in *. cbn [Rsum]. nra.
Qed.

Section Core.
  Variables (lm : Libm) (n : nat) (Q A : nat -> nat -> f32).
  Notation F := (F32 lm).
  Hypothesis Hn : (1 <= n <= 4)%nat.
  Hypothesis FA : forall i j, (i < n)%nat -> (j < n)%nat -> is_finite (A i j) = true.
  Hypothesis FQ : forall i j, (i < n)%nat -> (j < n)%nat -> is_finite (Q i j) = true.
  Hypothesis HA : forall j, (j < n)%nat -> rnorm n (fun i => B2R (A i j)) <= bpow radix2 58.
  Hypothesis HD : built (A := F) n n Q A \/ exists c, (c < n)%nat /\ broken (A := F) n c Q A.
  Lemma q_norms j : (j < n)%nat -> rnorm n (fun i => B2R (Q i j)) <= bpow radix2 59.
  Proof.
    intros Hj. destruct big_59 as (B1 & B2 & _).
    assert (UU : forall c, (c <= n)%nat -> done (A := F) n c Q A -> (j < c)%nat -> rnorm n (fun i => B2R (Q i j)) <= bpow radix2 59).
    { intros c Hc D Hjc. pose proof (units lm n Q A Hn FA FQ HA c Hc D j Hjc) as U. apply Rabs_le_inv in U. lra. }
    destruct HD as [[D _]|(c & Hc & D & _ & E1 & E2)]; [apply (UU n); auto|].
    destruct (Nat.lt_trichotomy j c) as [L|[->|L]].
    - apply (UU c); auto. lia.
    - rewrite (rnorm_ext n _ (fun i => B2R (gsx (A := F) n Q A c c i : f32))) by (intros i Hi; rewrite (E1 i Hi); reflexivity).
      apply (col_end lm n Q A Hn FA FQ HA c Hc). apply (units lm n Q A Hn FA FQ HA c ltac:(lia) D).
    - rewrite (rnorm_ext n _ (fun i => B2R (A i j))) by (intros i Hi; rewrite (E2 i j Hi ltac:(lia)); reflexivity). specialize (HA j Hj). lra.
  Qed.
  Lemma q_prods i j k : (i < n)%nat -> (j < n)%nat -> (k <= n)%nat ->
    is_finite (fsum (A := F) k (fun t => Bmult mode_NE (Q t i) (A t j)) : f32) = true /\
    Rabs (B2R (fsum (A := F) k (fun t => Bmult mode_NE (Q t i) (A t j)) : f32) - rdot k (fun t => B2R (Q t i)) (fun t => B2R (A t j))) <=
      3 / 10000000 * (rnorm k (fun t => B2R (Q t i)) * rnorm k (fun t => B2R (A t j))) + tau / 10.
  Proof.
    intros Hi Hj Hk. apply (prod_sum lm k (fun t => Q t i) (fun t => A t j)); [lia|intros t Ht; split; [apply FQ|apply FA]; lia|].
    destruct big_59 as (B1 & B2 & _ & _ & B5). pose proof (q_norms i Hi) as N1. pose proof (HA j Hj) as N2.
    pose proof (rnorm_le n k (fun t => B2R (Q t i)) Hk) as L1. pose proof (rnorm_le n k (fun t => B2R (A t j)) Hk) as L2.
    apply Rle_trans with (bpow radix2 59 * bpow radix2 58); [apply Rmult_le_compat; try apply rnorm_pos; lra|]. rewrite B2. assert (0 < bpow radix2 58 * bpow radix2 58) by (apply Rmult_lt_0_compat; apply bpow_gt_0). lra.
  Qed.
  Lemma core_out : outcome n (fun i j => B2R (A i j)) (fun i j => B2R (Q i j)) (sfac lm n Q A).
  Proof.
    split; [intros i j Hij; unfold sfac; destruct (Nat.ltb_spec i j), (Nat.eqb_spec i j); try lia; reflexivity|].
    destruct HD as [[D _]|(c & Hc & D & G & E1 & E2)].
    - left. split; [exact (units lm n Q A Hn FA FQ HA n (le_n n) D)|]. intros j Hj. exact (col_good lm n Q A Hn FA FQ HA n j (le_n n) D Hj).
    - right. exists c, (fun i => B2R (gsx (A := F) n Q A c c i : f32)). split; [exact Hc|]. 
      pose proof (units lm n Q A Hn FA FQ HA c ltac:(lia) D) as U.
      split; [intros j Hj; exact (col_good lm n Q A Hn FA FQ HA c j ltac:(lia) D Hj)|].
      split; [exact (last_norm lm n Q A Hn FA FQ HA c Hc U G)|]. exact (proj1 (col_rest lm n Q A Hn FA FQ HA c Hc U)).
  Qed.
End Core.

Lemma qr32_core : forall (lm : Libm) (m : Mat (T (Arith := F32 lm))) (n : nat) (a : nat -> nat -> R), mat_f m n n a ->
  (forall j, (j < n)%nat -> rnorm n (fun i => a i j) <= bpow radix2 58) ->
  (1 <= n <= 4)%nat /\ exists mq mr q r s a', m_qr_decomp m = Ok (mq, mr) /\ mat_f mq n n q /\ mat_f mr n n r /\
    (forall i j, (i < n)%nat -> (j < n)%nat -> a' i j = a i j) /\
    (forall i j, (i < n)%nat -> (j < n)%nat -> Rabs (r i j - rmul n (rtr q) a' i j) <= 3 / 10000000 * (rnorm n (fun k => q k i) * rnorm n (fun k => a' k j)) + tau) /\
    outcome n a' q s.
Proof.
  intros lm m n a (F0 & Hm & Ea) HA. destruct (mat_is_dim _ _ _ _ Hm) as [Dn _]. split; [exact Dn|].
  assert (FA : forall i j, (i < n)%nat -> (j < n)%nat -> is_finite (F0 i j : f32) = true) by (intros i j Hi Hj; apply (valid_finite lm); eapply mat_is_valid; eauto).
  assert (HA' : forall j, (j < n)%nat -> rnorm n (fun i => B2R (F0 i j : f32)) <= bpow radix2 58).
  { intros j Hj. rewrite (rnorm_ext n _ (fun i => a i j)) by (intros i Hi; apply Ea; auto). apply HA, Hj. }
  destruct (qr_ok (A := F32 lm) m n F0 Hm) as (mq & mr & Q & E & HQ & HR & HD).
  - intros c Q Hc [D _] V. apply (col_valid lm n Q F0); auto. intros i j Hi Hj. apply (valid_finite lm), V; auto.
  - intros Q V HD i j k Hi Hj Hk. apply (valid_finite lm). apply (q_prods lm n Q F0); auto; [intros; apply (valid_finite lm), V; auto|lia].
  - assert (FQ : forall i j, (i < n)%nat -> (j < n)%nat -> is_finite (Q i j : f32) = true) by (intros i j Hi Hj; apply (valid_finite lm); eapply mat_is_valid; eauto).
    exists mq, mr, (fun i j => B2R (Q i j : f32)), (fun i j => B2R (fsum (A := F32 lm) n (fun t => Bmult mode_NE (Q t i) (F0 t j)) : f32)), (sfac lm n Q F0), (fun i j => B2R (F0 i j : f32)).
    split; [exact E|]. split; [exists Q; split; [exact HQ|reflexivity]|]. split; [eexists; split; [exact HR|reflexivity]|]. split; [exact Ea|]. split.
    + intros i j Hi Hj. eapply Rle_trans; [apply (q_prods lm n Q F0 Dn FA FQ HA' HD i j n Hi Hj (le_n n))|]. unfold tau. lra.
    + apply core_out; auto.
Qed.

(*@ C73_columns *)
(** C73: [qr_decomp] of an n x n f32 matrix whose columns are at most 2^58 long succeeds.  R is the rounded Q' A.  Either
    the columns of Q have length 1 up to 1e-6 and A is, up to 1e-6 of the length of each column, Q times an upper
    triangular matrix with positive diagonal; or the matrix is singular up to rounding: a combination of its columns, in
    which the coefficient of the last one involved is 1, is at most 1.1e-4 long up to 2e-6 of the lengths that go into it *)
Lemma l_qr32 :
  forall (lm : Libm) (m : Mat (T (Arith := F32 lm))) (n : nat) (a : nat -> nat -> R), mat_f m n n a ->
  (forall j, (j < n)%nat -> rnorm n (fun i => a i j) <= bpow radix2 58) ->
  exists mq mr q r, m_qr_decomp m = Ok (mq, mr) /\ mat_f mq n n q /\ mat_f mr n n r /\
  (forall i j, (i < n)%nat -> (j < n)%nat ->
    Rabs (r i j - rmul n (rtr q) a i j) <= 3 / 10000000 * (rnorm n (fun k => q k i) * rnorm n (fun k => a k j)) + / 10 ^ 30) /\
  (((forall j, (j < n)%nat -> Rabs (rnorm n (fun i => q i j) - 1) <= / 1000000) /\
    exists s, (forall i j, (j < i)%nat -> s i j = 0) /\ (forall j, (j < n)%nat -> 0 < s j j) /\
    forall i j, (i < n)%nat -> (j < n)%nat -> Rabs (a i j - rmul n q s i j) <= / 1000000 * rnorm n (fun k => a k j) + / 10 ^ 28) \/
   exists c z, (c < n)%nat /\ z c = 1 /\ (forall k, (c < k)%nat -> z k = 0) /\
    rnorm n (rmv n a z) <= 11 / 100000 + Rsum n (fun j => Rabs (z j) * (2 / 1000000 * rnorm n (fun k => a k j) + / 10 ^ 28))).
Proof.
  intros lm m n a Hm HA. destruct (qr32_core lm m n a Hm HA) as (Dn & mq & mr & q & r & s & a' & E & Hq & Hr & Ea & Er & Sup & O).
  assert (EN : forall j, (j < n)%nat -> rnorm n (fun i => a' i j) = rnorm n (fun i => a i j)) by (intros j Hj; apply rnorm_ext; intros i Hi; apply Ea; auto).
  assert (T0 : 0 < tau) by (unfold tau; lra).
  assert (T1 : tau = / 10 ^ 30) by (unfold tau; f_equal; cbn [pow]; lra). assert (T2 : / 10 ^ 28 = 100 * tau) by (unfold tau; cbn [pow]; lra).
  exists mq, mr, q, r. split; [exact E|]. split; [exact Hq|]. split; [exact Hr|]. split.
  { intros i j Hi Hj. specialize (Er i j Hi Hj). rewrite EN in Er by exact Hj. rewrite <- T1. eapply Rle_trans; [|exact Er]. right. f_equal. f_equal. apply Rsum_ext. intros k Hk. rewrite Ea by auto. reflexivity. }
  destruct O as [[U G]|(c & v & Hc & G & Nv & Ev)].
  - left. split; [exact U|]. exists s. split; [exact Sup|]. split; [intros j Hj; destruct (G j Hj) as [K _]; lra|].
    intros i j Hi Hj. destruct (G j Hj) as (_ & K & _). specialize (K i Hi). rewrite <- (sum_up n q s Dn Sup n i j Hj) in K. rewrite Ea, EN in K by auto. rewrite T2.
    pose proof (rnorm_pos n (fun k => a k j)). unfold rmul. lra.
  - right. destruct (singular n a' q s Dn Sup c v (71 / 100000000) (20 * tau) Hc ltac:(lra) ltac:(lra)) as (z & Z1 & Z2 & Z3).
    + intros j Hj. destruct (G j Hj) as [K _]. lra.
    + intros i j Hi Hj. destruct (G j Hj) as (_ & K & _). exact (K i Hi).
    + intros i Hi. eapply Rle_trans; [exact (Ev i Hi)|]. pose proof (rnorm_pos n (fun k => a' k c)). lra.
    + exists c, z. split; [exact Hc|]. split; [exact Z1|]. split; [exact Z2|].
      rewrite (rnorm_ext n (rmv n a z) (rmv n a' z)) by (intros i Hi; apply Rsum_ext; intros j Hj; rewrite Ea by auto; reflexivity).
      eapply Rle_trans; [exact Z3|]. apply Rplus_le_compat; [lra|]. apply Rsum_le. intros j Hj. apply Rmult_le_compat_l; [apply Rabs_pos|]. rewrite EN by exact Hj. rewrite T2.
      pose proof (rnorm_pos n (fun k => a k j)). lra.
Qed.

(*@ C73_orthogonal *)
(** C73: if moreover no column of A is longer than M and A shrinks no vector by more than a factor sigma, where sigma is
    at least 2e-4 and at least 2e-5 M, then Q is orthogonal up to 3e-5 M / sigma, R is upper triangular and Q R = A up to
    the same factor of M *)
Lemma l_qr32_ortho :
  forall (lm : Libm) (m : Mat (T (Arith := F32 lm))) (n : nat) (a : nat -> nat -> R) (M sigma : R), mat_f m n n a ->
  (forall j, (j < n)%nat -> rnorm n (fun i => a i j) <= M) -> M <= bpow radix2 58 ->
  (forall x, sigma * rnorm n x <= rnorm n (rmv n a x)) -> 2 / 10000 <= sigma -> 2 / 100000 * M <= sigma ->
  exists mq mr q r, m_qr_decomp m = Ok (mq, mr) /\ mat_f mq n n q /\ mat_f mr n n r /\
  forall i j, (i < n)%nat -> (j < n)%nat ->
    Rabs (rmul n (rtr q) q i j - rid i j) <= 3 / 100000 * (M / sigma) /\
    ((j < i)%nat -> Rabs (r i j) <= 13 / 100000 * (M * M / sigma)) /\
    Rabs (rmul n q r i j - a i j) <= 6 / 10000 * (M * M / sigma).
Proof.
  intros lm m n a M sg Hm HM BM HI S1 S2. destruct (qr32_core lm m n a Hm ltac:(intros j Hj; specialize (HM j Hj); lra)) as (Dn & mq & mr & q & r & s & a' & E & Hq & Hr & Ea & Er & Sup & O).
  exists mq, mr, q, r. split; [exact E|]. split; [exact Hq|]. split; [exact Hr|].
  assert (HM' : forall j, (j < n)%nat -> rnorm n (fun i => a' i j) <= M) by (intros j Hj; rewrite (rnorm_ext n _ (fun i => a i j)) by (intros i Hi; apply Ea; auto); apply HM, Hj).
  assert (HI' : forall x, sg * rnorm n x <= rnorm n (rmv n a' x)).
  { intros x. rewrite (rnorm_ext n (rmv n a' x) (rmv n a x)) by (intros i Hi; apply Rsum_ext; intros j Hj; rewrite Ea by auto; reflexivity). apply HI. }
  pose proof (sg_M n a' Dn M sg HM' ltac:(lra) HI') as SM. assert (T0 : 0 < tau) by (unfold tau; lra). assert (T1 : 10000000000 * tau <= 2 / 10000) by (unfold tau; lra).
  destruct O as [[U G]|(c & v & Hc & G & Nv & Ev)].
  - assert (HE : forall i j, (i < n)%nat -> (j < n)%nat -> Rabs (a' i j - Rsum n (fun t => q i t * s t j)) <= 8 / 10000000 * M).
    { intros i j Hi Hj. destruct (G j Hj) as (_ & K & _). specialize (K i Hi). rewrite <- (sum_up n q s Dn Sup n i j Hj) in K. specialize (HM' j Hj). lra. }
    assert (HF : forall k j, (k < j)%nat -> (j < n)%nat -> Rabs (Rsum (S j) (fun t => if (k <? t)%nat then rdot n (fun i => q i k) (fun i => q i t) * s t j else 0)) <= 4 / 1000000 * M).
    { intros k j Hk Hj. destruct (G j Hj) as (_ & _ & _ & K). specialize (K k Hk). specialize (HM' j Hj). lra. }
    assert (Sd : forall j, (j < n)%nat -> s j j <> 0) by (intros j Hj; destruct (G j Hj) as [K _]; lra).
    assert (HS : forall i j, (i < n)%nat -> (j < n)%nat -> Rabs (s i j) <= 101 / 100 * M).
    { intros i j Hi Hj. destruct (Nat.le_gt_cases i j) as [L|L]; [|rewrite Sup by exact L; rewrite Rabs_R0; lra]. destruct (G j Hj) as (_ & _ & K & _). specialize (K i L). specialize (HM' j Hj). lra. }
    assert (HR : forall i j, (i < n)%nat -> (j < n)%nat -> Rabs (r i j - rdot n (fun t => q t i) (fun t => a' t j)) <= 4 / 10000000 * M).
    { intros i j Hi Hj. eapply Rle_trans; [exact (Er i j Hi Hj)|]. pose proof (U i Hi) as Ui. apply Rabs_le_inv in Ui. specialize (HM' j Hj).
      assert (rnorm n (fun k => q k i) * rnorm n (fun k => a' k j) <= (1 + / 1000000) * M) by (apply Rmult_le_compat; try apply rnorm_pos; lra). lra. }
    intros i j Hi Hj. rewrite <- Ea by auto.
    assert (S3 : 20 * M <= 1000000 * sg) by lra. assert (S0 : 0 < sg) by lra.
    split; [|split].
    + exact (unit_cell n a' q s Dn Sup M sg U HM' S0 S3 HI' HE HF Sd i j Hi Hj).
    + intros L. rewrite <- (Rminus_0_r (r i j)). rewrite <- (Sup i j L). exact (r_s n a' q s Dn Sup M sg U HM' S0 S3 HI' HE HF Sd HS r HR i j Hi Hj).
    + exact (qr_prod n a' q s Dn Sup M sg U HM' S0 S3 HI' HE HF Sd HS r HR i j Hi Hj).
  - exfalso. destruct (singular n a' q s Dn Sup c v (71 / 100000000) (20 * tau) Hc ltac:(lra) ltac:(lra)) as (z & Z1 & Z2 & Z3).
    + intros j Hj. destruct (G j Hj) as [K _]. lra.
    + intros i j Hi Hj. destruct (G j Hj) as (_ & K & _). exact (K i Hi).
    + intros i Hi. eapply Rle_trans; [exact (Ev i Hi)|]. pose proof (rnorm_pos n (fun k => a' k c)). lra.
    + pose proof (HI' z) as I. pose proof (rnorm_bound n z c Hc) as B. rewrite Z1, Rabs_R1 in B.
      assert (K : Rsum n (fun j => Rabs (z j) * (2 * (71 / 100000000) * rnorm n (fun i => a' i j) + 2 * (20 * tau))) <= 2 * (2 / 1000000 * M) * rnorm n z).
      { eapply Rle_trans; [|apply (sum_norm n Dn z (2 / 1000000 * M)); lra]. apply Rsum_le. intros j Hj. apply Rmult_le_compat_l; [apply Rabs_pos|]. specialize (HM' j Hj). lra. }
      assert (2 * (2 / 1000000 * M) * rnorm n z <= 2 / 10 * sg * rnorm n z) by (apply Rmult_le_compat_r; lra).
      assert (sg * 1 <= sg * rnorm n z) by (apply Rmult_le_compat_l; lra). lra.
Qed.

Definition par : list Z := [390; 780; 390; 780]%Z.
(*@ C73_noise_refuted *)
(** C73, violation for every libm: the second column of [[390,780],[390,780]] is twice the first one, but [qr_decomp] does
    not stop: it returns a Q whose columns are the same up to sign, and Q R is more than 1.9 A *)
Lemma l_qr32_w :
  exists m : Mat f32, forall lm : Libm, mat_f (lm := lm) m 2 2 (fun i j => IZR (nth (i * 2 + j) [390; 780; 390; 780]%Z 0%Z)) /\
  exists mq mr q r, m_qr_decomp (A := F32 lm) m = Ok (mq, mr) /\ mat_f (lm := lm) mq 2 2 q /\ mat_f (lm := lm) mr 2 2 r /\
  rmul 2 (rtr q) q 0 1 <= - (999 / 1000) /\
  forall i j, (i < 2)%nat -> (j < 2)%nat -> 19 / 10 * IZR (nth (i * 2 + j) [390; 780; 390; 780]%Z 0%Z) <= rmul 2 q r i j.
Proof.
  exists (mk_mat (A := F32 lm_id) 2 2 (map z32 par)). intros lm.
  assert (Hm : mat_f (lm := lm) (mk_mat (A := F32 lm_id) 2 2 (map z32 par)) 2 2 (fun i j => IZR (nth (i * 2 + j) par 0%Z))) by (apply (mat_z lm); try lia; [reflexivity|repeat constructor; cbn; lia]).
  split; [exact Hm|].
  assert (C : rmap (fun p => (show_m (fst p), show_m (snd p))) (m_qr_decomp (A := F32 lm) (mk_mat (A := F32 lm_id) 2 2 (map z32 par))) = Ok
    ((2%nat, 2%nat, true, [S754_finite false 11863284 (-24); S754_finite true 11863283 (-24); S754_finite false 11863284 (-24); S754_finite true 11863283 (-24)]),
     (2%nat, 2%nat, true, [S754_finite false 9036486 (-14); S754_finite false 9036486 (-13); S754_finite true 9036485 (-14); S754_finite true 9036485 (-13)]))) by (vm_compute; reflexivity).
  assert (B : forall j, (j < 2)%nat -> rnorm 2 (fun i => IZR (nth (i * 2 + j) par 0%Z)) <= bpow radix2 58).
  { intros j Hj. eapply Rle_trans; [apply (rnorm_cell 2 _ 780); [lia|lra|]|change (bpow radix2 58) with (IZR (2 ^ 58)); apply (IZR_le (2 * 780)); lia].
    intros i Hi. destruct i as [|[|i]], j as [|[|j]]; try lia; cbn [nth par Nat.add Nat.mul]; rewrite Rabs_pos_eq; lra. }
  destruct (l_qr32 lm _ 2 _ Hm B) as (mq & mr & q & r & E & Hq & Hr & _). exists mq, mr, q, r. split; [exact E|]. split; [exact Hq|]. split; [exact Hr|].
  rewrite E in C. unfold rmap in C. cbn [rbind fst snd] in C. apply (f_equal (fun r => match r with Ok x => x | _ => ((O, O, false, []), (O, O, false, [])) end)) in C. cbv beta iota in C.
  destruct Hq as (Q & HQ & EQ), Hr as (R & HR & ER). 
  assert (S1 := show_nth_m lm mq 2 2 Q _ HQ (f_equal fst C)). assert (S2 := show_nth_m lm mr 2 2 R _ HR (f_equal snd C)).
  assert (G : forall z e b, (e < 0)%Z -> SF2R radix2 (S754_finite b z e) = IZR (cond_Zopp b (Zpos z)) / IZR (2 ^ (- e))).
  { intros z e b He. unfold SF2R, F2R, Fnum, Fexp, Rdiv. f_equal. destruct e; try lia. reflexivity. }
  assert (V : q 0%nat 0%nat = 11863284 / 16777216 /\ q 0%nat 1%nat = - 11863283 / 16777216 /\ q 1%nat 0%nat = 11863284 / 16777216 /\ q 1%nat 1%nat = - 11863283 / 16777216).
  { rewrite <- !EQ by lia. rewrite !S1 by lia. cbn [nth fst Nat.add Nat.mul]. rewrite !G by lia. cbn [cond_Zopp Z.opp Z.pow Z.pow_pos Pos.iter Z.mul Pos.mul]. repeat split; lra. }
  assert (W : r 0%nat 0%nat = 9036486 / 16384 /\ r 0%nat 1%nat = 9036486 / 8192 /\ r 1%nat 0%nat = - 9036485 / 16384 /\ r 1%nat 1%nat = - 9036485 / 8192).
  { rewrite <- !ER by lia. rewrite !S2 by lia. cbn [nth snd Nat.add Nat.mul]. rewrite !G by lia. cbn [cond_Zopp Z.opp Z.pow Z.pow_pos Pos.iter Z.mul Pos.mul]. repeat split; lra. }
  destruct V as (V1 & V2 & V3 & V4), W as (W1 & W2 & W3 & W4).
  split; [unfold rmul, rtr; cbn [Rsum]; rewrite V1, V2, V3, V4; lra|].
  intros i j Hi Hj. unfold rmul. cbn [Rsum]. destruct i as [|[|i]], j as [|[|j]]; try lia; rewrite ?V1, ?V2, ?V3, ?V4, ?W1, ?W2, ?W3, ?W4; cbn [nth Nat.add Nat.mul]; lra.
Qed.

Lemma ex_qr :
  let A := F32 lm_id in let m := mk_mat (A := A) 2 2 (map z32 [3; 1; 4; 2]%Z) in let a := fun i j => IZR (nth (i * 2 + j) [3; 1; 4; 2]%Z 0%Z) in
  mat_f (lm := lm_id) m 2 2 a /\ (forall j, (j < 2)%nat -> rnorm 2 (fun i => a i j) <= 5) /\ 5 <= bpow radix2 58 /\
  (forall x, / 4 * rnorm 2 x <= rnorm 2 (rmv 2 a x)) /\ 2 / 10000 <= / 4 /\ 2 / 100000 * 5 <= / 4 /\
  rmap (fun p => (show_m (fst p), show_m (snd p))) (m_qr_decomp m) = Ok
    ((2%nat, 2%nat, true, [S754_finite false 10066330 (-24); S754_finite true 13421776 (-24); S754_finite false 13421773 (-24); S754_finite false 10066326 (-24)]),
     (2%nat, 2%nat, true, [S754_finite false 10485760 (-21); S754_finite false 9227469 (-22); S754_finite true 12582912 (-43); S754_finite false 13421752 (-25)])).
Proof.
  cbv zeta. split; [apply (mat_z lm_id 2 2 [3; 1; 4; 2]%Z); try lia; [reflexivity|repeat constructor; cbn; lia]|]. split; [|split; [|split; [|split; [lra|split; [lra|vm_compute; reflexivity]]]]].
  - intros j Hj. apply Rsqr_incr_0_var; [|lra]. unfold Rsqr. rewrite rnorm_sqr. unfold rdot. destruct j as [|[|j]]; [| |lia]; cbn [Rsum nth Nat.add Nat.mul]; lra.
  - change (bpow radix2 58) with (IZR (2 ^ 58)). apply IZR_le. lia.
  - intros x. apply Rsqr_incr_0_var; [|apply rnorm_pos]. unfold Rsqr. replace (/ 4 * rnorm 2 x * (/ 4 * rnorm 2 x)) with (/ 16 * (rnorm 2 x * rnorm 2 x)) by field. rewrite !rnorm_sqr.
    unfold rdot, rmv. cbn [Rsum nth Nat.add Nat.mul]. set (u := x 0%nat). set (v := x 1%nat).
    pose proof (Rle_0_sqr (11 * u + 4.91 * v)) as K. unfold Rsqr in K. pose proof (Rle_0_sqr v) as K2. pose proof (Rle_0_sqr u) as K3. unfold Rsqr in *. nra.
Qed.

(*@ example *)
(** test: [[3,1],[4,2]] meets the conditions of C73_orthogonal with M = 5 and sigma = 1/4; the element below the diagonal
    of R is -1.4e-6, not zero *)
Example C73_example :
  let A := F32 lm_id in let m := mk_mat (A := A) 2 2 (map z32 [3; 1; 4; 2]%Z) in let a := fun i j => IZR (nth (i * 2 + j) [3; 1; 4; 2]%Z 0%Z) in
  mat_f (lm := lm_id) m 2 2 a /\ (forall j, (j < 2)%nat -> rnorm 2 (fun i => a i j) <= 5) /\ 5 <= bpow radix2 58 /\
  (forall x, / 4 * rnorm 2 x <= rnorm 2 (rmv 2 a x)) /\ 2 / 10000 <= / 4 /\ 2 / 100000 * 5 <= / 4 /\
  rmap (fun p => (show_m (fst p), show_m (snd p))) (m_qr_decomp m) = Ok
    ((2%nat, 2%nat, true, [S754_finite false 10066330 (-24); S754_finite true 13421776 (-24); S754_finite false 13421773 (-24); S754_finite false 10066326 (-24)]),
     (2%nat, 2%nat, true, [S754_finite false 10485760 (-21); S754_finite false 9227469 (-22); S754_finite true 12582912 (-43); S754_finite false 13421752 (-25)])).
Proof. exact ex_qr. Qed.
