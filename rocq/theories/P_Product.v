(** C10: matrix product. *)
(*@+*)
From Coq Require Import List Arith ZArith Reals Lia Bool.
From Flocq Require Import Core BinarySingleNaN.
From Verif Require Import M_Base M_Arith M_Utils M_Vector M_Matrix M_F32 M_RX S_Spec S_Linalg P_Inst.
Import ListNotations.
Local Open Scope nat_scope.
(*@-*)
From Coq Require Import Lra.
From Verif Require Import P_Hoare P_Cont P_Loops P_Access P_Pointwise P_Trans P_Float.

Lemma wp_local {S W E A} (c : ST (S * W) E A) (w : W) s
  (Q : A -> S -> Prop) (X : E -> S -> Prop) (P : Prop) :
  wp c (s, w) (fun a p => Q a (fst p)) (fun e p => X e (fst p)) P ->
  wp (fun s => let '((s', _), r) := c (s, w) in (s', r)) s Q X P.
Proof. unfold wp. destruct (c (s, w)) as [[s' w'] [a|e|]]; auto. Qed.

Section Prod.
  Context {A : Arith}.

  Definition pcell (r k c : nat) (f : nat -> nat -> T) (s : nat -> nat -> nat -> T) (i j n : nat) :
    nat -> nat -> T := fun a b =>
    if before a b i j then s a b k
    else if (a =? i) && (b =? j) && negb (n =? 0) then s a b n else f a b.

  Lemma m_mul_wp self a b r k c f fa fb :
    mat_is self r c f -> mat_is a r k fa -> mat_is b k c fb ->
    product_m r k c f (fun i j n => fsum n (fun t => fa i t * fb t j)%F) (m_mul a b self).
  Proof.
    intros Hs Ha Hb. set (s := fun i j n => fsum n (fun t => fa i t * fb t j)%F).
    assert (W : wp (m_mul a b) self
      (fun _ m' => (forall i j n, i < r -> j < c -> 1 <= n <= k -> valid (s i j n)) /\
                   mat_is m' r c (fun i j => s i j k))
      (fun e m' => exists i j n e', i < r /\ j < c /\ n < k /\ bad (s i j (S n)) = Some e' /\
        (forall a b, a < r -> b < c -> before a b i j = true -> forall t, 1 <= t <= k -> valid (s a b t)) /\
        (forall t, 1 <= t <= n -> valid (s i j t)) /\ e = UtilsErr e' /\
        mat_is m' r c (pcell r k c f s i j n)) False).
    { destruct (mat_is_dim _ _ _ _ Ha) as [Dr Dk].
      eapply wp_fold.
      { unfold m_mul. rewrite (mi_cols _ _ _ _ Ha), (mi_rows _ _ _ _ Hb), (mi_rows _ _ _ _ Hs),
          (mi_rows _ _ _ _ Ha), (mi_cols _ _ _ _ Hs), (mi_cols _ _ _ _ Hb), !Nat.eqb_refl.
        cbn [negb orb]. reflexivity. }
      pose (V := fun i j => forall a b, a < r -> b < c -> before a b i j = true ->
                   forall t, 1 <= t <= k -> valid (s a b t)).
      apply wp_for with (I := fun i m => V i 0 /\ mat_is m r c (pcell r k c f s i 0 0)).
      - split.
        + intros x y Hx Hy H. apply before_spec in H. lia.
        + eapply mat_is_ext; [exact Hs|]. intros x y Hx Hy. unfold pcell.
          destruct (before x y 0 0) eqn:E; [apply before_spec in E; lia|]. rewrite andb_false_r. reflexivity.
      - intros i m Hi HI.
        apply wp_for with (I := fun j m => V i j /\ mat_is m r c (pcell r k c f s i j 0)); [exact HI| |].
        + intros j m' Hj [HV HM]. apply wp_local.
          apply wp_for with (I := fun n p => (forall t, 1 <= t <= n -> valid (s i j t)) /\
             mat_is (fst p) r c (pcell r k c f s i j n) /\ snd p = s i j n).
          * split; [lia|]. split; [exact HM|reflexivity].
          * intros n [m1 acc] Hn (Hp & H1 & Hacc). cbn [fst snd] in *. subst acc.
            apply wp_bind, wp_lift. eapply rwp_m_get; [exact Ha|lia|lia|]. intros _.
            apply wp_bind, wp_lift. eapply rwp_m_get; [exact Hb|lia|lia|]. intros _.
            apply wp_bind, wp_modify. cbn [fst snd].
            change (s i j n + fa i n * fb n j)%F with (s i j (S n)).
            unfold wp. cbn [fst snd]. destruct (valid_dec (s i j (S n))) as [Hx|[e He]].
            -- destruct (m_set_in m1 r c _ i j (s i j (S n)) H1 ltac:(lia) ltac:(lia) Hx) as (m2 & E2 & H2).
               rewrite E2. split; [|split].
               ++ intros t Ht. destruct (Nat.eq_dec t (S n)) as [->|]; auto. apply Hp. lia.
               ++ cbn [fst]. eapply mat_is_ext; [exact H2|]. intros x y Hx' Hy. unfold fupd2, pcell.
                  destruct (Nat.eqb_spec x i) as [->|], (Nat.eqb_spec y j) as [->|]; cbn [andb]; auto.
                  rewrite before_irrefl. reflexivity.
               ++ reflexivity.
            -- rewrite (m_set_bad _ _ _ _ _ _ _ _ H1 He). cbn [fst snd].
               exists i, j, n, e. conjs; auto; lia.
          * intros [m1 acc] (Hp & H1 & Hacc). rewrite Nat.max_0_l in *. cbn [fst snd] in *. split.
            -- intros x y Hx Hy H t Ht. rewrite before_S in H. apply orb_true_iff in H.
               destruct H as [H|H]; [apply HV; auto|].
               apply andb_true_iff in H. rewrite !Nat.eqb_eq in H. destruct H as [-> ->]. apply Hp. lia.
            -- eapply mat_is_ext; [exact H1|]. intros x y Hx Hy. unfold pcell. rewrite before_S.
               destruct (Nat.eqb_spec k 0); [lia|]. cbn [negb]. rewrite andb_true_r.
               destruct ((x =? i) && (y =? j)) eqn:E; cbn [negb andb]; rewrite ?orb_true_r, ?orb_false_r, ?andb_false_r; auto.
               apply andb_true_iff in E. rewrite !Nat.eqb_eq in E. destruct E as [-> ->].
               rewrite before_irrefl. reflexivity.
        + intros m1 [HV H1]. rewrite Nat.max_0_l in *. split.
          * intros x y Hx Hy H. apply HV; auto. rewrite before_row by auto. exact H.
          * eapply mat_is_ext; [exact H1|]. intros x y Hx Hy. unfold pcell.
            rewrite before_row by auto. rewrite !andb_false_r. reflexivity.
      - intros m [HV HM]. rewrite Nat.max_0_l in *. split.
        + intros i j n Hi Hj Hn. apply HV; auto. apply before_all; auto.
        + eapply mat_is_ext; [exact HM|]. intros x y Hx Hy. unfold pcell. rewrite before_all by auto. reflexivity. }
    unfold wp in W. unfold product_m. destruct (m_mul a b self) as [m' [[]|e|]]; cbn [fst snd].
    - left. destruct W as [W1 W2]. auto.
    - right. destruct W as (i & j & n & e' & W). exists i, j, n, e'. intuition congruence.
    - tauto.
  Qed.

  Lemma m_mul_size self a b r c f ra ca fa rb cb fb :
    mat_is self r c f -> mat_is a ra ca fa -> mat_is b rb cb fb ->
    ~ (ca = rb /\ r = ra /\ c = cb) -> m_mul a b self = (self, Err InvalidSize).
  Proof.
    intros Hs Ha Hb H. unfold m_mul.
    rewrite (mi_cols _ _ _ _ Ha), (mi_rows _ _ _ _ Hb), (mi_rows _ _ _ _ Hs),
      (mi_rows _ _ _ _ Ha), (mi_cols _ _ _ _ Hs), (mi_cols _ _ _ _ Hb).
    destruct (Nat.eqb_spec ca rb), (Nat.eqb_spec r ra), (Nat.eqb_spec c cb); cbn [negb orb]; auto.
    exfalso. apply H. auto.
  Qed.

  Context {OK : ArithOk A}.
  Lemma m_mul_new_ok a b r k c fa fb : mat_is a r k fa -> mat_is b k c fb ->
    (forall i j n, i < r -> j < c -> 1 <= n <= k -> valid (fsum n (fun t => fa i t * fb t j)%F)) ->
    exists m, m_mul_new a b = Ok m /\ mat_is m r c (fun i j => fsum k (fun t => fa i t * fb t j)%F).
  Proof.
    intros Ha Hb V. destruct (mat_is_dim _ _ _ _ Ha) as [Dr Dk], (mat_is_dim _ _ _ _ Hb) as [_ Dc].
    unfold m_mul_new, m_get_rows, m_get_cols.
    rewrite (mi_init _ _ _ _ Ha), (mi_init _ _ _ _ Hb), (mi_rows _ _ _ _ Ha), (mi_cols _ _ _ _ Hb).
    cbn [negb rbind]. destruct (m_init_new r c Dr Dc) as (m0 & E0 & H0).
    rewrite (exec_step _ _ _ _ E0). unfold exec.
    destruct (m_mul_wp m0 a b r k c _ _ _ H0 Ha Hb) as [(_ & E & H)|(i & j & n & e & Hi & Hj & Hn & He & _)].
    - destruct (m_mul a b m0) as [m' o]. cbn [fst snd] in *. subst. eauto.
    - exfalso. apply bad_Some_not in He. apply He, V; auto. lia.
  Qed.
  Lemma m_mul_ok self a b r k c f fa fb : mat_is self r c f -> mat_is a r k fa -> mat_is b k c fb ->
    (forall i j n, i < r -> j < c -> 1 <= n <= k -> valid (fsum n (fun t => fa i t * fb t j)%F)) ->
    exists m, m_mul a b self = (m, Ok tt) /\ mat_is m r c (fun i j => fsum k (fun t => fa i t * fb t j)%F).
  Proof.
    intros Hs Ha Hb V.
    destruct (m_mul_wp self a b r k c _ _ _ Hs Ha Hb) as [(_ & E & H)|(i & j & n & e & Hi & Hj & Hn & He & _)].
    - destruct (m_mul a b self) as [m' o]. cbn [fst snd] in *. subst. eauto.
    - exfalso. apply bad_Some_not in He. apply He, V; auto. lia.
  Qed.
End Prod.

(** ** exact arithmetic *)
Lemma fsum_RX n g : fsum (A := RX) n (fun t => Some (g t)) = Some (Rsum n g).
Proof.
  induction n as [|n IH]; cbn [fsum Rsum].
  - unfold f0. cbn. f_equal. lra.
  - rewrite IH. reflexivity.
Qed.
Lemma valid_RX (x : R) : valid (A := RX) (Some x).
Proof. split; reflexivity. Qed.
Lemma Rsum_ext n g h : (forall i, i < n -> g i = h i) -> Rsum n g = Rsum n h.
Proof. induction n as [|n IH]; intros H; cbn; auto. rewrite IH, H by auto. reflexivity. Qed.
Lemma Rsum_plus n g h : Rsum n (fun i => g i + h i)%R = (Rsum n g + Rsum n h)%R.
Proof. induction n as [|n IH]; cbn; [lra|]. rewrite IH. lra. Qed.
Lemma Rsum_scal n g x : Rsum n (fun i => x * g i)%R = (x * Rsum n g)%R.
Proof. induction n as [|n IH]; cbn; [lra|]. rewrite IH. lra. Qed.
Lemma Rsum_scal_r n g x : Rsum n (fun i => g i * x)%R = (Rsum n g * x)%R.
Proof. induction n as [|n IH]; cbn; [lra|]. rewrite IH. lra. Qed.
Lemma Rsum_0 n g : (forall i, i < n -> g i = 0%R) -> Rsum n g = 0%R.
Proof. induction n as [|n IH]; intros H; cbn; auto. rewrite IH, H by auto. lra. Qed.
Lemma Rsum_swap n m (g : nat -> nat -> R) :
  Rsum n (fun i => Rsum m (fun j => g i j)) = Rsum m (fun j => Rsum n (fun i => g i j)).
Proof.
  induction n as [|n IH]; cbn.
  - symmetry. apply Rsum_0. auto.
  - rewrite IH, <- Rsum_plus. reflexivity.
Qed.
Lemma Rsum_pick n i g : i < n -> Rsum n (fun t => if (t =? i) then g t else 0)%R = g i.
Proof.
  induction n as [|n IH]; intros H; [lia|]. cbn.
  destruct (Nat.eqb_spec n i) as [->|].
  - rewrite Rsum_0; [lra|]. intros j Hj. destruct (Nat.eqb_spec j i); [lia|reflexivity].
  - rewrite IH by lia. lra.
Qed.
Lemma rmul_assoc k l a b c i j : rmul l (rmul k a b) c i j = rmul k a (rmul l b c) i j.
Proof.
  unfold rmul.
  rewrite (Rsum_ext l _ (fun t => Rsum k (fun u => a i u * b u t * c t j)%R)).
  2:{ intros t Ht. rewrite Rsum_scal_r. reflexivity. }
  rewrite Rsum_swap. apply Rsum_ext. intros u Hu. rewrite <- Rsum_scal.
  apply Rsum_ext. intros t Ht. ring.
Qed.
Lemma rmul_id_r k a i j : j < k -> rmul k a rid i j = a i j.
Proof.
  intros H. unfold rmul, rid. rewrite (Rsum_ext k _ (fun t => if t =? j then a i t else 0)%R).
  - apply (Rsum_pick k j (fun t => a i t)); auto.
  - intros t Ht. destruct (t =? j); ring.
Qed.
Lemma rmul_id_l k a i j : i < k -> rmul k rid a i j = a i j.
Proof.
  intros H. unfold rmul, rid. rewrite (Rsum_ext k _ (fun t => if t =? i then a t j else 0)%R).
  - apply (Rsum_pick k i (fun t => a t j)); auto.
  - intros t Ht. rewrite Nat.eqb_sym. destruct (t =? i); ring.
Qed.
Lemma rmul_ext k a a' b b' i j : (forall t, t < k -> a i t = a' i t) -> (forall t, t < k -> b t j = b' t j) ->
  rmul k a b i j = rmul k a' b' i j.
Proof. intros Ha Hb. apply Rsum_ext. intros t Ht. rewrite Ha, Hb by auto. reflexivity. Qed.

Lemma m_mul_r self a b r k c f fa fb : mat_is (A := RX) self r c f -> mat_r a r k fa -> mat_r b k c fb ->
  exists m, m_mul a b self = (m, Ok tt) /\ mat_r m r c (rmul k fa fb).
Proof.
  intros Hs Ha Hb. destruct (m_mul_ok self a b r k c _ _ _ Hs Ha Hb) as (m & E & H).
  - intros i j n Hi Hj Hn. cbn. rewrite fsum_RX. apply valid_RX.
  - exists m. split; auto. eapply mat_is_ext; [exact H|]. intros i j Hi Hj. cbn. apply fsum_RX.
Qed.
Lemma m_mul_new_r a b r k c fa fb : mat_r a r k fa -> mat_r b k c fb ->
  exists m, m_mul_new a b = Ok m /\ mat_r m r c (rmul k fa fb).
Proof.
  intros Ha Hb. destruct (m_mul_new_ok a b r k c _ _ Ha Hb) as (m & E & H).
  - intros i j n Hi Hj Hn. cbn. rewrite fsum_RX. apply valid_RX.
  - exists m. split; auto. eapply mat_is_ext; [exact H|]. intros i j Hi Hj. cbn. apply fsum_RX.
Qed.
Lemma m_add_new_r a b r c fa fb : mat_r a r c fa -> mat_r b r c fb ->
  exists m, m_add_new a b = Ok m /\ mat_r m r c (fun i j => fa i j + fb i j)%R.
Proof.
  intros Ha Hb.
  assert (P := m_add_new_pw a b r c _ _ Ha Hb). apply pointwise_mnew_ok in P; [exact P|].
  intros. apply valid_RX.
Qed.
Lemma mat_r_ext m r c a b : mat_r m r c a -> req r c a b -> mat_r m r c b.
Proof. intros H E. eapply mat_is_ext; [exact H|]. intros i j Hi Hj. cbn. rewrite E by auto. reflexivity. Qed.

(*@ C10_mul *)
(** C10: [mul] accepts exactly compatible shapes; the partial sums from 0.0 are stored one
    after the other, so cell (i,j) ends as the left-to-right sum of a(i,t)*b(t,j). *)
Lemma l_mul :
  forall (A : Arith) (self a b : Mat T) (r c ra ca rb cb : nat) (f fa fb : nat -> nat -> T),
  mat_is self r c f -> mat_is a ra ca fa -> mat_is b rb cb fb ->
  if (ca =? rb) && (r =? ra) && (c =? cb)
  then product_m r ca c f (fun i j n => fsum n (fun t => fa i t * fb t j)%F) (m_mul a b self)
  else m_mul a b self = (self, Err InvalidSize).
Proof.
  intros A self a b r c ra ca rb cb f fa fb Hs Ha Hb.
  destruct ((ca =? rb) && (r =? ra) && (c =? cb)) eqn:E.
  - rewrite !andb_true_iff, !Nat.eqb_eq in E. destruct E as [[-> ->] ->]. apply m_mul_wp; auto.
  - eapply m_mul_size; eauto. intros (-> & -> & ->). rewrite !Nat.eqb_refl in E. discriminate.
Qed.

(*@ C10_mul_new *)
(** C10: [mul_new]: result, size check, and failure exactly when a partial sum is not finite. *)
Lemma l_mul_new :
  forall (A : Arith) (OK : ArithOk A) (a b : Mat T) (ra ca rb cb : nat) (fa fb : nat -> nat -> T),
  mat_is a ra ca fa -> mat_is b rb cb fb ->
  if ca =? rb then
    ((forall i j n, i < ra -> j < cb -> 1 <= n <= ca -> valid (fsum n (fun t => fa i t * fb t j)%F)) /\
     exists m, m_mul_new a b = Ok m /\ mat_is m ra cb (fun i j => fsum ca (fun t => fa i t * fb t j)%F))
    \/ (exists i j n e, i < ra /\ j < cb /\ 1 <= n <= ca /\
          bad (fsum n (fun t => fa i t * fb t j)%F) = Some e /\ m_mul_new a b = Err (UtilsErr e))
  else m_mul_new a b = Err InvalidSize.
Proof.
  intros A OK a b ra ca rb cb fa fb Ha Hb.
  destruct (mat_is_dim _ _ _ _ Ha) as [Dr Dk], (mat_is_dim _ _ _ _ Hb) as [_ Dc].
  unfold m_mul_new, m_get_rows, m_get_cols.
  rewrite (mi_init _ _ _ _ Ha), (mi_init _ _ _ _ Hb), (mi_rows _ _ _ _ Ha), (mi_cols _ _ _ _ Hb).
  cbn [negb rbind]. destruct (m_init_new ra cb Dr Dc) as (m0 & E0 & H0).
  rewrite (exec_step _ _ _ _ E0). unfold exec.
  pose proof (l_mul A m0 a b _ _ _ _ _ _ _ _ _ H0 Ha Hb) as L. rewrite !Nat.eqb_refl, !andb_true_r in L.
  destruct (ca =? rb).
  - destruct (m_mul a b m0) as [m' o].
    destruct L as [(V & E & H)|(i & j & n & e & Hi & Hj & Hn & He & _ & _ & E & _)]; cbn [fst snd] in *; subst.
    + left. eauto.
    + right. exists i, j, (S n), e. conjs; auto; lia.
  - rewrite L. reflexivity.
Qed.

(*@ C10_real_product *)
(** C10, exact arithmetic: the product always succeeds and is the matrix product. *)
Lemma l_real_product :
  forall (a b : Mat (T (Arith := RX))) (r k c : nat) (fa fb : nat -> nat -> R),
  mat_r a r k fa -> mat_r b k c fb ->
  exists m, m_mul_new a b = Ok m /\ mat_r m r c (rmul k fa fb).
Proof. intros. apply m_mul_new_r; auto. Qed.

(*@ C10_real_associative *)
Lemma l_real_assoc :
  forall (a b c : Mat (T (Arith := RX))) (r k l s : nat) (fa fb fc : nat -> nat -> R),
  mat_r a r k fa -> mat_r b k l fb -> mat_r c l s fc ->
  exists ab bc m1 m2 f, m_mul_new a b = Ok ab /\ m_mul_new ab c = Ok m1 /\
    m_mul_new b c = Ok bc /\ m_mul_new a bc = Ok m2 /\ mat_r m1 r s f /\ mat_r m2 r s f.
Proof.
  intros a b c r k l s fa fb fc Ha Hb Hc.
  destruct (m_mul_new_r a b r k l _ _ Ha Hb) as (ab & E1 & H1).
  destruct (m_mul_new_r ab c r l s _ _ H1 Hc) as (m1 & E2 & H2).
  destruct (m_mul_new_r b c k l s _ _ Hb Hc) as (bc & E3 & H3).
  destruct (m_mul_new_r a bc r k s _ _ Ha H3) as (m2 & E4 & H4).
  exists ab, bc, m1, m2. eexists. conjs; eauto.
  eapply mat_r_ext; [exact H4|]. intros i j Hi Hj. symmetry. apply rmul_assoc.
Qed.

(*@ C10_real_distributive *)
Lemma l_real_distr :
  forall (a b c : Mat (T (Arith := RX))) (r k s : nat) (fa fb fc : nat -> nat -> R),
  mat_r a r k fa -> mat_r b k s fb -> mat_r c k s fc ->
  exists bc m1 ab ac m2 f, m_add_new b c = Ok bc /\ m_mul_new a bc = Ok m1 /\
    m_mul_new a b = Ok ab /\ m_mul_new a c = Ok ac /\ m_add_new ab ac = Ok m2 /\
    mat_r m1 r s f /\ mat_r m2 r s f.
Proof.
  intros a b c r k s fa fb fc Ha Hb Hc.
  destruct (m_add_new_r b c k s _ _ Hb Hc) as (bc & E1 & H1).
  destruct (m_mul_new_r a bc r k s _ _ Ha H1) as (m1 & E2 & H2).
  destruct (m_mul_new_r a b r k s _ _ Ha Hb) as (ab & E3 & H3).
  destruct (m_mul_new_r a c r k s _ _ Ha Hc) as (ac & E4 & H4).
  destruct (m_add_new_r ab ac r s _ _ H3 H4) as (m2 & E5 & H5).
  exists bc, m1, ab, ac, m2. eexists. conjs; eauto.
  eapply mat_r_ext; [exact H5|]. intros i j Hi Hj. unfold rmul. rewrite <- Rsum_plus.
  apply Rsum_ext. intros t Ht. ring.
Qed.

(*@ C10_real_identity *)
Lemma l_real_id :
  forall (a i1 i2 : Mat (T (Arith := RX))) (r k : nat) (fa : nat -> nat -> R),
  mat_r a r k fa -> mat_r i1 r r rid -> mat_r i2 k k rid ->
  exists m1 m2, m_mul_new i1 a = Ok m1 /\ m_mul_new a i2 = Ok m2 /\ mat_r m1 r k fa /\ mat_r m2 r k fa.
Proof.
  intros a i1 i2 r k fa Ha H1 H2.
  destruct (m_mul_new_r i1 a r r k _ _ H1 Ha) as (m1 & E1 & K1).
  destruct (m_mul_new_r a i2 r k k _ _ Ha H2) as (m2 & E2 & K2).
  exists m1, m2. conjs; auto.
  - eapply mat_r_ext; [exact K1|]. intros i j Hi Hj. apply rmul_id_l; auto.
  - eapply mat_r_ext; [exact K2|]. intros i j Hi Hj. apply rmul_id_r; auto.
Qed.

(** ** f32: identity *)
Lemma fsum_id_f32 lm (n j : nat) (g : nat -> f32) : (forall t, t < n -> is_finite (g t) = true) ->
  fsum (A := F32 lm) n (fun t => Bmult mode_NE (g t) (if t =? j then lit32 1 1 else lit32 0 1)) =
  if j <? n then zpos (g j) else B754_zero false.
Proof.
  intros F. induction n as [|n IH]; [reflexivity|].
  cbn [fsum]. rewrite IH by auto. cbn [fadd F32].
  destruct (Nat.eqb_spec n j) as [->|Hne].
  - rewrite Nat.ltb_irrefl. destruct (Nat.ltb_spec j (S j)); [|lia].
    rewrite Bmult_one_r by auto. apply Bplus_zero_l; auto.
  - destruct (Bmult_zero_r (g n)) as [s ->]; auto.
    destruct (Nat.ltb_spec j n), (Nat.ltb_spec j (S n)); try lia.
    + apply Bplus_zpos_zero, F. auto.
    + destruct s; reflexivity.
Qed.
Lemma fsum_ext {A : Arith} n g h : (forall t, t < n -> g t = h t) -> fsum n g = fsum n h.
Proof. induction n as [|n IH]; intros H; cbn; auto. rewrite IH, H by auto. reflexivity. Qed.
Lemma is_finite_zpos x : is_finite (zpos x) = is_finite x.
Proof. destruct x; reflexivity. Qed.
Lemma B2R_zpos x : B2R (zpos x) = B2R x.
Proof. destruct x; reflexivity. Qed.

(*@ C10_f32_identity *)
(** C10, f32: the product with the identity reproduces every element; only a negative zero
    becomes a positive zero. *)
Lemma l_f32_id :
  forall (lm : Libm), let A := F32 lm in
  forall (a i1 i2 : Mat T) (r k : nat) (fa : nat -> nat -> T),
  mat_is a r k fa -> mat_is i1 r r (fun i j => if i =? j then f1 else f0) ->
  mat_is i2 k k (fun i j => if i =? j then f1 else f0) ->
  exists m1 m2 g1 g2, m_mul_new i1 a = Ok m1 /\ m_mul_new a i2 = Ok m2 /\
    mat_is m1 r k g1 /\ mat_is m2 r k g2 /\
    forall i j, i < r -> j < k ->
      B2R (g1 i j : f32) = B2R (fa i j : f32) /\ B2R (g2 i j : f32) = B2R (fa i j : f32) /\
      (fa i j <> B754_zero true -> g1 i j = fa i j /\ g2 i j = fa i j).
Proof.
  intros lm A a i1 i2 r k fa Ha H1 H2.
  assert (F : forall i j, i < r -> j < k -> is_finite (fa i j : f32) = true).
  { intros i j Hi Hj. apply (valid_finite lm). eapply mat_is_valid; eauto. }
  assert (S1 : forall n i j, i < r -> j < k -> n <= r ->
    fsum n (fun t => (if i =? t then f1 else f0) * fa t j)%F = if i <? n then zpos (fa i j) else B754_zero false).
  { intros n i j Hi Hj Hn. erewrite fsum_ext; [apply (fsum_id_f32 lm n i (fun t => fa t j))|].
    - intros t Ht. apply F; lia.
    - intros t Ht. cbv beta. rewrite Nat.eqb_sym. change (@fmul A) with (Bmult (prec:=prec) (emax:=emax) mode_NE). rewrite Bmult_comm.
      destruct (t =? i); reflexivity. }
  assert (S2 : forall n i j, i < r -> j < k -> n <= k ->
    fsum n (fun t => fa i t * (if t =? j then f1 else f0))%F = if j <? n then zpos (fa i j) else B754_zero false).
  { intros n i j Hi Hj Hn. erewrite fsum_ext; [apply (fsum_id_f32 lm n j (fun t => fa i t))|].
    - intros t Ht. apply F; lia.
    - intros t Ht. cbv beta. destruct (t =? j); reflexivity. }
  destruct (m_mul_new_ok i1 a r r k _ _ H1 Ha) as (m1 & E1 & K1).
  { intros i j n Hi Hj Hn. cbv beta; rewrite S1 by lia. apply (valid_finite lm).
    destruct (i <? n); [rewrite is_finite_zpos; apply F; lia|reflexivity]. }
  destruct (m_mul_new_ok a i2 r k k _ _ Ha H2) as (m2 & E2 & K2).
  { intros i j n Hi Hj Hn. cbv beta; rewrite S2 by lia. apply (valid_finite lm).
    destruct (j <? n); [rewrite is_finite_zpos; apply F; lia|reflexivity]. }
  exists m1, m2. exists (fun i j => zpos (fa i j)), (fun i j => zpos (fa i j)). conjs; auto.
  - eapply mat_is_ext; [exact K1|]. intros i j Hi Hj. cbv beta; rewrite S1 by lia.
    destruct (Nat.ltb_spec i r); [reflexivity|lia].
  - eapply mat_is_ext; [exact K2|]. intros i j Hi Hj. cbv beta; rewrite S2 by lia.
    destruct (Nat.ltb_spec j k); [reflexivity|lia].
  - intros i j Hi Hj. rewrite B2R_zpos. conjs; auto.
    intros N. assert (zpos (fa i j) = fa i j) as ->; auto.
    destruct (fa i j) as [[]| | |]; cbn; congruence.
Qed.

(*@ C10_f32_identity_bits_refuted *)
(** The sign of a zero is not kept: -0.0 times the identity is +0.0. *)
Lemma l_f32_id_bits :
  forall (lm : Libm), exists (a i m : Mat (T (Arith := F32 lm))),
  wfm a /\ mat_is i 1 1 (fun _ _ => f1) /\ m_mul_new a i = Ok m /\
  m_get a 0 0 = Ok (B754_zero true) /\ m_get m 0 0 = Ok (B754_zero false).
Proof.
  intros lm. exists (mk_mat (A := F32 lm) 1 1 [B754_zero true]), (mk_mat (A := F32 lm) 1 1 [z32 1]).
  eexists. split; [apply wfm_b_ok; vm_compute; reflexivity|]. split.
  - assert (W : wfm (mk_mat (A := F32 lm) 1 1 [z32 1])) by (apply wfm_b_ok; vm_compute; reflexivity).
    constructor; try exact W; try reflexivity. intros i j Hi Hj.
    assert (i = 0) as -> by lia. assert (j = 0) as -> by lia. reflexivity.
  - split; [reflexivity|]. split; reflexivity.
Qed.

(*@ C10_f32_transpose *)
(** C10, f32: the transpose of a product is, bit for bit, the product of the transposes. *)
Lemma l_f32_tr :
  forall (lm : Libm), let A := F32 lm in
  forall (a b at_ bt ab abt p : Mat T) (r k c : nat) (fa fb : nat -> nat -> T),
  mat_is a r k fa -> mat_is b k c fb ->
  m_mul_new a b = Ok ab -> m_transpose ab = (abt, Ok tt) ->
  m_transpose a = (at_, Ok tt) -> m_transpose b = (bt, Ok tt) -> m_mul_new bt at_ = Ok p ->
  exists f, mat_is abt c r f /\ mat_is p c r f.
Proof.
  intros lm A a b at_ bt ab abt p r k c fa fb Ha Hb Eab Et Ea Eb Ep.
  destruct (m_transpose_ok a r k fa Ha) as (a' & Ea' & Ha'). rewrite Ea in Ea'. injection Ea' as <-.
  destruct (m_transpose_ok b k c fb Hb) as (b' & Eb' & Hb'). rewrite Eb in Eb'. injection Eb' as <-.
  pose proof (l_mul_new A _ a b _ _ _ _ _ _ Ha Hb) as L1. rewrite Nat.eqb_refl in L1.
  pose proof (l_mul_new A _ bt at_ _ _ _ _ _ _ Hb' Ha') as L2. rewrite Nat.eqb_refl in L2.
  destruct L1 as [(V1 & m & E1 & H1)|(i & j & n & e & _ & _ & _ & _ & E1)]; [|congruence].
  rewrite Eab in E1. injection E1 as <-.
  destruct L2 as [(V2 & m & E2 & H2)|(i & j & n & e & _ & _ & _ & _ & E2)]; [|congruence].
  rewrite Ep in E2. injection E2 as <-.
  destruct (m_transpose_ok ab r c _ H1) as (x & Ex & Hx). rewrite Et in Ex. injection Ex as <-.
  eexists. split; [exact Hx|]. eapply mat_is_ext; [exact H2|]. intros i j Hi Hj. cbv beta.
  apply fsum_ext. intros t Ht. apply Bmult_comm.
Qed.

(*@ C10_f32_transpose_success *)
(** ... and one side succeeds exactly when the other does. *)
Lemma l_f32_tr_ok :
  forall (lm : Libm), let A := F32 lm in
  forall (a b at_ bt : Mat T) (r k c : nat) (fa fb : nat -> nat -> T),
  mat_is a r k fa -> mat_is b k c fb ->
  m_transpose a = (at_, Ok tt) -> m_transpose b = (bt, Ok tt) ->
  ((exists ab, m_mul_new a b = Ok ab) <-> (exists p, m_mul_new bt at_ = Ok p)).
Proof.
  intros lm A a b at_ bt r k c fa fb Ha Hb Ea Eb.
  destruct (m_transpose_ok a r k fa Ha) as (a' & Ea' & Ha'). rewrite Ea in Ea'. injection Ea' as <-.
  destruct (m_transpose_ok b k c fb Hb) as (b' & Eb' & Hb'). rewrite Eb in Eb'. injection Eb' as <-.
  assert (SW : forall i j n, fsum n (fun t => fa i t * fb t j)%F = fsum n (fun t => fb t j * fa i t)%F).
  { intros. apply fsum_ext. intros. apply Bmult_comm. }
  pose proof (l_mul_new A _ a b _ _ _ _ _ _ Ha Hb) as L1. rewrite Nat.eqb_refl in L1.
  pose proof (l_mul_new A _ bt at_ _ _ _ _ _ _ Hb' Ha') as L2. rewrite Nat.eqb_refl in L2.
  split; intros [m E].
  - destruct L1 as [(V1 & m' & E1 & H1)|(i & j & n & e & _ & _ & _ & _ & E1)]; [|congruence].
    destruct L2 as [(V2 & x & E2 & H2)|(i & j & n & e & Hi & Hj & Hn & He & E2)]; eauto.
    exfalso. apply bad_Some_not in He. apply He. rewrite <- SW. apply V1; auto.
  - destruct L2 as [(V1 & m' & E1 & H1)|(i & j & n & e & _ & _ & _ & _ & E1)]; [|congruence].
    destruct L1 as [(V2 & x & E2 & H2)|(i & j & n & e & Hi & Hj & Hn & He & E2)]; eauto.
    exfalso. apply bad_Some_not in He. apply He. rewrite SW. apply V1; auto.
Qed.

(*@ example *)
Example C10_example :
  let A := F32 lm_id in
  let a := mk_mat 2 3 (map z32 [1; 2; 3; 4; 5; 6]%Z) in
  let b := mk_mat 3 2 (map z32 [1; -1; 0; 2; 3; 1]%Z) in
  wfm a /\ wfm b /\
  rmap show_m (m_mul_new a b) = Ok (2, 2, true, map sf [10; 6; 22; 12]%Z) /\
  rmap show_m (m_mul_new a a) = Err InvalidSize.
Proof.
  cbv zeta. split; [apply wfm_b_ok; vm_compute; reflexivity|].
  split; [apply wfm_b_ok; vm_compute; reflexivity|].
  split; vm_compute; reflexivity.
Qed.
