(** Element-wise loops: complete description of the outcome. *)
From Coq Require Import List Arith Lia Bool.
From Verif Require Import M_Base M_Arith M_Utils M_Vector M_Matrix S_Spec P_Hoare P_Cont.
Import ListNotations.

Ltac conjs := repeat match goal with |- _ /\ _ => split end.

Section Loops.
  Context {A : Arith}.

  Definition mix2 (f g : nat -> nat -> T) (i j : nat) : nat -> nat -> T :=
    fun a b => if before a b i j then g a b else f a b.
  Definition mix1 (f g : nat -> T) (i : nat) : nat -> T :=
    fun a => if a <? i then g a else f a.

  Lemma before_spec a b i j : before a b i j = true <-> a < i \/ (a = i /\ b < j).
  Proof.
    unfold before. rewrite orb_true_iff, andb_true_iff, !Nat.ltb_lt, Nat.eqb_eq. tauto.
  Qed.
  Lemma before_S a b i j : before a b i (S j) = before a b i j || ((a =? i) && (b =? j)).
  Proof.
    apply eq_true_iff_eq. rewrite orb_true_iff, andb_true_iff, !before_spec, !Nat.eqb_eq. lia.
  Qed.
  Lemma before_row a b i c : b < c -> before a b i c = before a b (S i) 0.
  Proof. intros H. apply eq_true_iff_eq. rewrite !before_spec. lia. Qed.
  Lemma before_all a b r : a < r -> before a b r 0 = true.
  Proof. intros H. apply before_spec. auto. Qed.
  Lemma before_irrefl i j : before i j i j = false.
  Proof. apply not_true_is_false. rewrite before_spec. lia. Qed.

  Lemma pointwise_of_wp m r c f g (cmd : ST (Mat T) LinalgError unit) :
    wp cmd m
      (fun _ m' => (forall i j, i < r -> j < c -> valid (g i j)) /\ mat_is m' r c g)
      (fun e m' => exists i j k, i < r /\ j < c /\ bad (g i j) = Some k /\
         (forall a b, a < r -> b < c -> before a b i j = true -> valid (g a b)) /\
         e = UtilsErr k /\ mat_is m' r c (mix2 f g i j)) False ->
    pointwise_m r c f g (cmd m).
  Proof.
    unfold wp, pointwise_m. destruct (cmd m) as [m' [[]|e|]]; cbn.
    - intros [H H']. left. auto.
    - intros (i & j & k & Hi & Hj & Hb & Hv & -> & Hm). right. exists i, j, k. auto 10.
    - tauto.
  Qed.

  Lemma wp_m_loop m r c f g e :
    mat_is m r c f ->
    (forall m' f' i j, i < r -> j < c -> mat_is m' r c f' -> f' i j = f i j -> e m' i j = Ok (g i j)) ->
    wp (m_loop e) m
      (fun _ m' => (forall i j, i < r -> j < c -> valid (g i j)) /\ mat_is m' r c g)
      (fun e m' => exists i j k, i < r /\ j < c /\ bad (g i j) = Some k /\
         (forall a b, a < r -> b < c -> before a b i j = true -> valid (g a b)) /\
         e = UtilsErr k /\ mat_is m' r c (mix2 f g i j)) False.
  Proof.
    intros Hm He. unfold m_loop. unfold wp. cbv beta.
    rewrite (mi_rows _ _ _ _ Hm), (mi_cols _ _ _ _ Hm).
    change (wp (for_ (range 0 r) (fun row => for_ (range 0 c) (fun col =>
              let! x := reads (fun m => e m row col) in m_set row col x))) m
      (fun _ m' => (forall i j, i < r -> j < c -> valid (g i j)) /\ mat_is m' r c g)
      (fun e m' => exists i j k, i < r /\ j < c /\ bad (g i j) = Some k /\
         (forall a b, a < r -> b < c -> before a b i j = true -> valid (g a b)) /\
         e = UtilsErr k /\ mat_is m' r c (mix2 f g i j)) False).
    pose (I := fun i j s => (forall a b, a < r -> b < c -> before a b i j = true -> valid (g a b))
                            /\ mat_is s r c (mix2 f g i j)).
    apply wp_for with (I := fun i s => I i 0 s).
    - split.
      + intros a b Ha Hb H. apply before_spec in H. lia.
      + eapply mat_is_ext; [exact Hm|]. intros i j Hi Hj. unfold mix2.
        destruct (before i j 0 0) eqn:Hb; auto. apply before_spec in Hb. lia.
    - intros i s Hi HI. apply wp_for with (I := fun j s => I i j s); auto.
      + intros j s' Hj [Hv Hs]. apply wp_bind, wp_reads.
        rewrite (He s' (mix2 f g i j) i j); try lia; auto.
        2:{ unfold mix2. rewrite before_irrefl. reflexivity. }
        cbn. eapply wp_m_set; [exact Hs|lia|lia| |].
        * intros Hg m' Hm'. split.
          -- intros a b Ha Hb H. rewrite before_S in H. apply orb_true_iff in H. destruct H as [H|H]; auto.
             apply andb_true_iff in H. rewrite !Nat.eqb_eq in H. destruct H as [-> ->]. exact Hg.
          -- eapply mat_is_ext; [exact Hm'|]. intros a b Ha Hb. unfold fupd2, mix2. rewrite before_S.
             destruct ((a =? i) && (b =? j)) eqn:E.
             ++ rewrite orb_true_r. apply andb_true_iff in E. rewrite !Nat.eqb_eq in E.
                destruct E as [-> ->]. reflexivity.
             ++ rewrite orb_false_r. reflexivity.
        * intros k Hk. exists i, j, k. conjs; auto; lia.
      + intros s' [Hv Hs]. rewrite Nat.max_0_l in *. split.
        * intros a b Ha Hb H. apply Hv; auto. rewrite before_row by auto. exact H.
        * eapply mat_is_ext; [exact Hs|]. intros a b Ha Hb. unfold mix2. rewrite before_row by auto. reflexivity.
    - intros s [Hv Hs]. rewrite Nat.max_0_l in *. split.
      + intros i j Hi Hj. apply Hv; auto. apply before_all. auto.
      + eapply mat_is_ext; [exact Hs|]. intros i j Hi Hj. unfold mix2. rewrite before_all by auto. reflexivity.
  Qed.

  Lemma m_loop_pointwise m r c f g e :
    mat_is m r c f ->
    (forall m' f' i j, i < r -> j < c -> mat_is m' r c f' -> f' i j = f i j -> e m' i j = Ok (g i j)) ->
    pointwise_m r c f g (m_loop e m).
  Proof. intros. apply pointwise_of_wp, wp_m_loop; auto. Qed.

  Lemma pointwise_v_of_wp v n f g (cmd : ST (Vec T) LinalgError unit) :
    wp cmd v
      (fun _ v' => (forall i, i < n -> valid (g i)) /\ vec_is v' n g)
      (fun e v' => exists i k, i < n /\ bad (g i) = Some k /\ (forall a, a < i -> valid (g a)) /\
         e = UtilsErr k /\ vec_is v' n (mix1 f g i)) False ->
    pointwise_v n f g (cmd v).
  Proof.
    unfold wp, pointwise_v. destruct (cmd v) as [v' [[]|e|]]; cbn.
    - intros [H H']. left. auto.
    - intros (i & k & Hi & Hb & Hv & -> & Hm). right. exists i, k. auto 10.
    - tauto.
  Qed.
  Lemma wp_v_loop v n f g e :
    vec_is v n f ->
    (forall v' f' i, i < n -> vec_is v' n f' -> f' i = f i -> e v' i = Ok (g i)) ->
    wp (v_loop e) v
      (fun _ v' => (forall i, i < n -> valid (g i)) /\ vec_is v' n g)
      (fun e v' => exists i k, i < n /\ bad (g i) = Some k /\ (forall a, a < i -> valid (g a)) /\
         e = UtilsErr k /\ vec_is v' n (mix1 f g i)) False.
  Proof.
    intros Hv He. unfold v_loop, wp. cbv beta. rewrite (vi_rows _ _ _ Hv).
    change (wp (for_ (range 0 n) (fun row => let! x := reads (fun v => e v row) in v_set row x)) v
      (fun _ v' => (forall i, i < n -> valid (g i)) /\ vec_is v' n g)
      (fun e v' => exists i k, i < n /\ bad (g i) = Some k /\ (forall a, a < i -> valid (g a)) /\
         e = UtilsErr k /\ vec_is v' n (mix1 f g i)) False).
    apply wp_for with (I := fun i s => (forall a, a < i -> valid (g a)) /\ vec_is s n (mix1 f g i)).
    - split; [lia|]. eapply vec_is_ext; [exact Hv|]. intros. reflexivity.
    - intros i s Hi [Hg Hs]. apply wp_bind, wp_reads.
      rewrite (He s (mix1 f g i) i); try lia; auto.
      2:{ unfold mix1. rewrite Nat.ltb_irrefl. reflexivity. }
      cbn. eapply wp_v_set; [exact Hs|lia| |].
      + intros Hgi v' Hv'. split.
        * intros a Ha. destruct (Nat.eq_dec a i) as [->|]; auto. apply Hg. lia.
        * eapply vec_is_ext; [exact Hv'|]. intros a Ha. unfold fupd1, mix1.
          destruct (Nat.eqb_spec a i) as [->|].
          -- destruct (Nat.ltb_spec i (S i)); [reflexivity|lia].
          -- destruct (Nat.ltb_spec a i), (Nat.ltb_spec a (S i)); auto; lia.
      + intros k Hk. exists i, k. conjs; auto; lia.
    - intros s [Hg Hs]. rewrite Nat.max_0_l in *. split; auto.
      eapply vec_is_ext; [exact Hs|]. intros i Hi. unfold mix1.
      destruct (Nat.ltb_spec i n); [reflexivity|lia].
  Qed.
  Lemma v_loop_pointwise v n f g e :
    vec_is v n f ->
    (forall v' f' i, i < n -> vec_is v' n f' -> f' i = f i -> e v' i = Ok (g i)) ->
    pointwise_v n f g (v_loop e v).
  Proof. intros. apply pointwise_v_of_wp, wp_v_loop; auto. Qed.

  (** ** size guards *)
  Lemma m_same_ok a b r c f r' c' g : mat_is a r c f -> mat_is b r' c' g ->
    m_is_same_size_as a b = Ok ((r =? r') && (c =? c')).
  Proof.
    intros [W I R C G] [W' I' R' C' G']. unfold m_is_same_size_as. rewrite I, I', R, R', C, C'. cbn.
    destruct (r =? r'), (c =? c'); reflexivity.
  Qed.
  Lemma m_same_uninit a b : m_initialized a = false \/ m_initialized b = false ->
    m_is_same_size_as a b = Err NotInit.
  Proof. unfold m_is_same_size_as. intros [-> | ->]; cbn; rewrite ?orb_true_r; reflexivity. Qed.
  Lemma v_same_ok a b n f n' g : vec_is a n f -> vec_is b n' g -> v_is_same_size_as a b = Ok (n =? n').
  Proof.
    intros [W I R G] [W' I' R' G']. unfold v_is_same_size_as. rewrite I, I', R, R'. cbn.
    destruct (n =? n'); reflexivity.
  Qed.
  Lemma v_same_uninit a b : v_initialized a = false \/ v_initialized b = false ->
    v_is_same_size_as a b = Err NotInit.
  Proof. unfold v_is_same_size_as. intros [-> | ->]; cbn; rewrite ?orb_true_r; reflexivity. Qed.

  (** outcome of a size guard over a list of operands *)
  Definition dims_match (r c : nat) (m : Mat T) : bool := (m_rows m =? r) && (m_cols m =? c).

  Lemma guard_same_ok self a r c f g : mat_is self r c f -> mat_is a r c g ->
    m_guard_same a self = (self, Ok tt).
  Proof.
    intros H Ha. unfold m_guard_same, sbind, lift. rewrite (m_same_ok _ _ _ _ _ _ _ _ H Ha).
    rewrite !Nat.eqb_refl. reflexivity.
  Qed.
  Lemma guard_same2_ok self a b r c f g h : mat_is self r c f -> mat_is a r c g -> mat_is b r c h ->
    m_guard_same2 a b self = (self, Ok tt).
  Proof.
    intros H Ha Hb. unfold m_guard_same2, sbind, lift.
    rewrite (m_same_ok _ _ _ _ _ _ _ _ H Ha), (m_same_ok _ _ _ _ _ _ _ _ H Hb).
    rewrite !Nat.eqb_refl. reflexivity.
  Qed.
  Lemma vguard_same_ok self a n f g : vec_is self n f -> vec_is a n g ->
    v_guard_same a self = (self, Ok tt).
  Proof.
    intros H Ha. unfold v_guard_same, sbind, lift. rewrite (v_same_ok _ _ _ _ _ _ H Ha).
    rewrite !Nat.eqb_refl. reflexivity.
  Qed.
  Lemma vguard_same2_ok self a b n f g h : vec_is self n f -> vec_is a n g -> vec_is b n h ->
    v_guard_same2 a b self = (self, Ok tt).
  Proof.
    intros H Ha Hb. unfold v_guard_same2, sbind, lift.
    rewrite (v_same_ok _ _ _ _ _ _ H Ha), (v_same_ok _ _ _ _ _ _ H Hb).
    rewrite !Nat.eqb_refl. reflexivity.
  Qed.
  Lemma guard_bind {S E B} (gd : ST S E unit) (k : ST S E B) s :
    gd s = (s, Ok tt) -> (gd ;;! k) s = k s.
  Proof. intros H. unfold sbind. rewrite H. reflexivity. Qed.
End Loops.
