(** C11: transpose. *)
(*@+*)
From Coq Require Import List Arith ZArith Lia Bool.
From Flocq Require Import BinarySingleNaN.
From Verif Require Import M_Base M_Arith M_Utils M_Vector M_Matrix M_F32 S_Spec P_Inst.
Import ListNotations.
(*@-*)
From Verif Require Import P_Hoare P_Cont P_Loops P_Access P_Pointwise.

Section Trans.
  Context {A : Arith}.

  Lemma pointwise_m_ok r c f g out : (forall i j, i < r -> j < c -> valid (g i j)) ->
    pointwise_m r c f g out -> exists m', out = (m', Ok tt) /\ mat_is m' r c g.
  Proof.
    intros V [(_ & H & Hm)|(i & j & k & Hi & Hj & Hb & _)].
    - destruct out as [m' o]. cbn in *. subst. eauto.
    - apply bad_Some_not in Hb. destruct Hb. auto.
  Qed.
  Lemma pointwise_mnew_ok r c g out : (forall i j, i < r -> j < c -> valid (g i j)) ->
    pointwise_mnew r c g out -> exists m', out = Ok m' /\ mat_is m' r c g.
  Proof.
    intros V [(_ & H)|(i & j & k & Hi & Hj & Hb & _)]; [exact H|].
    apply bad_Some_not in Hb. destruct Hb. auto.
  Qed.
  Lemma pointwise_v_ok n f g out : (forall i, i < n -> valid (g i)) ->
    pointwise_v n f g out -> exists m', out = (m', Ok tt) /\ vec_is m' n g.
  Proof.
    intros V [(_ & H & Hm)|(i & k & Hi & Hb & _)].
    - destruct out as [m' o]. cbn in *. subst. eauto.
    - apply bad_Some_not in Hb. destruct Hb. auto.
  Qed.
  Lemma pointwise_vnew_ok n g out : (forall i, i < n -> valid (g i)) ->
    pointwise_vnew n g out -> exists m', out = Ok m' /\ vec_is m' n g.
  Proof.
    intros V [(_ & H)|(i & k & Hi & Hb & _)]; [exact H|].
    apply bad_Some_not in Hb. destruct Hb. auto.
  Qed.
  Lemma m_copy_from_ok m a r c f g : mat_is m r c f -> mat_is a r c g ->
    exists m', m_copy_from a m = (m', Ok tt) /\ mat_is m' r c g.
  Proof.
    intros Hm Ha. eapply pointwise_m_ok; [|eapply m_copy_from_pw; eauto].
    intros. eapply mat_is_valid; eauto.
  Qed.
  Lemma v_copy_from_ok m a n f g : vec_is m n f -> vec_is a n g ->
    exists m', v_copy_from a m = (m', Ok tt) /\ vec_is m' n g.
  Proof.
    intros Hm Ha. eapply pointwise_v_ok; [|eapply v_copy_from_pw; eauto].
    intros. eapply vec_is_valid; eauto.
  Qed.
  Lemma m_duplicate_ok {OK : ArithOk A} a r c g : mat_is a r c g ->
    exists m', m_duplicate a = Ok m' /\ mat_is m' r c g.
  Proof.
    intros Ha. eapply pointwise_mnew_ok; [|eapply m_duplicate_pw; eauto].
    intros. eapply mat_is_valid; eauto.
  Qed.
  Lemma m_is_square_is m r c f : mat_is m r c f -> m_is_square m = Ok (r =? c).
  Proof.
    intros [W I R C G]. unfold m_is_square. rewrite I, R, C. cbn [negb].
    destruct (r =? c); reflexivity.
  Qed.
  Lemma m_guard_square_is m r c f : mat_is m r c f ->
    m_guard_square m = if r =? c then Ok tt else Err NotSquare.
  Proof.
    intros Hm. unfold m_guard_square. rewrite (m_is_square_is _ _ _ _ Hm). cbn [rbind].
    destruct (r =? c); reflexivity.
  Qed.

  (** in place *)
  Definition swapped (i j a b : nat) : bool :=
    (a <? i) || (b <? i) || ((a =? i) && (b <? j)) || ((b =? i) && (a <? j)).
  Definition sw (f : nat -> nat -> T) (i j : nat) : nat -> nat -> T :=
    fun a b => if swapped i j a b then f b a else f a b.
  Lemma swapped_true i j a b :
    swapped i j a b = true <-> a < i \/ b < i \/ (a = i /\ b < j) \/ (b = i /\ a < j).
  Proof. unfold swapped. rewrite !orb_true_iff, !andb_true_iff, !Nat.ltb_lt, !Nat.eqb_eq. tauto. Qed.

  Lemma transpose_square_wp m n f : mat_is m n n f ->
    wp (for_ (range 0 n) (fun row =>
           for_ (range (row + 1) n) (fun col =>
             let! temp_element := reads (fun s => m_get s row col) in
             let! x := reads (fun s => m_get s col row) in
             m_set row col x ;;!
             m_set col row temp_element))) m
      (fun _ m' => mat_is m' n n (fun i j => f j i)) (fun _ _ => False) False.
  Proof.
    intros Hm. apply wp_for with (I := fun i s => mat_is s n n (sw f i 0)).
    - eapply mat_is_ext; [exact Hm|]. intros a b Ha Hb. unfold sw.
      destruct (swapped 0 0 a b) eqn:E; auto. apply swapped_true in E. lia.
    - intros i s Hi Hs. apply wp_for with (I := fun j s => mat_is s n n (sw f i j)).
      + eapply mat_is_ext; [exact Hs|]. intros a b Ha Hb. unfold sw.
        destruct (swapped i 0 a b) eqn:E1, (swapped i (i + 1) a b) eqn:E2; auto.
        * apply swapped_true in E1. apply not_true_iff_false in E2. rewrite swapped_true in E2. lia.
        * apply swapped_true in E2. apply not_true_iff_false in E1. rewrite swapped_true in E1.
          assert (a = b) as -> by lia. reflexivity.
      + intros j s' Hj Hs'. apply wp_bind, wp_reads. eapply rwp_m_get; [exact Hs'|lia|lia|]. intros V1.
        apply wp_bind, wp_reads. eapply rwp_m_get; [exact Hs'|lia|lia|]. intros V2.
        apply wp_bind. eapply wp_m_set; [exact Hs'|lia|lia| |intros e He; apply bad_Some_not in He; tauto].
        intros _ m1 H1. eapply wp_m_set; [exact H1|lia|lia| |intros e He; apply bad_Some_not in He; tauto].
        intros _ m2 H2. eapply mat_is_ext; [exact H2|]. intros a b Ha Hb. unfold fupd2, sw.
        assert (Fij : swapped i j i j = false).
        { apply not_true_iff_false. rewrite swapped_true. lia. }
        assert (Fji : swapped i j j i = false).
        { apply not_true_iff_false. rewrite swapped_true. lia. }
        rewrite Fij, Fji.
        destruct (Nat.eqb_spec a j) as [->|Haj], (Nat.eqb_spec b i) as [->|Hbi]; cbn [andb].
        * destruct (swapped i (S j) j i) eqn:E; auto.
          apply not_true_iff_false in E. rewrite swapped_true in E. lia.
        * destruct (Nat.eqb_spec j i); [lia|]. cbn [andb].
          destruct (swapped i j j b) eqn:E1, (swapped i (S j) j b) eqn:E2; auto.
          -- apply swapped_true in E1. apply not_true_iff_false in E2. rewrite swapped_true in E2. lia.
          -- apply swapped_true in E2. apply not_true_iff_false in E1. rewrite swapped_true in E1.
             assert (b = j) as -> by lia. reflexivity.
        * destruct (Nat.eqb_spec i j); [lia|]. rewrite andb_false_r.
          destruct (swapped i j a i) eqn:E1, (swapped i (S j) a i) eqn:E2; auto.
          -- apply swapped_true in E1. apply not_true_iff_false in E2. rewrite swapped_true in E2. lia.
          -- apply swapped_true in E2. apply not_true_iff_false in E1. rewrite swapped_true in E1. lia.
        * destruct (Nat.eqb_spec a i) as [->|Hai], (Nat.eqb_spec b j) as [->|Hbj]; cbn [andb].
          -- destruct (swapped i (S j) i j) eqn:E; auto.
             apply not_true_iff_false in E. rewrite swapped_true in E. lia.
          -- destruct (swapped i j i b) eqn:E1, (swapped i (S j) i b) eqn:E2; auto.
             ++ apply swapped_true in E1. apply not_true_iff_false in E2. rewrite swapped_true in E2. lia.
             ++ apply swapped_true in E2. apply not_true_iff_false in E1. rewrite swapped_true in E1. lia.
          -- destruct (swapped i j a j) eqn:E1, (swapped i (S j) a j) eqn:E2; auto.
             ++ apply swapped_true in E1. apply not_true_iff_false in E2. rewrite swapped_true in E2. lia.
             ++ apply swapped_true in E2. apply not_true_iff_false in E1. rewrite swapped_true in E1. lia.
          -- destruct (swapped i j a b) eqn:E1, (swapped i (S j) a b) eqn:E2; auto.
             ++ apply swapped_true in E1. apply not_true_iff_false in E2. rewrite swapped_true in E2. lia.
             ++ apply swapped_true in E2. apply not_true_iff_false in E1. rewrite swapped_true in E1. lia.
      + intros s' Hs'. rewrite Nat.max_r in Hs' by lia. eapply mat_is_ext; [exact Hs'|].
        intros a b Ha Hb. unfold sw.
        destruct (swapped i n a b) eqn:E1, (swapped (S i) 0 a b) eqn:E2; auto.
        * apply swapped_true in E1. apply not_true_iff_false in E2. rewrite swapped_true in E2. lia.
        * apply swapped_true in E2. apply not_true_iff_false in E1. rewrite swapped_true in E1. lia.
    - intros s Hs. rewrite Nat.max_0_l in Hs. eapply mat_is_ext; [exact Hs|]. intros a b Ha Hb. unfold sw.
      destruct (swapped n 0 a b) eqn:E; auto.
      apply not_true_iff_false in E. rewrite swapped_true in E. lia.
  Qed.

  Context {OK : ArithOk A}.

  Lemma transpose_rect_wp m r c f : mat_is m r c f ->
    rwp (exec (m_init c r ;;!
                 for_ (range 0 r) (fun row =>
                   for_ (range 0 c) (fun col =>
                     let! x := lift (m_get m row col) in
                     m_set col row x))) mnew)
       (fun t => mat_is t c r (fun i j => f j i)) (fun _ => False) False.
  Proof.
    intros Hm. destruct (mat_is_dim _ _ _ _ Hm) as [Dr Dc].
    apply wp_exec, wp_bind, wp_m_init; auto. intros t Ht.
    pose (I := fun i j s => mat_is s c r (fun a b => if before b a i j then f b a else f0)).
    apply wp_for with (I := fun i s => I i 0 s).
    - eapply mat_is_ext; [exact Ht|]. intros a b Ha Hb. cbv beta.
      destruct (before b a 0 0) eqn:E; auto. apply before_spec in E. lia.
    - intros i s Hi Hs. apply wp_for with (I := fun j s => I i j s); auto.
      + intros j s' Hj Hs'. apply wp_bind, wp_lift. eapply rwp_m_get; [exact Hm|lia|lia|]. intros V.
        eapply wp_m_set; [exact Hs'|lia|lia| |intros e He; apply bad_Some_not in He; tauto].
        intros _ m1 H1. eapply mat_is_ext; [exact H1|]. intros a b Ha Hb. unfold fupd2. cbv beta.
        rewrite before_S. destruct (Nat.eqb_spec a j) as [->|], (Nat.eqb_spec b i) as [->|]; cbn [andb];
          rewrite ?orb_false_r, ?orb_true_r; reflexivity.
      + intros s' Hs'. rewrite Nat.max_0_l in Hs'. eapply mat_is_ext; [exact Hs'|]. intros a b Ha Hb.
        cbv beta. rewrite before_row by auto. reflexivity.
    - intros s Hs. rewrite Nat.max_0_l in Hs. eapply mat_is_ext; [exact Hs|]. intros a b Ha Hb.
      cbv beta. rewrite before_all by auto. reflexivity.
  Qed.

  Lemma m_transpose_ok m r c f : mat_is m r c f ->
    exists m', m_transpose m = (m', Ok tt) /\ mat_is m' c r (fun i j => f j i).
  Proof.
    intros Hm. unfold m_transpose. rewrite (mi_init _ _ _ _ Hm). cbn [negb].
    erewrite sbind_ok by (unfold reads; rewrite (m_is_square_is _ _ _ _ Hm); reflexivity).
    rewrite (mi_rows _ _ _ _ Hm), (mi_cols _ _ _ _ Hm).
    destruct (Nat.eqb_spec r c) as [->|Hne].
    - apply wp_exact, transpose_square_wp, Hm.
    - pose proof (transpose_rect_wp m r c f Hm) as L.
      destruct (exec _ mnew) as [t|e|]; cbn [rwp] in L; [|tauto|tauto].
      erewrite sbind_ok by reflexivity. erewrite sbind_ok by reflexivity.
      set (m1 := mkMat _ _ _ _).
      assert (H1 : mat_is m1 c r (mat_of m1)).
      { pose proof Hm as [W I R C G]. destruct (mat_is_dim _ _ _ _ Hm) as [Dr Dc].
        replace (mat_is m1 c r (mat_of m1)) with (mat_is m1 (m_rows m1) (m_cols m1) (mat_of m1))
          by (cbn [m1 m_rows m_cols]; rewrite R, C; reflexivity).
        apply mat_is_of; [|cbn; auto]. destruct W. split; cbn; auto. rewrite R, C. lia. }
      eapply m_copy_from_ok; eauto.
  Qed.
  Lemma m_transpose_new_ok m r c f : mat_is m r c f ->
    exists m', m_transpose_new m = Ok m' /\ mat_is m' c r (fun i j => f j i).
  Proof.
    intros Hm. unfold m_transpose_new. destruct (m_duplicate_ok m r c f Hm) as (d & -> & Hd). cbn [rbind].
    unfold exec. destruct (m_transpose_ok d r c f Hd) as (m' & -> & H'). eauto.
  Qed.
End Trans.

(*@ C11_transpose *)
(** C11: transpose succeeds on every initialised matrix; dimensions and indices are swapped. *)
Lemma l_transpose :
  forall (A : Arith) (OK : ArithOk A) (m : Mat T) (r c : nat) (f : nat -> nat -> T), mat_is m r c f ->
  exists m', m_transpose m = (m', Ok tt) /\ mat_is m' c r (fun i j => f j i).
Proof. intros. apply m_transpose_ok; auto. Qed.

(*@ C11_transpose_twice *)
(** C11: transposing twice restores dimensions and every element. *)
Lemma l_transpose_twice :
  forall (A : Arith) (OK : ArithOk A) (m : Mat T) (r c : nat) (f : nat -> nat -> T), mat_is m r c f ->
  exists m1 m2, m_transpose m = (m1, Ok tt) /\ m_transpose m1 = (m2, Ok tt) /\ mat_is m2 r c f.
Proof.
  intros A OK m r c f Hm. destruct (m_transpose_ok m r c f Hm) as (m1 & E1 & H1).
  destruct (m_transpose_ok m1 c r _ H1) as (m2 & E2 & H2). eauto.
Qed.

(*@ C11_transpose_new *)
(** C11: [transpose_new] returns a matrix with the content [transpose] would produce. *)
Lemma l_transpose_new :
  forall (A : Arith) (OK : ArithOk A) (m : Mat T) (r c : nat) (f : nat -> nat -> T), mat_is m r c f ->
  exists m' m'', m_transpose_new m = Ok m' /\ m_transpose m = (m'', Ok tt) /\
    mat_is m' c r (fun i j => f j i) /\ mat_is m'' c r (fun i j => f j i).
Proof.
  intros A OK m r c f Hm. destruct (m_transpose_new_ok m r c f Hm) as (m1 & E1 & H1).
  destruct (m_transpose_ok m r c f Hm) as (m2 & E2 & H2). eauto 10.
Qed.

(*@ example *)
Example C11_example :
  let A := F32 lm_id in
  let m := mk_mat 2 3 (map z32 [1; 2; 3; 4; 5; 6]%Z) in
  wfm m /\ shown show_m (m_transpose m) = ((3, 2, true, map sf [1; 4; 2; 5; 3; 6]%Z), Ok tt).
Proof.
  split; [apply wfm_b_ok; vm_compute; reflexivity|]. vm_compute. reflexivity.
Qed.
