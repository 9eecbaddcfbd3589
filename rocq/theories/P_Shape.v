(** C06, C07: insertion of rows and columns, deletion of rows. *)
(*@+*)
From Coq Require Import List Arith ZArith Lia Bool.
From Flocq Require Import BinarySingleNaN.
From Verif Require Import M_Base M_Arith M_Utils M_Vector M_Matrix M_F32 S_Spec S_Shape P_Inst.
Import ListNotations.
(*@-*)
From Verif Require Import P_Hoare P_Cont P_Loops P_Access.

Section Shape.
  Context {A : Arith}.

  Lemma u8_add_ok {E} ck a b : a + b < 256 -> @u8_add E ck a b = Ok (a + b).
  Proof. intros H. unfold u8_add. destruct (Nat.ltb_spec (a + b) 256); [reflexivity|lia]. Qed.
  Lemma u8_sub_ok {E} ck a b : b <= a -> @u8_sub E ck a b = Ok (a - b).
  Proof. intros H. unfold u8_sub. destruct (Nat.leb_spec b a); [reflexivity|lia]. Qed.

  (** ** set_rows, set_cols *)
  Lemma m_set_rows_grow m r c f : mat_is m r c f -> r < 4 ->
    exists m' f', m_set_rows (r + 1) m = (m', Ok tt) /\ mat_is m' (r + 1) c f' /\
      forall i j, i < r -> j < c -> f' i j = f i j.
  Proof.
    intros Hm Hr. pose proof Hm as [W I R C G]. pose proof (mat_is_dim _ _ _ _ Hm) as [Dr Dc].
    unfold m_set_rows. rewrite I, R. cbn [negb]. destruct (Nat.eqb_spec (r + 1) r); [lia|].
    unfold sbind, lift, modify. rewrite rows_ok by lia.
    set (m' := mkMat _ _ _ _). exists m', (mat_of m'). split; [reflexivity|].
    assert (W' : wfm m').
    { destruct W. split; cbn; auto; try lia. }
    split.
    - rewrite <- C. replace (r + 1) with (m_rows m') by reflexivity.
      change (m_cols m) with (m_cols m'). apply mat_is_of; auto.
    - intros i j Hi Hj. rewrite (mat_is_eq m r c f i j) by auto. reflexivity.
  Qed.

  Context {OK : ArithOk A}.

  Lemma m_set_cols_grow m r c f : mat_is m r c f -> c < 4 ->
    exists m' f', m_set_cols (c + 1) m = (m', Ok tt) /\ mat_is m' r (c + 1) f' /\
      forall i j, i < r -> j < c -> f' i j = f i j.
  Proof.
    intros Hm Hc. pose proof Hm as [W I R C G]. pose proof (mat_is_dim _ _ _ _ Hm) as [Dr Dc].
    pose proof (wfm_len _ W) as Le.
    (* the copy loop *)
    assert (L : rwp (E := LinalgError) (rfold (range 0 r) (fun row ne =>
              rfold (range 0 c) (fun col ne =>
                let? x := arr_get (m_elems m) (row * c + col) in
                arr_set ne (row * (c + 1) + col) x) ne)
              (repeat f0 (M_MAX * N_MAX)))
            (fun ne => length ne = 16 /\ Forall valid ne /\
               forall a b, a < r -> b < c -> nth_error ne (a * (c + 1) + b) = Some (f a b))
            (fun _ => False) False).
    { pose (J := fun i j (ne : list T) => length ne = 16 /\ Forall valid ne /\
         forall a b, a < r -> b < c -> before a b i j = true ->
           nth_error ne (a * (c + 1) + b) = Some (f a b)).
      apply rwp_fold with (I := fun i ne => J i 0 ne).
      - split; [reflexivity|]. split; [apply Forall_repeat_, ok_f0|].
        intros a b Ha Hb H. apply before_spec in H. lia.
      - intros i ne Hi HJ. apply rwp_fold with (I := fun j ne => J i j ne); auto.
        + intros j ne' Hj (L1 & F1 & N1). apply rwp_bind.
          assert (Gi : arr_get (E := LinalgError) (m_elems m) (i * c + j) = Ok (f i j)).
          { specialize (G i j ltac:(lia) ltac:(lia)). unfold m_get in G. rewrite I, R, C in G. cbn in G.
            unfold is_valid_row, is_valid_col in G. destruct (Nat.leb_spec r i); [lia|].
            cbn in G. destruct (Nat.leb_spec c j); [lia|]. exact G. }
          rewrite Gi. cbn [rwp]. unfold arr_set.
          assert (K : i * (c + 1) + j < length ne') by (rewrite L1; apply idx_lt with r; lia).
          destruct (Nat.ltb_spec (i * (c + 1) + j) (length ne')); [|lia]. cbn [rwp].
          split; [rewrite upd_length; auto|].
          split; [apply Forall_upd; auto; eapply mat_is_valid; eauto; lia|].
          intros a b Ha Hb H'. rewrite before_S in H'. apply orb_true_iff in H'.
          destruct (Nat.eq_dec (i * (c + 1) + j) (a * (c + 1) + b)) as [Heq|Hne].
          * apply idx_inj in Heq; try lia. destruct Heq as [<- <-]. apply nth_error_upd_eq. auto.
          * rewrite nth_error_upd_neq by auto. apply N1; auto. destruct H' as [H'|H']; auto.
            apply andb_true_iff in H'. rewrite !Nat.eqb_eq in H'. destruct H'; subst. congruence.
        + intros ne' (L1 & F1 & N1). rewrite Nat.max_0_l in *. split; auto. split; auto.
          intros a b Ha Hb H'. apply N1; auto. rewrite before_row by auto. exact H'.
      - intros ne (L1 & F1 & N1). rewrite Nat.max_0_l in *. split; auto. split; auto.
        intros a b Ha Hb. apply N1; auto. apply before_all; auto. }
    unfold m_set_cols. rewrite I, R, C. cbn [negb]. destruct (Nat.eqb_spec (c + 1) c); [lia|].
    unfold sbind at 1, lift at 1. rewrite cols_ok by lia. unfold sbind, lift, modify.
    destruct (rfold (range 0 r) _ _) as [ne|e|]; cbn in L; [|tauto|tauto].
    destruct L as (L1 & F1 & N1). rewrite I, R.
    set (m' := mkMat _ _ _ _). exists m', (mat_of m'). split; [reflexivity|].
    assert (W' : wfm m'). { split; cbn; auto; lia. }
    split.
    - change r with (m_rows m') at 1. replace (c + 1) with (m_cols m') by reflexivity.
      apply mat_is_of; auto.
    - intros i j Hi Hj. unfold mat_of. cbn [m_cols m' m_elems].
      apply nth_error_nth, N1; auto.
  Qed.

  (** ** add_row *)
  Definition shift_rows (i k : nat) (f : nat -> nat -> T) : nat -> nat -> T :=
    fun a b => if k <=? a then if i <? a then f (a - 1) b else f a b else f a b.

  Lemma shift_rows_wp ck m r c f i : mat_is m (r + 1) c f -> i <= r -> r < 4 ->
    wp (for_ (rev (range (i + 1) (r + 1))) (fun m =>
       let! cols := reads (fun s => Ok (m_cols s)) in
       for_ (range 0 cols) (fun col =>
         let! m1 := lift (u8_sub ck m 1) in
         let! x := reads (fun s => m_get s m1 col) in
         m_set m col x))) m
      (fun _ m' => mat_is m' (r + 1) c (fun a b => if i <? a then f (a - 1) b else f a b))
      (fun _ _ => False) False.
  Proof.
    intros Hm Hi Hr.
    apply wp_for_rev with (I := fun k s => mat_is s (r + 1) c (shift_rows i k f)).
    - eapply mat_is_ext; [exact Hm|]. intros a b Ha Hb. unfold shift_rows.
      rewrite Nat.max_r by lia. destruct (Nat.leb_spec (r + 1) a); [lia|reflexivity].
    - intros k s Hk Hs. apply wp_bind, wp_reads. cbn [rwp]. rewrite (mi_cols _ _ _ _ Hs).
      apply wp_for with (I := fun j s => mat_is s (r + 1) c (fun a b =>
          if (a =? k) && (b <? j) then f (k - 1) b else shift_rows i (S k) f a b)).
      + eapply mat_is_ext; [exact Hs|]. intros a b Ha Hb. cbv beta.
        destruct (Nat.ltb_spec b 0); [lia|]. rewrite andb_false_r. reflexivity.
      + intros j s' Hj Hs'. apply wp_bind, wp_lift. rewrite u8_sub_ok by lia. cbn [rwp].
        apply wp_bind, wp_reads. eapply rwp_m_get; [exact Hs'|lia|lia|]. cbv beta.
        destruct (Nat.eqb_spec (k - 1) k); [lia|]. cbn [andb]. intros Hv.
        assert (E : shift_rows i (S k) f (k - 1) j = f (k - 1) j).
        { unfold shift_rows. destruct (Nat.leb_spec (S k) (k - 1)); [lia|reflexivity]. }
        rewrite E in *.
        eapply wp_m_set; [exact Hs'|lia|lia| |].
        * intros _ m' Hm'. eapply mat_is_ext; [exact Hm'|]. intros a b Ha Hb. unfold fupd2. cbv beta.
          destruct (Nat.eqb_spec a k) as [->|], (Nat.eqb_spec b j) as [->|]; cbn [andb]; auto.
          -- destruct (Nat.ltb_spec j (S j)); [reflexivity|lia].
          -- destruct (Nat.ltb_spec b j), (Nat.ltb_spec b (S j)); auto; lia.
        * intros e He. apply bad_Some_not in He. tauto.
      + intros s' Hs'. rewrite Nat.max_0_l in Hs'. eapply mat_is_ext; [exact Hs'|].
        intros a b Ha Hb. cbv beta. unfold shift_rows. destruct (Nat.ltb_spec b c); [|lia].
        rewrite andb_true_r. destruct (Nat.eqb_spec a k) as [->|].
        * destruct (Nat.leb_spec k k); [|lia]. destruct (Nat.ltb_spec i k); [reflexivity|lia].
        * destruct (Nat.leb_spec (S k) a), (Nat.leb_spec k a); auto; lia.
    - intros s Hs. eapply mat_is_ext; [exact Hs|]. intros a b Ha Hb. unfold shift_rows.
      destruct (Nat.leb_spec (i + 1) a); auto. destruct (Nat.ltb_spec i a); [lia|reflexivity].
  Qed.

  (** the state after the size change and the shift, before the vector is written *)
  Lemma add_row_prefix ck m r c f i : mat_is m r c f -> r < 4 -> i <= r ->
    exists m1 f1, mat_is m1 (r + 1) c f1 /\
      (forall a b, a < r + 1 -> b < c -> a <> i -> f1 a b = f (if a <? i then a else a - 1) b) /\
      forall v, m_add_row ck v i m = m_set_row v i m1.
  Proof.
    intros Hm Hr Hi. destruct (m_set_rows_grow m r c f Hm Hr) as (m0 & f' & E0 & H0 & Hf').
    destruct (wp_exact _ _ _ (shift_rows_wp ck m0 r c f' i H0 Hi Hr)) as (m1 & E1 & H1).
    exists m1, (fun a b => if i <? a then f' (a - 1) b else f' a b). split; [exact H1|]. split.
    - intros a b Ha Hb Hne. cbv beta. destruct (Nat.ltb_spec i a), (Nat.ltb_spec a i); try lia; apply Hf'; lia.
    - intros v. unfold m_add_row. rewrite (mi_rows _ _ _ _ Hm).
      unfold sbind at 1, lift at 1. rewrite u8_add_ok by lia. unfold sbind at 1, lift at 1. rewrite rows_ok by lia.
      unfold sbind at 1. rewrite E0. unfold sbind at 1, lift at 1. rewrite u8_add_ok by lia.
      unfold sbind at 1. rewrite E1. reflexivity.
  Qed.

  (** ** add_col *)
  Definition shift_cols (i k : nat) (f : nat -> nat -> T) : nat -> nat -> T :=
    fun a b => if k <=? b then if i <? b then f a (b - 1) else f a b else f a b.

  Lemma shift_cols_wp ck m r c f i : mat_is m r (c + 1) f -> i <= c -> c < 4 ->
    wp (for_ (rev (range (i + 1) (c + 1))) (fun n =>
       let! rows := reads (fun s => Ok (m_rows s)) in
       for_ (range 0 rows) (fun row =>
         let! n1 := lift (u8_sub ck n 1) in
         let! x := reads (fun s => m_get s row n1) in
         m_set row n x))) m
      (fun _ m' => mat_is m' r (c + 1) (fun a b => if i <? b then f a (b - 1) else f a b))
      (fun _ _ => False) False.
  Proof.
    intros Hm Hi Hr.
    apply wp_for_rev with (I := fun k s => mat_is s r (c + 1) (shift_cols i k f)).
    - eapply mat_is_ext; [exact Hm|]. intros a b Ha Hb. unfold shift_cols.
      rewrite Nat.max_r by lia. destruct (Nat.leb_spec (c + 1) b); [lia|reflexivity].
    - intros k s Hk Hs. apply wp_bind, wp_reads. cbn [rwp]. rewrite (mi_rows _ _ _ _ Hs).
      apply wp_for with (I := fun j s => mat_is s r (c + 1) (fun a b =>
          if (b =? k) && (a <? j) then f a (k - 1) else shift_cols i (S k) f a b)).
      + eapply mat_is_ext; [exact Hs|]. intros a b Ha Hb. cbv beta.
        destruct (Nat.ltb_spec a 0); [lia|]. rewrite andb_false_r. reflexivity.
      + intros j s' Hj Hs'. apply wp_bind, wp_lift. rewrite u8_sub_ok by lia. cbn [rwp].
        apply wp_bind, wp_reads. eapply rwp_m_get; [exact Hs'|lia|lia|]. cbv beta.
        destruct (Nat.eqb_spec (k - 1) k); [lia|]. cbn [andb]. intros Hv.
        assert (E : shift_cols i (S k) f j (k - 1) = f j (k - 1)).
        { unfold shift_cols. destruct (Nat.leb_spec (S k) (k - 1)); [lia|reflexivity]. }
        rewrite E in *.
        eapply wp_m_set; [exact Hs'|lia|lia| |].
        * intros _ m' Hm'. eapply mat_is_ext; [exact Hm'|]. intros a b Ha Hb. unfold fupd2. cbv beta.
          destruct (Nat.eqb_spec b k) as [->|], (Nat.eqb_spec a j) as [->|]; cbn [andb]; auto.
          -- destruct (Nat.ltb_spec j (S j)); [reflexivity|lia].
          -- destruct (Nat.ltb_spec a j), (Nat.ltb_spec a (S j)); auto; lia.
        * intros e He. apply bad_Some_not in He. tauto.
      + intros s' Hs'. rewrite Nat.max_0_l in Hs'. eapply mat_is_ext; [exact Hs'|].
        intros a b Ha Hb. cbv beta. unfold shift_cols. destruct (Nat.ltb_spec a r); [|lia].
        rewrite andb_true_r. destruct (Nat.eqb_spec b k) as [->|].
        * destruct (Nat.leb_spec k k); [|lia]. destruct (Nat.ltb_spec i k); [reflexivity|lia].
        * destruct (Nat.leb_spec (S k) b), (Nat.leb_spec k b); auto; lia.
    - intros s Hs. eapply mat_is_ext; [exact Hs|]. intros a b Ha Hb. unfold shift_cols.
      destruct (Nat.leb_spec (i + 1) b); auto. destruct (Nat.ltb_spec i b); [lia|reflexivity].
  Qed.
  Lemma add_col_prefix ck m r c f i : mat_is m r c f -> c < 4 -> i <= c ->
    exists m1 f1, mat_is m1 r (c + 1) f1 /\
      (forall a b, a < r -> b < c + 1 -> b <> i -> f1 a b = f a (if b <? i then b else b - 1)) /\
      forall v, m_add_col ck v i m = m_set_col v i m1.
  Proof.
    intros Hm Hr Hi. destruct (m_set_cols_grow m r c f Hm Hr) as (m0 & f' & E0 & H0 & Hf').
    destruct (wp_exact _ _ _ (shift_cols_wp ck m0 r c f' i H0 Hi Hr)) as (m1 & E1 & H1).
    exists m1, (fun a b => if i <? b then f' a (b - 1) else f' a b). split; [exact H1|]. split.
    - intros a b Ha Hb Hne. cbv beta. destruct (Nat.ltb_spec i b), (Nat.ltb_spec b i); try lia; apply Hf'; lia.
    - intros v. unfold m_add_col. rewrite (mi_cols _ _ _ _ Hm).
      unfold sbind at 1, lift at 1. rewrite u8_add_ok by lia. unfold sbind at 1, lift at 1. rewrite cols_ok by lia.
      unfold sbind at 1. rewrite E0. unfold sbind at 1, lift at 1. rewrite u8_add_ok by lia.
      unfold sbind at 1. rewrite E1. reflexivity.
  Qed.

  (** index past the end: only the size change happens before the vector is written *)
  Lemma add_row_past ck m r c f i : mat_is m r c f -> r < 4 -> r < i < 255 ->
    exists m1 f1, mat_is m1 (r + 1) c f1 /\ (forall a b, a < r -> b < c -> f1 a b = f a b) /\
      forall v, m_add_row ck v i m = m_set_row v i m1.
  Proof.
    intros Hm Hr Hi. destruct (m_set_rows_grow m r c f Hm Hr) as (m0 & f' & E0 & H0 & Hf').
    exists m0, f'. split; [exact H0|]. split; [auto|]. intros v. unfold m_add_row.
    rewrite (mi_rows _ _ _ _ Hm).
    unfold sbind at 1, lift at 1. rewrite u8_add_ok by lia. unfold sbind at 1, lift at 1. rewrite rows_ok by lia.
    unfold sbind at 1. rewrite E0. unfold sbind at 1, lift at 1. rewrite u8_add_ok by lia.
    rewrite range_nil by lia. reflexivity.
  Qed.
  Lemma add_col_past ck m r c f i : mat_is m r c f -> c < 4 -> c < i < 255 ->
    exists m1 f1, mat_is m1 r (c + 1) f1 /\ (forall a b, a < r -> b < c -> f1 a b = f a b) /\
      forall v, m_add_col ck v i m = m_set_col v i m1.
  Proof.
    intros Hm Hr Hi. destruct (m_set_cols_grow m r c f Hm Hr) as (m0 & f' & E0 & H0 & Hf').
    exists m0, f'. split; [exact H0|]. split; [auto|]. intros v. unfold m_add_col.
    rewrite (mi_cols _ _ _ _ Hm).
    unfold sbind at 1, lift at 1. rewrite u8_add_ok by lia. unfold sbind at 1, lift at 1. rewrite cols_ok by lia.
    unfold sbind at 1. rewrite E0. unfold sbind at 1, lift at 1. rewrite u8_add_ok by lia.
    rewrite range_nil by lia. reflexivity.
  Qed.

  (** ** del_row *)
  Lemma copy_row_wp m r c f i : mat_is m r c f -> i < r ->
    rwp (exec (v_init c ;;!
               for_ (range 0 c) (fun col =>
                 let! element := lift (m_get m i col) in
                 v_set col element)) vnew)
        (fun v => vec_is v c (f i)) (fun _ => False) False.
  Proof.
    intros Hm Hi. destruct (mat_is_dim _ _ _ _ Hm) as [Dr Dc].
    apply wp_exec, wp_bind. apply wp_v_init; auto. intros v Hv.
    apply wp_for with (I := fun k s => vec_is s c (fun a => if a <? k then f i a else f0)).
    - eapply vec_is_ext; [exact Hv|]. intros. reflexivity.
    - intros k s Hk Hs. apply wp_bind, wp_lift. eapply rwp_m_get; [exact Hm|lia|lia|]. intros Hfk.
      eapply wp_v_set; [exact Hs|lia| |].
      + intros _ v' Hv'. eapply vec_is_ext; [exact Hv'|]. intros a Ha. unfold fupd1. cbv beta.
        destruct (Nat.eqb_spec a k) as [->|].
        * destruct (Nat.ltb_spec k (S k)); [reflexivity|lia].
        * destruct (Nat.ltb_spec a k), (Nat.ltb_spec a (S k)); auto; lia.
      + intros e He. apply bad_Some_not in He. tauto.
    - intros s Hs. rewrite Nat.max_0_l in Hs. eapply vec_is_ext; [exact Hs|]. intros a Ha. cbv beta.
      destruct (Nat.ltb_spec a c); [|lia]. reflexivity.
  Qed.

  Lemma shift_up_wp m r c f i : mat_is m r c f -> i < r ->
    wp (for_ (range (i + 1) r) (fun old_row =>
       let! cols := reads (fun s => Ok (m_cols s)) in
       for_ (range 0 cols) (fun col =>
         let! element := reads (fun s => m_get s old_row col) in
         m_set (old_row - 1) col element))) m
      (fun _ m' => mat_is m' r c (fun a b => if (i <=? a) && (a <? r - 1) then f (a + 1) b else f a b))
      (fun _ _ => False) False.
  Proof.
    intros Hm Hi.
    apply wp_for with (I := fun k s => mat_is s r c (fun a b => if (i <=? a) && (a <? k - 1) then f (a + 1) b else f a b)).
    - eapply mat_is_ext; [exact Hm|]. intros a b Ha Hb. cbv beta.
      destruct (Nat.leb_spec i a), (Nat.ltb_spec a (i + 1 - 1)); cbn [andb]; auto; lia.
    - intros k s Hk Hs. apply wp_bind, wp_reads. cbn [rwp]. rewrite (mi_cols _ _ _ _ Hs).
      apply wp_for with (I := fun j s => mat_is s r c (fun a b =>
         if (a =? k - 1) && (b <? j) then f k b
         else if (i <=? a) && (a <? k - 1) then f (a + 1) b else f a b)).
      + eapply mat_is_ext; [exact Hs|]. intros a b Ha Hb. cbv beta.
        destruct (Nat.ltb_spec b 0); [lia|]. rewrite andb_false_r. reflexivity.
      + intros j s' Hj Hs'. apply wp_bind, wp_reads. eapply rwp_m_get; [exact Hs'|lia|lia|]. cbv beta.
        destruct (Nat.eqb_spec k (k - 1)); [lia|]. cbn [andb].
        destruct (Nat.ltb_spec k (k - 1)); [lia|]. rewrite andb_false_r. intros Hv.
        eapply wp_m_set; [exact Hs'|lia|lia| |].
        * intros _ m' Hm'. eapply mat_is_ext; [exact Hm'|]. intros a b Ha Hb. unfold fupd2. cbv beta.
          destruct (Nat.eqb_spec a (k - 1)) as [->|], (Nat.eqb_spec b j) as [->|]; cbn [andb]; auto.
          -- destruct (Nat.ltb_spec j (S j)); [reflexivity|lia].
          -- destruct (Nat.ltb_spec b j), (Nat.ltb_spec b (S j)); auto; lia.
        * intros e He. apply bad_Some_not in He. tauto.
      + intros s' Hs'. rewrite Nat.max_0_l in Hs'. eapply mat_is_ext; [exact Hs'|].
        intros a b Ha Hb. cbv beta. destruct (Nat.ltb_spec b c); [|lia].
        rewrite andb_true_r. replace (S k - 1) with k by lia.
        destruct (Nat.eqb_spec a (k - 1)) as [->|].
        * destruct (Nat.leb_spec i (k - 1)); [|lia]. destruct (Nat.ltb_spec (k - 1) k); [|lia].
          cbn [andb]. f_equal. lia.
        * destruct (Nat.leb_spec i a), (Nat.ltb_spec a (k - 1)), (Nat.ltb_spec a k); cbn [andb]; auto; lia.
    - intros s Hs. rewrite Nat.max_r in Hs by lia. exact Hs.
  Qed.
End Shape.

(*@ C06_add_row *)
(** C06: [add_row] inserts the vector before row [i] ([i] may be the number of rows). *)
Lemma l_add_row :
  forall (A : Arith) (OK : ArithOk A) (ck : bool) (m : Mat T) (r c : nat) (f : nat -> nat -> T)
         (v : Vec T) (g : nat -> T) (i : nat),
  mat_is m r c f -> vec_is v c g -> r < 4 -> i <= r ->
  exists m', m_add_row ck v i m = (m', Ok tt) /\
    mat_is m' (r + 1) c (insert_at i g f).
Proof.
  intros A OK ck m r c f v g i Hm Hv Hr Hi.
  destruct (add_row_prefix ck m r c f i Hm Hr Hi) as (m1 & f1 & H1 & Hf & E).
  rewrite E. pose proof (set_row_spec A m1 _ _ _ H1 v c g Hv i) as S.
  rewrite Nat.eqb_refl in S. cbn [negb] in S. destruct (Nat.leb_spec (r + 1) i); [lia|].
  destruct S as (m' & E' & H'). exists m'. split; auto.
  eapply mat_is_ext; [exact H'|]. intros a b Ha Hb. cbv beta. unfold insert_at.
  destruct (Nat.eqb_spec a i) as [->|Hne].
  - rewrite Nat.ltb_irrefl. reflexivity.
  - rewrite Hf by auto. destruct (a <? i); reflexivity.
Qed.

(*@ C06_add_col *)
(** C06: [add_col] inserts the vector before column [j]. *)
Lemma l_add_col :
  forall (A : Arith) (OK : ArithOk A) (ck : bool) (m : Mat T) (r c : nat) (f : nat -> nat -> T)
         (v : Vec T) (g : nat -> T) (j : nat),
  mat_is m r c f -> vec_is v r g -> c < 4 -> j <= c ->
  exists m', m_add_col ck v j m = (m', Ok tt) /\
    mat_is m' r (c + 1) (fun a => insert_at j (g a) (f a)).
Proof.
  intros A OK ck m r c f v g i Hm Hv Hr Hi.
  destruct (add_col_prefix ck m r c f i Hm Hr Hi) as (m1 & f1 & H1 & Hf & E).
  rewrite E. pose proof (set_col_spec A m1 _ _ _ H1 v r g Hv i) as S.
  rewrite Nat.eqb_refl in S. cbn [negb] in S. destruct (Nat.leb_spec (c + 1) i); [lia|].
  destruct S as (m' & E' & H'). exists m'. split; auto.
  eapply mat_is_ext; [exact H'|]. intros a b Ha Hb. cbv beta. unfold insert_at.
  destruct (Nat.eqb_spec b i) as [->|Hne].
  - rewrite Nat.ltb_irrefl. reflexivity.
  - rewrite Hf by auto. destruct (b <? i); reflexivity.
Qed.

(*@ C06_add_to_full *)
(** C06: a matrix that already has four rows (columns) is left alone. *)
Lemma l_add_full :
  forall (A : Arith) (ck : bool) (m : Mat T) (r c : nat) (f : nat -> nat -> T) (v : Vec T) (i : nat),
  mat_is m r c f ->
  (r = 4 -> m_add_row ck v i m = (m, Err RowsNumberOverflow)) /\
  (c = 4 -> m_add_col ck v i m = (m, Err ColsNumberOverflow)).
Proof.
  intros A ck m r c f v i Hm. split; intros ->.
  - unfold m_add_row. rewrite (mi_rows _ _ _ _ Hm). reflexivity.
  - unfold m_add_col. rewrite (mi_cols _ _ _ _ Hm). reflexivity.
Qed.

(*@ C06_del_row *)
(** C06: [del_row] returns row [i] and closes the gap; it refuses a bad index and the
    only row, without change. *)
Lemma l_del_row :
  forall (A : Arith) (OK : ArithOk A) (ck : bool) (m : Mat T) (r c : nat) (f : nat -> nat -> T) (i : nat),
  mat_is m r c f ->
  if r <=? i then m_del_row ck i m = (m, Err InvalidRow)
  else if r =? 1 then m_del_row ck i m = (m, Err RowsNumberNull)
  else exists m' v, m_del_row ck i m = (m', Ok v) /\
         vec_is v c (f i) /\ mat_is m' (r - 1) c (remove_at i f).
Proof.
  intros A OK ck m r c f i Hm. destruct (mat_is_dim _ _ _ _ Hm) as [Dr Dc].
  unfold m_del_row. rewrite (mi_rows _ _ _ _ Hm), (mi_cols _ _ _ _ Hm).
  erewrite sbind_ok by (apply lift_ok, u8_sub_ok; lia).
  destruct (Nat.leb_spec r i) as [Hi|Hi].
  { apply sbind_err, lift_err. unfold is_valid_row. destruct (Nat.leb_spec r i); [reflexivity|lia]. }
  erewrite sbind_ok by (apply lift_ok; unfold is_valid_row; destruct (Nat.leb_spec r i); [lia|reflexivity]).
  destruct (Nat.eqb_spec r 1) as [->|Hr1]; [reflexivity|].
  erewrite sbind_ok by (apply lift_ok, rows_ok; lia).
  pose proof (copy_row_wp m r c f i Hm Hi) as L.
  destruct (exec _ vnew) as [v|e|]; cbn [rwp] in L; [|tauto|tauto].
  destruct (wp_exact _ _ _ (shift_up_wp m r c f i Hm Hi)) as (m1 & E1 & H1).
  erewrite sbind_ok by reflexivity. erewrite sbind_ok by exact E1.
  unfold sbind, modify, sret.
  eexists _, v. split; [reflexivity|]. split; [auto|].
  rewrite (mi_init _ _ _ _ H1), (mi_cols _ _ _ _ H1).
  set (m' := mkMat _ _ _ _).
  assert (W' : wfm m'). { destruct (mi_wf _ _ _ _ H1). split; cbn; auto; lia. }
  assert (H' : mat_is m' (r - 1) c (mat_of m')) by (apply (mat_is_of m'); auto).
  eapply mat_is_ext; [exact H'|]. intros a b Ha Hb.
  assert (E : mat_of m' a b = mat_of m1 a b).
  { unfold mat_of. rewrite (mi_cols _ _ _ _ H1). reflexivity. }
  rewrite E, <- (mat_is_eq _ _ _ _ _ _ H1) by lia. unfold remove_at.
  destruct (Nat.ltb_spec a i), (Nat.leb_spec i a), (Nat.ltb_spec a (r - 1)); cbn [andb]; auto; lia.
Qed.

(*@ C06_del_after_add *)
(** C06: [del_row] undoes [add_row]. *)
Lemma l_del_add :
  forall (A : Arith) (OK : ArithOk A) (ck : bool) (m : Mat T) (r c : nat) (f : nat -> nat -> T)
         (v : Vec T) (g : nat -> T) (i : nat),
  mat_is m r c f -> vec_is v c g -> r < 4 -> i <= r ->
  exists m1 m2 w, m_add_row ck v i m = (m1, Ok tt) /\ m_del_row ck i m1 = (m2, Ok w) /\
    vec_is w c g /\ mat_is m2 r c f.
Proof.
  intros A OK ck m r c f v g i Hm Hv Hr Hi.
  destruct (l_add_row A OK ck m r c f v g i Hm Hv Hr Hi) as (m1 & E1 & H1).
  pose proof (l_del_row A OK ck m1 _ _ _ i H1) as D.
  destruct (mat_is_dim _ _ _ _ Hm) as [Dr Dc].
  destruct (Nat.leb_spec (r + 1) i); [lia|]. destruct (Nat.eqb_spec (r + 1) 1); [lia|].
  destruct D as (m2 & w & E2 & Hw & H2). exists m1, m2, w. do 2 (split; auto). split.
  - eapply vec_is_ext; [exact Hw|]. intros b Hb. unfold insert_at.
    rewrite Nat.ltb_irrefl, Nat.eqb_refl. reflexivity.
  - replace (r + 1 - 1) with r in H2 by lia. eapply mat_is_ext; [exact H2|].
    intros a b Ha Hb. unfold remove_at, insert_at.
    destruct (Nat.ltb_spec a i); [reflexivity|].
    destruct (Nat.ltb_spec (a + 1) i); [lia|]. destruct (Nat.eqb_spec (a + 1) i); [lia|].
    f_equal. lia.
Qed.

(*@ example *)
Example C06_example :
  let A := F32 lm_id in
  let m := mk_mat 2 2 (map z32 [1; 2; 3; 4]%Z) in
  let v := mk_vec (map z32 [8; 9]%Z) in
  wfm m /\ wfv v /\
  exists m', m_add_row true v 1 m = (m', Ok tt) /\
    map (fun p => obs (m_get m' (fst p) (snd p))) [(0,0);(0,1);(1,0);(1,1);(2,0);(2,1)] =
    map (fun z => Ok (sf z)) [1; 2; 8; 9; 3; 4]%Z.
Proof.
  split; [apply wfm_b_ok; vm_compute; reflexivity|]. split; [apply wfv_b_ok; vm_compute; reflexivity|].
  eexists. split; [reflexivity|]. vm_compute. reflexivity.
Qed.

(*@ C07_add_row_not_atomic *)
(** C07 VIOLATION: whenever a non-full matrix is given a vector of the wrong length, or an
    index past the end, [add_row] reports an error but has added a row. *)
Lemma l_add_row_bad :
  forall (A : Arith) (OK : ArithOk A) (ck : bool) (m : Mat T) (r c : nat) (f : nat -> nat -> T)
         (v : Vec T) (n : nat) (g : nat -> T) (i : nat),
  mat_is m r c f -> vec_is v n g -> r < 4 -> i < 255 -> (n <> c \/ r < i) ->
  exists m' e, m_add_row ck v i m = (m', Err e) /\ m_get_rows m' = Ok (r + 1) /\
    e = (if n =? c then InvalidRow else InvalidSize).
Proof.
  intros A OK ck m r c f v n g i Hm Hv Hr Hi Hbad.
  assert (P : exists m1 f1, mat_is m1 (r + 1) c f1 /\ forall v, m_add_row ck v i m = m_set_row v i m1).
  { destruct (Nat.le_gt_cases i r).
    - destruct (add_row_prefix ck m r c f i) as (m1 & f1 & H1 & _ & E); eauto.
    - destruct (add_row_past ck m r c f i) as (m1 & f1 & H1 & _ & E); eauto. }
  destruct P as (m1 & f1 & H1 & E). rewrite E.
  pose proof (set_row_spec A m1 _ _ _ H1 v n g Hv i) as S.
  exists m1. eexists. split; [|split; [|reflexivity]].
  - destruct (Nat.eqb_spec n c) as [->|]; cbn [negb] in S.
    + destruct (Nat.leb_spec (r + 1) i); [exact S|lia].
    + exact S.
  - unfold m_get_rows. rewrite (mi_init _ _ _ _ H1), (mi_rows _ _ _ _ H1). reflexivity.
Qed.

(*@ C07_add_col_not_atomic *)
Lemma l_add_col_bad :
  forall (A : Arith) (OK : ArithOk A) (ck : bool) (m : Mat T) (r c : nat) (f : nat -> nat -> T)
         (v : Vec T) (n : nat) (g : nat -> T) (j : nat),
  mat_is m r c f -> vec_is v n g -> c < 4 -> j < 255 -> (n <> r \/ c < j) ->
  exists m' e, m_add_col ck v j m = (m', Err e) /\ m_get_cols m' = Ok (c + 1) /\
    e = (if n =? r then InvalidCol else InvalidSize).
Proof.
  intros A OK ck m r c f v n g i Hm Hv Hr Hi Hbad.
  assert (P : exists m1 f1, mat_is m1 r (c + 1) f1 /\ forall v, m_add_col ck v i m = m_set_col v i m1).
  { destruct (Nat.le_gt_cases i c).
    - destruct (add_col_prefix ck m r c f i) as (m1 & f1 & H1 & _ & E); eauto.
    - destruct (add_col_past ck m r c f i) as (m1 & f1 & H1 & _ & E); eauto. }
  destruct P as (m1 & f1 & H1 & E). rewrite E.
  pose proof (set_col_spec A m1 _ _ _ H1 v n g Hv i) as S.
  exists m1. eexists. split; [|split; [|reflexivity]].
  - destruct (Nat.eqb_spec n r) as [->|]; cbn [negb] in S.
    + destruct (Nat.leb_spec (c + 1) i); [exact S|lia].
    + exact S.
  - unfold m_get_cols. rewrite (mi_init _ _ _ _ H1), (mi_cols _ _ _ _ H1). reflexivity.
Qed.

(*@ C07_atomic_insertion_refuted *)
(** C07 VIOLATION, concrete: a 2x2 f32 matrix and a vector of length 3. *)
Lemma l_atomic_refuted :
  forall (lm : Libm), let A := F32 lm in
  exists (m m1 m2 : Mat T) (v : Vec T) (e : LinalgError),
    wfm m /\ wfv v /\ m_get_rows m = Ok 2 /\ m_get_cols m = Ok 2 /\
    m_add_row true v 0 m = (m1, Err e) /\ m_get_rows m1 = Ok 3 /\
    m_add_col true v 0 m = (m2, Err e) /\ m_get_cols m2 = Ok 3.
Proof.
  intros lm A.
  exists (mk_mat (A := F32 lm) 2 2 (map z32 [1; 2; 3; 4]%Z)).
  eexists _, _, (mk_vec (A := F32 lm) (map z32 [7; 8; 9]%Z)), _.
  split; [apply wfm_b_ok; vm_compute; reflexivity|].
  split; [apply wfv_b_ok; vm_compute; reflexivity|].
  do 2 (split; [reflexivity|]).
  split; [reflexivity|]. split; [reflexivity|]. split; [reflexivity|]. reflexivity.
Qed.
