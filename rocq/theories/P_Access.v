(** C02 - C05: element access, life cycle, row and column accessors. *)
(*@+*)
From Coq Require Import List Arith ZArith Lia Bool.
From Flocq Require Import BinarySingleNaN.
From Verif Require Import M_Base M_Arith M_Utils M_Vector M_Matrix M_F32 S_Spec S_Access P_Inst.
Import ListNotations.
(*@-*)
From Verif Require Import P_Hoare P_Cont P_Loops.

(*@ C02_matrix_set_element *)
(** C02: the decision table of [Matrix::set_element] and its frame law. *)
Lemma m_set_table :
  forall (A : Arith) (m : Mat T), wfm m -> forall (i j : nat) (x : T),
  let (m', r) := m_set i j x m in
  match first_error [(negb (m_is_initialized m), NotInit);
                     (fnan x, UtilsErr Nan); (finf x, UtilsErr Inf);
                     (m_rows m <=? i, InvalidRow); (m_cols m <=? j, InvalidCol)] with
  | Some e => r = Err e /\ m' = m
  | None => r = Ok tt /\ wfm m' /\ m_get m' i j = Ok x /\
            (forall a b, (a, b) <> (i, j) -> m_get m' a b = m_get m a b) /\
            m_get_rows m' = m_get_rows m /\ m_get_cols m' = m_get_cols m /\
            m_is_initialized m' = m_is_initialized m
  end.
Proof.
  intros A m W i j x. unfold m_is_initialized.
  destruct (m_initialized m) eqn:I; cbn [negb first_error].
  2:{ unfold m_set. rewrite I. cbn. auto. }
  destruct (fnan x) eqn:Hn.
  { erewrite (m_set_bad m _ _ _ i j x Nan); [auto|apply mat_is_of; auto|unfold bad; rewrite Hn; auto]. }
  destruct (finf x) eqn:Hf.
  { erewrite (m_set_bad m _ _ _ i j x Inf); [auto|apply mat_is_of; auto|unfold bad; rewrite Hn, Hf; auto]. }
  destruct (m_rows m <=? i) eqn:Hi.
  { unfold m_set. rewrite I. cbn. unfold sbind, lift. rewrite is_valid_value_ok by (split; auto). cbn.
    unfold is_valid_row. rewrite Hi. auto. }
  destruct (m_cols m <=? j) eqn:Hj.
  { unfold m_set. rewrite I. cbn. unfold sbind, lift. rewrite is_valid_value_ok by (split; auto). cbn.
    unfold is_valid_row, is_valid_col. rewrite Hi, Hj. auto. }
  apply Nat.leb_gt in Hi, Hj.
  destruct (m_set_in m _ _ _ i j x (mat_is_of m W I) Hi Hj (conj Hn Hf)) as (m' & E & M').
  rewrite E. pose proof M' as [W' I' R' C' G'].
  split; [reflexivity|]. split; [auto|]. split.
  { rewrite G' by auto. unfold fupd2. rewrite !Nat.eqb_refl. reflexivity. }
  split.
  { intros a b Hab. destruct (Nat.lt_ge_cases a (m_rows m)) as [Ha|Ha];
      [destruct (Nat.lt_ge_cases b (m_cols m)) as [Hb|Hb]|].
    - rewrite G' by auto. rewrite m_get_in by auto. unfold fupd2.
      destruct (Nat.eqb_spec a i), (Nat.eqb_spec b j); cbn; auto. congruence.
    - unfold m_get. rewrite I, I', R', C'. cbn. unfold is_valid_row, is_valid_col.
      destruct (Nat.leb_spec (m_rows m) a); [lia|]. cbn.
      destruct (Nat.leb_spec (m_cols m) b); [auto|lia].
    - unfold m_get. rewrite I, I', R'. cbn. unfold is_valid_row.
      destruct (Nat.leb_spec (m_rows m) a); [auto|lia]. }
  unfold m_get_rows, m_get_cols. rewrite I, I', R', C'. auto.
Qed.

(*@ C02_matrix_get_element *)
(** C02: [Matrix::get_element] fails in this order of priority, otherwise returns a
    finite float. *)
Lemma m_get_table :
  forall (A : Arith) (m : Mat T), wfm m -> forall (i j : nat),
  match first_error [(negb (m_is_initialized m), NotInit);
                     (m_rows m <=? i, InvalidRow); (m_cols m <=? j, InvalidCol)] with
  | Some e => m_get m i j = Err e
  | None => exists x, m_get m i j = Ok x /\ valid x
  end.
Proof.
  intros A m W i j. unfold m_is_initialized.
  destruct (m_initialized m) eqn:I; cbn [negb first_error].
  2:{ unfold m_get. rewrite I. reflexivity. }
  destruct (m_rows m <=? i) eqn:Hi.
  { unfold m_get. rewrite I. cbn. unfold is_valid_row. rewrite Hi. reflexivity. }
  destruct (m_cols m <=? j) eqn:Hj.
  { unfold m_get. rewrite I. cbn. unfold is_valid_row, is_valid_col. rewrite Hi, Hj. reflexivity. }
  apply Nat.leb_gt in Hi, Hj. exists (mat_of m i j). split.
  - apply m_get_in; auto.
  - eapply mat_is_valid; eauto using mat_is_of.
Qed.

(*@ C02_vector_set_element *)
Lemma v_set_table :
  forall (A : Arith) (v : Vec T), wfv v -> forall (i : nat) (x : T),
  let (v', r) := v_set i x v in
  match first_error [(negb (v_is_initialized v), NotInit);
                     (fnan x, UtilsErr Nan); (finf x, UtilsErr Inf);
                     (v_rows v <=? i, InvalidRow)] with
  | Some e => r = Err e /\ v' = v
  | None => r = Ok tt /\ wfv v' /\ v_get v' i = Ok x /\
            (forall a, a <> i -> v_get v' a = v_get v a) /\
            v_get_rows v' = v_get_rows v /\ v_is_initialized v' = v_is_initialized v
  end.
Proof.
  intros A v W i x. unfold v_is_initialized.
  destruct (v_initialized v) eqn:I; cbn [negb first_error].
  2:{ unfold v_set. rewrite I. cbn. auto. }
  destruct (fnan x) eqn:Hn.
  { erewrite (v_set_bad v _ _ i x Nan); [auto|apply vec_is_of; auto|unfold bad; rewrite Hn; auto]. }
  destruct (finf x) eqn:Hf.
  { erewrite (v_set_bad v _ _ i x Inf); [auto|apply vec_is_of; auto|unfold bad; rewrite Hn, Hf; auto]. }
  destruct (v_rows v <=? i) eqn:Hi.
  { unfold v_set. rewrite I. cbn. unfold sbind, lift. rewrite is_valid_value_ok by (split; auto). cbn.
    unfold is_valid_row. rewrite Hi. auto. }
  apply Nat.leb_gt in Hi.
  destruct (v_set_in v _ _ i x (vec_is_of v W I) Hi (conj Hn Hf)) as (v' & E & V').
  rewrite E. pose proof V' as [W' I' R' G'].
  split; [reflexivity|]. split; [auto|]. split.
  { rewrite G' by auto. unfold fupd1. rewrite !Nat.eqb_refl. reflexivity. }
  split.
  { intros a Ha. destruct (Nat.lt_ge_cases a (v_rows v)) as [Hr|Hr].
    - rewrite G' by auto. rewrite v_get_in by auto. unfold fupd1.
      destruct (Nat.eqb_spec a i); cbn; auto. congruence.
    - unfold v_get. rewrite I, I', R'. cbn. unfold is_valid_row.
      destruct (Nat.leb_spec (v_rows v) a); [auto|lia]. }
  unfold v_get_rows. rewrite I, I', R'. auto.
Qed.

(*@ C02_vector_get_element *)
Lemma v_get_table :
  forall (A : Arith) (v : Vec T), wfv v -> forall (i : nat),
  match first_error [(negb (v_is_initialized v), NotInit); (v_rows v <=? i, InvalidRow)] with
  | Some e => v_get v i = Err e
  | None => exists x, v_get v i = Ok x /\ valid x
  end.
Proof.
  intros A v W i. unfold v_is_initialized.
  destruct (v_initialized v) eqn:I; cbn [negb first_error].
  2:{ unfold v_get. rewrite I. reflexivity. }
  destruct (v_rows v <=? i) eqn:Hi.
  { unfold v_get. rewrite I. cbn. unfold is_valid_row. rewrite Hi. reflexivity. }
  apply Nat.leb_gt in Hi. exists (vec_of v i). split.
  - apply v_get_in; auto.
  - eapply vec_is_valid; eauto using vec_is_of.
Qed.

(*@ example *)
(** a 2x3 matrix of f32 is well formed; writing 9 at (1,2) is visible there only *)
Example C02_example :
  let A := F32 lm_id in
  let m := mk_mat 2 3 (map z32 [1; 2; 3; 4; 5; 6]%Z) in
  wfm m /\
  let m' := fst (m_set 1 2 (z32 9) m) in
  map (fun p => m_get m' (fst p) (snd p)) [(0, 0); (1, 1); (1, 2); (1, 3)] =
  [Ok (z32 1); Ok (z32 5); Ok (z32 9); Err InvalidCol].
Proof. split; [apply wfm_b_ok; reflexivity|reflexivity]. Qed.

(*@ C03_matrix_init *)
(** C03: [Matrix::init]. *)
Lemma m_init_table :
  forall (A : Arith) (m : Mat T) (rows cols : nat),
  let (m', r) := m_init rows cols m in
  match first_error [(m_is_initialized m, AlreadyInit);
                     (4 <? rows, RowsNumberOverflow); (rows =? 0, RowsNumberNull);
                     (4 <? cols, ColsNumberOverflow); (cols =? 0, ColsNumberNull)] with
  | Some e => r = Err e /\ m' = m
  | None => r = Ok tt /\ m_is_initialized m' = true /\
            m_get_rows m' = Ok rows /\ m_get_cols m' = Ok cols
  end.
Proof.
  intros A m rows cols. unfold m_init, m_is_initialized.
  destruct (m_initialized m); cbn [negb first_error]; [auto|].
  unfold sbind, lift, is_valid_rows_number, is_valid_cols_number, M_MAX, N_MAX.
  destruct (4 <? rows); [auto|]. destruct (rows =? 0); [auto|].
  destruct (4 <? cols); [auto|]. destruct (cols =? 0); [auto|]. cbn. auto.
Qed.

(*@ C03_matrix_reinit *)
(** C03: [Matrix::reinit].  The case of an invalid size is the VIOLATION: an initialised
    matrix becomes unusable. *)
Lemma m_reinit_table :
  forall (A : Arith) (m : Mat T) (rows cols : nat),
  let (m', r) := m_reinit rows cols m in
  if negb (m_is_initialized m) then r = Err NotInit /\ m' = m
  else match first_error [(4 <? rows, RowsNumberOverflow); (rows =? 0, RowsNumberNull);
                          (4 <? cols, ColsNumberOverflow); (cols =? 0, ColsNumberNull)] with
  | Some e => r = Err e /\ m_is_initialized m' = false /\ forall i j, m_get m' i j = Err NotInit
  | None => r = Ok tt /\ m_is_initialized m' = true /\
            m_get_rows m' = Ok rows /\ m_get_cols m' = Ok cols
  end.
Proof.
  intros A m rows cols. unfold m_reinit, m_init, m_is_initialized.
  destruct (m_initialized m); cbn [negb first_error]; [|split; reflexivity].
  unfold sbind, lift, modify, is_valid_rows_number, is_valid_cols_number, M_MAX, N_MAX. cbn [m_initialized].
  destruct (4 <? rows); [repeat split|]. destruct (rows =? 0); [repeat split|].
  destruct (4 <? cols); [repeat split|]. destruct (cols =? 0); [repeat split|]. cbn. auto.
Qed.

(*@ C03_reinit_keeps_usable_refuted *)
(** C03 VIOLATION: an initialised matrix on which a rejected [reinit] makes every later
    read fail. *)
Lemma m_reinit_refuted :
  forall (lm : Libm), let A := F32 lm in
  exists (m m' : Mat T) (e : LinalgError),
    m_init 2 2 mnew = (m, Ok tt) /\ m_get m 0 0 = Ok f0 /\
    m_reinit 2 5 m = (m', Err e) /\ m_get m' 0 0 = Err NotInit.
Proof.
  intros lm A. eexists _, _, _. split; [reflexivity|]. split; [reflexivity|].
  split; [reflexivity|]. reflexivity.
Qed.

(*@ C03_vector_init *)
Lemma v_init_table :
  forall (X : Type) (v : Vec X) (rows : nat),
  let (v', r) := v_init rows v in
  match first_error [(v_is_initialized v, AlreadyInit);
                     (4 <? rows, RowsNumberOverflow); (rows =? 0, RowsNumberNull)] with
  | Some e => r = Err e /\ v' = v
  | None => r = Ok tt /\ v_is_initialized v' = true /\ v_get_rows v' = Ok rows
  end.
Proof.
  intros X v rows. unfold v_init, v_is_initialized.
  destruct (v_initialized v); cbn [negb first_error]; [auto|].
  unfold sbind, lift, is_valid_rows_number, M_MAX.
  destruct (4 <? rows); [auto|]. destruct (rows =? 0); [auto|]. cbn. auto.
Qed.

(*@ C03_vector_reinit *)
Lemma v_reinit_table :
  forall (X : Type) (v : Vec X) (rows : nat),
  let (v', r) := v_reinit rows v in
  if negb (v_is_initialized v) then r = Err NotInit /\ v' = v
  else match first_error [(4 <? rows, RowsNumberOverflow); (rows =? 0, RowsNumberNull)] with
  | Some e => r = Err e /\ v_is_initialized v' = false /\ forall i, v_get v' i = Err NotInit
  | None => r = Ok tt /\ v_is_initialized v' = true /\ v_get_rows v' = Ok rows
  end.
Proof.
  intros X v rows. unfold v_reinit, v_init, v_is_initialized.
  destruct (v_initialized v); cbn [negb first_error]; [|split; reflexivity].
  unfold sbind, lift, modify, is_valid_rows_number, M_MAX. cbn [v_initialized].
  destruct (4 <? rows); [repeat split|]. destruct (rows =? 0); [repeat split|]. cbn. auto.
Qed.

(*@ C04_fresh_matrix_zero *)
(** C04: a newly created and initialised matrix is all zero. *)
Lemma m_fresh_zero :
  forall (A : Arith) (OK : ArithOk A) (r c : nat), 1 <= r <= 4 -> 1 <= c <= 4 ->
  exists m, m_init r c mnew = (m, Ok tt) /\
    forall i j, i < r -> j < c -> m_get m i j = Ok f0.
Proof.
  intros A OK r c Hr Hc. destruct (m_init_new r c Hr Hc) as (m & E & H).
  exists m. split; auto. apply (mi_get _ _ _ _ H).
Qed.

(*@ C04_fresh_vector_zero *)
Lemma v_fresh_zero :
  forall (A : Arith) (OK : ArithOk A) (n : nat), 1 <= n <= 4 ->
  exists v, v_init n vnew = (v, Ok tt) /\ forall i, i < n -> v_get v i = Ok f0.
Proof.
  intros A OK n Hn. destruct (v_init_new n Hn) as (v & E & H).
  exists v. split; auto. apply (vi_get _ _ _ H).
Qed.

(*@ C04_reinit_exposes_old_storage *)
(** C04: what a re-initialised matrix contains: the old row-major storage read with the
    new row length. *)
Lemma m_reinit_content :
  forall (A : Arith) (m : Mat T) (r0 c0 : nat) (f : nat -> nat -> T), mat_is m r0 c0 f ->
  forall r c, 1 <= r <= 4 -> 1 <= c <= 4 ->
  exists m', m_reinit r c m = (m', Ok tt) /\
    forall i j, i < r -> j < c -> i * c + j < r0 * c0 ->
      m_get m' i j = Ok (f ((i * c + j) / c0) ((i * c + j) mod c0)).
Proof.
  intros A m r0 c0 f Hm r c Hr Hc. pose proof Hm as [W I R C G].
  unfold m_reinit, m_init. rewrite I. cbn [negb]. unfold sbind, lift, modify. cbn [m_initialized].
  rewrite rows_ok, cols_ok by auto. eexists; split; [reflexivity|].
  intros i j Hi Hj Hij. pose proof (mat_is_dim _ _ _ _ Hm) as [Dr Dc].
  assert (Hdm : i * c + j = c0 * ((i * c + j) / c0) + (i * c + j) mod c0)
    by (apply Nat.div_mod; lia).
  assert (Hmod : (i * c + j) mod c0 < c0) by (apply Nat.mod_upper_bound; lia).
  assert (Hdiv : (i * c + j) / c0 < r0) by (apply Nat.div_lt_upper_bound; lia).
  specialize (G _ _ Hdiv Hmod). unfold m_get in *. cbn [m_initialized m_rows m_cols m_elems] in *.
  rewrite I, R, C in G. cbn [negb] in *. unfold is_valid_row, is_valid_col in *.
  destruct (Nat.leb_spec r i); [lia|]. destruct (Nat.leb_spec c j); [lia|].
  destruct (Nat.leb_spec r0 ((i * c + j) / c0)); [lia|].
  destruct (Nat.leb_spec c0 ((i * c + j) mod c0)); [lia|]. cbn [rbind] in *.
  rewrite <- G. f_equal. lia.
Qed.

(*@ C04_reinit_zero_refuted *)
(** C04 VIOLATION: a matrix that is filled with 7 and re-initialised still reads 7. *)
Lemma m_reinit_zero_refuted :
  forall (lm : Libm), let A := F32 lm in
  exists (m1 m2 m3 : Mat T),
    m_init 2 2 mnew = (m1, Ok tt) /\ m_fill (z32 7) m1 = (m2, Ok tt) /\
    m_reinit 2 2 m2 = (m3, Ok tt) /\ m_get m3 1 1 = Ok (z32 7) /\ z32 7 <> f0.
Proof.
  intros lm A. eexists _, _, _.
  split; [reflexivity|]. split; [reflexivity|]. split; [reflexivity|]. split; [reflexivity|].
  intros H. apply (f_equal B2SF) in H. vm_compute in H. discriminate.
Qed.

(** ** rows and columns *)
Section RowCol.
  Context {A : Arith}.

  Lemma v_get_rows_is v n f : vec_is v n f -> v_get_rows v = Ok n.
  Proof. intros [W I R G]. unfold v_get_rows. rewrite I, R. reflexivity. Qed.

  Lemma m_set_row_wp m r c f v g i : mat_is m r c f -> vec_is v c g -> i < r ->
    wp (m_set_row v i) m (fun _ m' => mat_is m' r c (fun a b => if a =? i then g b else f a b))
       (fun _ _ => False) False.
  Proof.
    intros Hm Hv Hi.
    eapply wp_fold; [unfold m_set_row; rewrite (mi_cols _ _ _ _ Hm); reflexivity|].
    apply wp_bind, wp_lift. rewrite (v_get_rows_is _ _ _ Hv). cbn [rwp]. rewrite Nat.eqb_refl. cbn [negb].
    apply wp_for with (I := fun k s => mat_is s r c (fun a b => if (a =? i) && (b <? k) then g b else f a b)).
    - eapply mat_is_ext; [exact Hm|]. intros a b Ha Hb. cbv beta.
      destruct (Nat.ltb_spec b 0); [lia|]. rewrite andb_false_r. reflexivity.
    - intros k s Hk Hs. apply wp_bind, wp_lift. eapply rwp_v_get; [exact Hv|lia|]. intros Hgk.
      eapply wp_m_set; [exact Hs|lia|lia| |].
      + intros _ m' Hm'. eapply mat_is_ext; [exact Hm'|]. intros a b Ha Hb. cbv beta. unfold fupd2.
        destruct (Nat.eqb_spec a i) as [->|], (Nat.eqb_spec b k) as [->|]; cbn.
        * destruct (Nat.ltb_spec k (S k)); [reflexivity|lia].
        * destruct (Nat.ltb_spec b k), (Nat.ltb_spec b (S k)); auto; lia.
        * reflexivity.
        * reflexivity.
      + intros e He. apply bad_Some_not in He. tauto.
    - intros s Hs. rewrite Nat.max_0_l in Hs. eapply mat_is_ext; [exact Hs|]. intros a b Ha Hb. cbv beta.
      destruct (Nat.ltb_spec b c); [|lia]. rewrite andb_true_r. reflexivity.
  Qed.
  Lemma m_set_col_wp m r c f v g j : mat_is m r c f -> vec_is v r g -> j < c ->
    wp (m_set_col v j) m (fun _ m' => mat_is m' r c (fun a b => if b =? j then g a else f a b))
       (fun _ _ => False) False.
  Proof.
    intros Hm Hv Hi.
    eapply wp_fold; [unfold m_set_col; rewrite (mi_rows _ _ _ _ Hm); reflexivity|].
    apply wp_bind, wp_lift. rewrite (v_get_rows_is _ _ _ Hv). cbn [rwp]. rewrite Nat.eqb_refl. cbn [negb].
    apply wp_for with (I := fun k s => mat_is s r c (fun a b => if (b =? j) && (a <? k) then g a else f a b)).
    - eapply mat_is_ext; [exact Hm|]. intros a b Ha Hb. cbv beta.
      destruct (Nat.ltb_spec a 0); [lia|]. rewrite andb_false_r. reflexivity.
    - intros k s Hk Hs. apply wp_bind, wp_lift. eapply rwp_v_get; [exact Hv|lia|]. intros Hgk.
      eapply wp_m_set; [exact Hs|lia|lia| |].
      + intros _ m' Hm'. eapply mat_is_ext; [exact Hm'|]. intros a b Ha Hb. cbv beta. unfold fupd2.
        destruct (Nat.eqb_spec b j) as [->|], (Nat.eqb_spec a k) as [->|]; cbn.
        * destruct (Nat.ltb_spec k (S k)); [reflexivity|lia].
        * destruct (Nat.ltb_spec a k), (Nat.ltb_spec a (S k)); auto; lia.
        * reflexivity.
        * reflexivity.
      + intros e He. apply bad_Some_not in He. tauto.
    - intros s Hs. rewrite Nat.max_0_l in Hs. eapply mat_is_ext; [exact Hs|]. intros a b Ha Hb. cbv beta.
      destruct (Nat.ltb_spec a r); [|lia]. rewrite andb_true_r. reflexivity.
  Qed.
  Lemma m_get_row_wp m r c f v g i : mat_is m r c f -> vec_is v c g -> i < r ->
    wp (m_get_row m i) v (fun _ v' => vec_is v' c (f i)) (fun _ _ => False) False.
  Proof.
    intros Hm Hv Hi.
    eapply wp_fold; [unfold m_get_row; rewrite (mi_cols _ _ _ _ Hm); reflexivity|].
    apply wp_bind, wp_reads. rewrite (v_get_rows_is _ _ _ Hv). cbn [rwp]. rewrite Nat.eqb_refl. cbn [negb].
    apply wp_for with (I := fun k s => vec_is s c (fun a => if a <? k then f i a else g a)).
    - eapply vec_is_ext; [exact Hv|]. intros. reflexivity.
    - intros k s Hk Hs. apply wp_bind, wp_lift. eapply rwp_m_get; [exact Hm|lia|lia|]. intros Hfk.
      eapply wp_v_set; [exact Hs|lia| |].
      + intros _ v' Hv'. eapply vec_is_ext; [exact Hv'|]. intros a Ha. cbv beta. unfold fupd1.
        destruct (Nat.eqb_spec a k) as [->|].
        * destruct (Nat.ltb_spec k (S k)); [reflexivity|lia].
        * destruct (Nat.ltb_spec a k), (Nat.ltb_spec a (S k)); auto; lia.
      + intros e He. apply bad_Some_not in He. tauto.
    - intros s Hs. rewrite Nat.max_0_l in Hs. eapply vec_is_ext; [exact Hs|]. intros a Ha. cbv beta.
      destruct (Nat.ltb_spec a c); [|lia]. reflexivity.
  Qed.
  Lemma m_get_col_wp m r c f v g j : mat_is m r c f -> vec_is v r g -> j < c ->
    wp (m_get_col m j) v (fun _ v' => vec_is v' r (fun a => f a j)) (fun _ _ => False) False.
  Proof.
    intros Hm Hv Hi.
    eapply wp_fold; [unfold m_get_col; rewrite (mi_rows _ _ _ _ Hm); reflexivity|].
    apply wp_bind, wp_reads. rewrite (v_get_rows_is _ _ _ Hv). cbn [rwp]. rewrite Nat.eqb_refl. cbn [negb].
    apply wp_for with (I := fun k s => vec_is s r (fun a => if a <? k then f a j else g a)).
    - eapply vec_is_ext; [exact Hv|]. intros. reflexivity.
    - intros k s Hk Hs. apply wp_bind, wp_lift. eapply rwp_m_get; [exact Hm|lia|lia|]. intros Hfk.
      eapply wp_v_set; [exact Hs|lia| |].
      + intros _ v' Hv'. eapply vec_is_ext; [exact Hv'|]. intros a Ha. cbv beta. unfold fupd1.
        destruct (Nat.eqb_spec a k) as [->|].
        * destruct (Nat.ltb_spec k (S k)); [reflexivity|lia].
        * destruct (Nat.ltb_spec a k), (Nat.ltb_spec a (S k)); auto; lia.
      + intros e He. apply bad_Some_not in He. tauto.
    - intros s Hs. rewrite Nat.max_0_l in Hs. eapply vec_is_ext; [exact Hs|]. intros a Ha. cbv beta.
      destruct (Nat.ltb_spec a r); [|lia]. reflexivity.
  Qed.
  Lemma wp_exact {S E} (c : ST S E unit) s (Q : S -> Prop) :
    wp c s (fun _ s' => Q s') (fun _ _ => False) False -> exists s', c s = (s', Ok tt) /\ Q s'.
  Proof.
    intros H. apply wp_elim in H. destruct H as [([] & s' & E1 & H)|[(e & s' & E1 & [])|(s' & E1 & [])]].
    eauto.
  Qed.
End RowCol.

(*@ C05_set_row *)
(** C05: [set_row] replaces exactly the given row, bit for bit. *)
Lemma set_row_spec :
  forall (A : Arith) (m : Mat T) (r c : nat) (f : nat -> nat -> T), mat_is m r c f ->
  forall (v : Vec T) (n : nat) (g : nat -> T), vec_is v n g -> forall i,
  if negb (n =? c) then m_set_row v i m = (m, Err InvalidSize)
  else if r <=? i then m_set_row v i m = (m, Err InvalidRow)
  else exists m', m_set_row v i m = (m', Ok tt) /\
         mat_is m' r c (fun a b => if a =? i then g b else f a b).
Proof.
  intros A m r c f Hm v n g Hv i. destruct (Nat.eqb_spec n c) as [->|Hne]; cbn [negb].
  - destruct (Nat.leb_spec r i) as [Hi|Hi].
    + unfold m_set_row. unfold sbind at 1, lift at 1.
      rewrite (v_get_rows_is _ _ _ Hv), (mi_cols _ _ _ _ Hm), Nat.eqb_refl. cbn [negb].
      pose proof (mat_is_dim _ _ _ _ Hm). rewrite range_cons by lia. cbn [for_]. unfold sbind, lift.
      rewrite (vi_get _ _ _ Hv) by lia. unfold m_set. rewrite (mi_init _ _ _ _ Hm). cbn [negb].
      unfold sbind, lift. rewrite is_valid_value_ok by (eapply vec_is_valid; eauto; lia). cbn [map_err].
      unfold is_valid_row. rewrite (mi_rows _ _ _ _ Hm). destruct (Nat.leb_spec r i); [reflexivity|lia].
    + apply wp_exact, m_set_row_wp; auto.
  - unfold m_set_row, sbind, lift. rewrite (v_get_rows_is _ _ _ Hv), (mi_cols _ _ _ _ Hm).
    destruct (Nat.eqb_spec c n); [lia|]. reflexivity.
Qed.

(*@ C05_set_col *)
Lemma set_col_spec :
  forall (A : Arith) (m : Mat T) (r c : nat) (f : nat -> nat -> T), mat_is m r c f ->
  forall (v : Vec T) (n : nat) (g : nat -> T), vec_is v n g -> forall j,
  if negb (n =? r) then m_set_col v j m = (m, Err InvalidSize)
  else if c <=? j then m_set_col v j m = (m, Err InvalidCol)
  else exists m', m_set_col v j m = (m', Ok tt) /\
         mat_is m' r c (fun a b => if b =? j then g a else f a b).
Proof.
  intros A m r c f Hm v n g Hv i. destruct (Nat.eqb_spec n r) as [->|Hne]; cbn [negb].
  - destruct (Nat.leb_spec c i) as [Hi|Hi].
    + unfold m_set_col. unfold sbind at 1, lift at 1.
      rewrite (v_get_rows_is _ _ _ Hv), (mi_rows _ _ _ _ Hm), Nat.eqb_refl. cbn [negb].
      pose proof (mat_is_dim _ _ _ _ Hm). rewrite range_cons by lia. cbn [for_]. unfold sbind, lift.
      rewrite (vi_get _ _ _ Hv) by lia. unfold m_set. rewrite (mi_init _ _ _ _ Hm). cbn [negb].
      unfold sbind, lift. rewrite is_valid_value_ok by (eapply vec_is_valid; eauto; lia). cbn [map_err].
      unfold is_valid_row, is_valid_col. rewrite (mi_rows _ _ _ _ Hm), (mi_cols _ _ _ _ Hm).
      destruct (Nat.leb_spec r 0); [lia|]. destruct (Nat.leb_spec c i); [reflexivity|lia].
    + apply wp_exact, m_set_col_wp; auto.
  - unfold m_set_col, sbind, lift. rewrite (v_get_rows_is _ _ _ Hv), (mi_rows _ _ _ _ Hm).
    destruct (Nat.eqb_spec r n); [lia|]. reflexivity.
Qed.

(*@ C05_get_row *)
(** C05: [get_row] copies exactly row [i] into a vector of matching length. *)
Lemma get_row_spec :
  forall (A : Arith) (m : Mat T) (r c : nat) (f : nat -> nat -> T), mat_is m r c f ->
  forall (v : Vec T) (n : nat) (g : nat -> T), vec_is v n g -> forall i,
  if negb (n =? c) then m_get_row m i v = (v, Err InvalidSize)
  else if r <=? i then m_get_row m i v = (v, Err InvalidRow)
  else exists v', m_get_row m i v = (v', Ok tt) /\ vec_is v' c (fun b => f i b).
Proof.
  intros A m r c f Hm v n g Hv i. destruct (Nat.eqb_spec n c) as [->|Hne]; cbn [negb].
  - destruct (Nat.leb_spec r i) as [Hi|Hi].
    + unfold m_get_row. unfold sbind at 1, reads at 1.
      rewrite (v_get_rows_is _ _ _ Hv), (mi_cols _ _ _ _ Hm), Nat.eqb_refl. cbn [negb].
      pose proof (mat_is_dim _ _ _ _ Hm). rewrite range_cons by lia. cbn [for_]. unfold sbind, lift.
      unfold m_get. rewrite (mi_init _ _ _ _ Hm). cbn [negb].
      unfold is_valid_row. rewrite (mi_rows _ _ _ _ Hm). destruct (Nat.leb_spec r i); [reflexivity|lia].
    + apply wp_exact. eapply m_get_row_wp; eauto.
  - unfold m_get_row, sbind, reads. rewrite (v_get_rows_is _ _ _ Hv), (mi_cols _ _ _ _ Hm).
    destruct (Nat.eqb_spec c n); [lia|]. reflexivity.
Qed.

(*@ C05_get_col *)
Lemma get_col_spec :
  forall (A : Arith) (m : Mat T) (r c : nat) (f : nat -> nat -> T), mat_is m r c f ->
  forall (v : Vec T) (n : nat) (g : nat -> T), vec_is v n g -> forall j,
  if negb (n =? r) then m_get_col m j v = (v, Err InvalidSize)
  else if c <=? j then m_get_col m j v = (v, Err InvalidCol)
  else exists v', m_get_col m j v = (v', Ok tt) /\ vec_is v' r (fun a => f a j).
Proof.
  intros A m r c f Hm v n g Hv i. destruct (Nat.eqb_spec n r) as [->|Hne]; cbn [negb].
  - destruct (Nat.leb_spec c i) as [Hi|Hi].
    + unfold m_get_col. unfold sbind at 1, reads at 1.
      rewrite (v_get_rows_is _ _ _ Hv), (mi_rows _ _ _ _ Hm), Nat.eqb_refl. cbn [negb].
      pose proof (mat_is_dim _ _ _ _ Hm). rewrite range_cons by lia. cbn [for_]. unfold sbind, lift.
      unfold m_get. rewrite (mi_init _ _ _ _ Hm). cbn [negb].
      unfold is_valid_row, is_valid_col. rewrite (mi_rows _ _ _ _ Hm), (mi_cols _ _ _ _ Hm).
      destruct (Nat.leb_spec r 0); [lia|]. cbn [rbind].
      destruct (Nat.leb_spec c i); [reflexivity|lia].
    + apply wp_exact. eapply m_get_col_wp; eauto.
  - unfold m_get_col, sbind, reads. rewrite (v_get_rows_is _ _ _ Hv), (mi_rows _ _ _ _ Hm).
    destruct (Nat.eqb_spec r n); [lia|]. reflexivity.
Qed.

(*@ C05_row_to_vector *)
(** C05: [row_to_vector] and [col_to_vector]. *)
Lemma row_to_vector_spec :
  forall (A : Arith) (OK : ArithOk A) (m : Mat T) (r c : nat) (f : nat -> nat -> T),
  mat_is m r c f -> forall i,
  if r <=? i then m_row_to_vector m i = Err InvalidRow
  else exists v, m_row_to_vector m i = Ok v /\ vec_is v c (fun b => f i b).
Proof.
  intros A OK m r c f Hm i. pose proof (mat_is_dim _ _ _ _ Hm) as [Dr Dc].
  destruct (v_init_new c Dc) as (v & E & Hv). unfold m_row_to_vector, exec, sbind.
  rewrite (mi_cols _ _ _ _ Hm), E. pose proof (get_row_spec A m r c f Hm v c _ Hv i) as H.
  rewrite Nat.eqb_refl in H. cbn [negb] in H. destruct (Nat.leb_spec r i).
  - rewrite H. reflexivity.
  - destruct H as (v' & E' & H'). rewrite E'. eauto.
Qed.

(*@ C05_col_to_vector *)
Lemma col_to_vector_spec :
  forall (A : Arith) (OK : ArithOk A) (m : Mat T) (r c : nat) (f : nat -> nat -> T),
  mat_is m r c f -> forall j,
  if c <=? j then m_col_to_vector m j = Err InvalidCol
  else exists v, m_col_to_vector m j = Ok v /\ vec_is v r (fun a => f a j).
Proof.
  intros A OK m r c f Hm j. pose proof (mat_is_dim _ _ _ _ Hm) as [Dr Dc].
  destruct (v_init_new r Dr) as (v & E & Hv). unfold m_col_to_vector, exec, sbind.
  rewrite (mi_rows _ _ _ _ Hm), E. pose proof (get_col_spec A m r c f Hm v r _ Hv j) as H.
  rewrite Nat.eqb_refl in H. cbn [negb] in H. destruct (Nat.leb_spec c j).
  - rewrite H. reflexivity.
  - destruct H as (v' & E' & H'). rewrite E'. eauto.
Qed.

(*@ C05_set_row_get_row *)
(** C05: what was put in with [set_row] comes out of [row_to_vector], for every element. *)
Lemma set_get_row :
  forall (A : Arith) (OK : ArithOk A) (m m' : Mat T) (v : Vec T) (i : nat),
  wfm m -> wfv v -> m_is_initialized m = true -> m_set_row v i m = (m', Ok tt) ->
  exists v', m_row_to_vector m' i = Ok v' /\ v_get_rows v' = v_get_rows v /\
             (forall k, v_get v' k = v_get v k) /\
             (forall a b, a <> i -> m_get m' a b = m_get m a b).
Proof.
  intros A OK m m' v i Wm Wv Im E. unfold m_is_initialized in Im.
  pose proof (mat_is_of m Wm Im) as Hm.
  assert (Iv : v_initialized v = true).
  { unfold m_set_row, sbind, lift, v_get_rows in E. destruct (v_initialized v); [reflexivity|]. cbn in E. congruence. }
  pose proof (vec_is_of v Wv Iv) as Hv.
  pose proof (set_row_spec A m _ _ _ Hm v _ _ Hv i) as H.
  destruct (Nat.eqb_spec (v_rows v) (m_cols m)) as [Hd|]; cbn [negb] in H; [|congruence].
  destruct (Nat.leb_spec (m_rows m) i) as [|Hi]; [congruence|].
  destruct H as (m'' & E' & H'). rewrite E in E'. injection E' as <-.
  pose proof (row_to_vector_spec A OK m' _ _ _ H' i) as H2.
  destruct (Nat.leb_spec (m_rows m) i); [lia|]. destruct H2 as (v' & Ev & Hv').
  exists v'. split; auto. rewrite Nat.eqb_refl in Hv'. split.
  { rewrite (v_get_rows_is _ _ _ Hv'), (v_get_rows_is _ _ _ Hv). congruence. }
  split.
  - intros k. destruct (Nat.lt_ge_cases k (m_cols m)) as [Hk|Hk].
    + rewrite (vi_get _ _ _ Hv') by auto. rewrite (vi_get _ _ _ Hv) by lia. reflexivity.
    + unfold v_get. rewrite Iv, (vi_init _ _ _ Hv'), (vi_rows _ _ _ Hv'), <- Hd. cbn. unfold is_valid_row.
      destruct (Nat.leb_spec (v_rows v) k); [reflexivity|lia].
  - intros a b Ha. destruct (Nat.lt_ge_cases a (m_rows m)) as [Hr|Hr];
      [destruct (Nat.lt_ge_cases b (m_cols m)) as [Hc|Hc]|].
    + rewrite (mi_get _ _ _ _ H') by auto. rewrite (mi_get _ _ _ _ Hm) by auto.
      destruct (Nat.eqb_spec a i); [congruence|reflexivity].
    + unfold m_get. rewrite Im, (mi_init _ _ _ _ H'), (mi_rows _ _ _ _ H'), (mi_cols _ _ _ _ H').
      cbn. unfold is_valid_row, is_valid_col. destruct (Nat.leb_spec (m_rows m) a); [reflexivity|].
      destruct (Nat.leb_spec (m_cols m) b); [reflexivity|lia].
    + unfold m_get. rewrite Im, (mi_init _ _ _ _ H'), (mi_rows _ _ _ _ H').
      cbn. unfold is_valid_row. destruct (Nat.leb_spec (m_rows m) a); [reflexivity|lia].
Qed.

(*@ example *)
(** the hypotheses of C05 hold on a 2x3 matrix and a vector of length 3 *)
Example C05_example :
  let A := F32 lm_id in
  let m := mk_mat 2 3 (map z32 [1; 2; 3; 4; 5; 6]%Z) in
  let v := mk_vec (map z32 [7; 8; 9]%Z) in
  wfm m /\ wfv v /\ m_is_initialized m = true /\
  exists m', m_set_row v 1 m = (m', Ok tt) /\ m_get m' 1 2 = Ok (z32 9) /\ m_get m' 0 2 = Ok (z32 3).
Proof.
  split; [apply wfm_b_ok; reflexivity|]. split; [apply wfv_b_ok; reflexivity|]. split; [reflexivity|].
  eexists. split; [reflexivity|]. split; reflexivity.
Qed.
