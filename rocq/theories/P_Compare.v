(** C13: comparison predicates. *)
(*@+*)
From Coq Require Import List Arith ZArith Reals Lia Bool.
From Flocq Require Import Core BinarySingleNaN.
From Verif Require Import M_Base M_Arith M_Utils M_Vector M_Matrix M_F32 M_RX S_Spec S_Compare P_Inst.
Import ListNotations.
Local Open Scope nat_scope.
(*@-*)
From Verif Require Import P_Hoare P_Cont P_Loops P_Access P_Pointwise P_Trans P_Float.

Section Cmp.
  Context {A : Arith}.
  Lemma allclose_ok x y d : valid x -> valid y -> decides (allclose_l x y d) (within d x y).
  Proof.
    intros Hx Hy. unfold allclose_l, allclose. rewrite !is_valid_value_ok by auto. cbn.
    eexists. split; [reflexivity|]. unfold within. tauto.
  Qed.
  Lemma rall_decides {E} (f : nat -> res E bool) (t : nat -> Prop) a b :
    (forall i, a <= i < b -> decides (f i) (t i)) ->
    decides (rall (range a b) f) (forall i, a <= i < b -> t i).
  Proof.
    intros H.
    assert (W : rwp (rall (range a b) f) (fun x => x = true <-> forall i, a <= i < b -> t i)
                  (fun _ => False) False).
    { apply rwp_rall with (t := t); [|auto]. intros i Hi. destruct (H i Hi) as (x & -> & Hx). exact Hx. }
    unfold rwp in W. destruct (rall (range a b) f); try tauto. eexists. eauto.
  Qed.
  Lemma decides_iff {E} (r : res E bool) P Q : decides r P -> (P <-> Q) -> decides r Q.
  Proof. intros (b & E1 & H) HQ. exists b. split; auto. tauto. Qed.
  Lemma rall_app {E} (f : nat -> res E bool) l1 l2 :
    rall (l1 ++ l2) f = let? b := rall l1 f in if b then rall l2 f else Ok false.
  Proof.
    induction l1 as [|i l IH]; cbn [app rall rbind]; auto.
    destruct (f i) as [[]| |]; cbn [rbind]; auto.
  Qed.
  Lemma range_split a b c : a <= b <= c -> range a c = range a b ++ range b c.
  Proof.
    intros H. unfold range. replace (c - a) with ((b - a) + (c - b)) by lia.
    rewrite seq_app. do 2 f_equal. lia.
  Qed.
  Lemma decides_get2 m r c f m' r' c' f' i j i' j' d :
    mat_is m r c f -> i < r -> j < c -> mat_is m' r' c' f' -> i' < r' -> j' < c' ->
    decides (let? x := m_get m i j in let? y := m_get m' i' j' in allclose_l x y d) (within d (f i j) (f' i' j')).
  Proof.
    intros H Hi Hj H' Hi' Hj'. rewrite (mi_get _ _ _ _ H), (mi_get _ _ _ _ H') by auto. cbn [rbind].
    apply allclose_ok; eapply mat_is_valid; eauto.
  Qed.
  Lemma decides_get1 m r c f i j y d :
    mat_is m r c f -> i < r -> j < c -> valid y ->
    decides (let? x := m_get m i j in allclose_l x y d) (within d (f i j) y).
  Proof.
    intros H Hi Hj Hy. rewrite (mi_get _ _ _ _ H) by auto. cbn [rbind].
    apply allclose_ok; auto; eapply mat_is_valid; eauto.
  Qed.
End Cmp.

(*@ C13_matrix_equal *)
(** C13: [is_equal_to] on matrices *)
Lemma l_m_equal :
  forall (A : Arith) (a b : Mat T) (ra ca rb cb : nat) (fa fb : nat -> nat -> T) (d : T),
  mat_is a ra ca fa -> mat_is b rb cb fb ->
  decides (m_is_equal_to a b d)
    (ra = rb /\ ca = cb /\ forall i j, i < ra -> j < ca -> within d (fa i j) (fb i j)).
Proof.
  intros A a b ra ca rb cb fa fb d Ha Hb. unfold m_is_equal_to.
  rewrite (m_same_ok _ _ _ _ _ _ _ _ Ha Hb). cbn [rbind].
  destruct (Nat.eqb_spec ra rb) as [<-|Hr]; cbn [andb negb].
  2:{ exists false. split; auto. split; [discriminate|tauto]. }
  destruct (Nat.eqb_spec ca cb) as [<-|Hc]; cbn [negb].
  2:{ exists false. split; auto. split; [discriminate|tauto]. }
  rewrite (mi_rows _ _ _ _ Ha), (mi_cols _ _ _ _ Ha).
  eapply decides_iff.
  - apply rall_decides with (t := fun i => forall j, 0 <= j < ca -> within d (fa i j) (fb i j)). intros i Hi.
    apply rall_decides. intros j Hj. eapply decides_get2; eauto; lia.
  - split.
    + intros H. conjs; auto. intros i j Hi Hj. apply H; lia.
    + intros (_ & _ & H) i Hi j Hj. apply H; lia.
Qed.

(*@ C13_vector_equal *)
Lemma l_v_equal :
  forall (A : Arith) (a b : Vec T) (n k : nat) (fa fb : nat -> T) (d : T),
  vec_is a n fa -> vec_is b k fb ->
  decides (v_is_equal_to a b d) (n = k /\ forall i, i < n -> within d (fa i) (fb i)).
Proof.
  intros A a b n k fa fb d Ha Hb. unfold v_is_equal_to.
  rewrite (v_same_ok _ _ _ _ _ _ Ha Hb). cbn [rbind].
  destruct (Nat.eqb_spec n k) as [<-|Hr]; cbn [negb].
  2:{ exists false. split; auto. split; [discriminate|tauto]. }
  rewrite (vi_rows _ _ _ Ha).
  eapply decides_iff.
  - apply rall_decides with (t := fun i => within d (fa i) (fb i)). intros i Hi.
    rewrite (vi_get _ _ _ Ha), (vi_get _ _ _ Hb) by lia. cbn [rbind].
    apply allclose_ok; eapply vec_is_valid; eauto; lia.
  - split.
    + intros H. conjs; auto. intros i Hi. apply H; lia.
    + intros (_ & H) i Hi. apply H; lia.
Qed.

(*@ C13_symmetric *)
Lemma l_symmetric :
  forall (A : Arith) (m : Mat T) (r c : nat) (f : nat -> nat -> T), mat_is m r c f ->
  decides (m_is_symmetric m)
    (r = c /\ forall i j, i < r -> j < r -> within EPSILON (f i j) (f j i)).
Proof.
  intros A m r c f Hm. unfold m_is_symmetric. rewrite (m_is_square_is _ _ _ _ Hm). cbn [rbind].
  destruct (Nat.eqb_spec r c) as [<-|Hr]; cbn [negb].
  2:{ exists false. split; auto. split; [discriminate|tauto]. }
  rewrite (mi_rows _ _ _ _ Hm), (mi_cols _ _ _ _ Hm).
  eapply decides_iff.
  - apply rall_decides with (t := fun i => forall j, 0 <= j < r -> within EPSILON (f i j) (f j i)). intros i Hi.
    apply rall_decides. intros j Hj. eapply decides_get2; eauto; lia.
  - split.
    + intros H. conjs; auto. intros i j Hi Hj. apply H; lia.
    + intros (_ & H) i Hi j Hj. apply H; lia.
Qed.

(*@ C13_upper_triangular *)
(** C13: [is_upper_triangular] when there is no row below the last column's one *)
Lemma l_upper :
  forall (A : Arith) (OK : ArithOk A) (m : Mat T) (r c : nat) (f : nat -> nat -> T), mat_is m r c f -> r <= c + 1 ->
  decides (m_is_upper_triangular m)
    (forall i j, i < r -> j < c -> j < i -> within EPSILON (f i j) f0).
Proof.
  intros A OK m r c f Hm Hr. unfold m_is_upper_triangular. rewrite (mi_rows _ _ _ _ Hm).
  eapply decides_iff.
  - apply rall_decides with (t := fun i => forall j, 0 <= j < i -> within EPSILON (f i j) f0). intros i Hi.
    apply rall_decides. intros j Hj. eapply decides_get1; eauto; try lia. apply ok_f0.
  - split.
    + intros H i j Hi Hj Hij. apply H; lia.
    + intros H i Hi j Hj. apply H; lia.
Qed.

(*@ C13_upper_triangular_tall *)
(** C13: on a taller matrix the answer is never yes: it is no, or InvalidCol when all the
    elements inspected before running off the last column are close to zero. *)
Lemma l_upper_tall :
  forall (A : Arith) (OK : ArithOk A) (m : Mat T) (r c : nat) (f : nat -> nat -> T), mat_is m r c f -> c + 1 < r ->
  (m_is_upper_triangular m = Err InvalidCol /\
    (forall i j, i <= c + 1 -> j < c -> j < i -> within EPSILON (f i j) f0)) \/
  (m_is_upper_triangular m = Ok false /\
    exists i j, i <= c + 1 /\ j < c /\ j < i /\ ~ within EPSILON (f i j) f0).
Proof.
  intros A OK m r c f Hm Hr. unfold m_is_upper_triangular. rewrite (mi_rows _ _ _ _ Hm).
  rewrite (range_split 1 (c + 1) r) by lia. rewrite rall_app.
  destruct (rall_decides (E := LinalgError) (fun row => rall (range 0 row) (fun col =>
       let? a := m_get m row col in allclose_l a f0 EPSILON))
       (fun i => forall j, 0 <= j < i -> within EPSILON (f i j) f0) 1 (c + 1)) as (b1 & E1 & H1).
  { intros i Hi. apply rall_decides. intros j Hj. eapply decides_get1; eauto; try lia. apply ok_f0. }
  rewrite E1. cbn [rbind]. destruct b1.
  2:{ right. split; auto.
      assert (N : ~ forall i, 1 <= i < c + 1 -> forall j, 0 <= j < i -> within EPSILON (f i j) f0).
      { intros H. apply H1 in H. discriminate. }
      clear -N. assert (D : forall i n, (forall j, j < n -> within EPSILON (f i j) f0) \/ exists j, j < n /\ ~ within EPSILON (f i j) f0).
      { intros i n. induction n as [|n [IH|(j & Hj & H)]]; [left; lia| |right; exists j; auto].
        destruct (bool_dec (fabs (f i n - f0) <=? EPSILON)%F true) as [Y|Y].
        - left. intros j Hj. destruct (Nat.eq_dec j n) as [->|]; auto. apply IH. lia.
        - right. exists n. auto. }
      assert (D2 : forall n, (forall i, i < n -> forall j, j < i -> within EPSILON (f i j) f0) \/
                   exists i j, i < n /\ j < i /\ ~ within EPSILON (f i j) f0).
      { intros n. induction n as [|n [IH|(i & j & Hi & Hj & H)]]; [left; lia| |right; exists i, j; auto].
        destruct (D n n) as [Y|(j & Hj & Y)].
        - left. intros i Hi. destruct (Nat.eq_dec i n) as [->|]; auto. apply IH. lia.
        - right. exists n, j. auto. }
      destruct (D2 (c + 1)) as [Y|(i & j & Hi & Hj & H)].
      - destruct N. intros i Hi j Hj. apply Y; lia.
      - exists i, j. conjs; auto; lia. }
  assert (K : forall i, 1 <= i < c + 1 -> forall j, 0 <= j < i -> within EPSILON (f i j) f0) by (apply H1; auto).
  rewrite range_cons by lia. cbn [rall].
  rewrite (range_split 0 c (c + 1)) by lia. rewrite rall_app.
  destruct (rall_decides (E := LinalgError) (fun col => let? a := m_get m (c + 1) col in allclose_l a f0 EPSILON)
     (fun j => within EPSILON (f (c + 1) j) f0) 0 c) as (b2 & E2 & H2).
  { intros j Hj. eapply decides_get1; eauto; try lia. apply ok_f0. }
  rewrite E2. cbn [rbind]. destruct b2.
  - left. rewrite range_cons by lia. cbn [rall].
    assert (m_get m (c + 1) c = Err InvalidCol) as ->.
    { unfold m_get, is_valid_row, is_valid_col.
      rewrite (mi_init _ _ _ _ Hm), (mi_rows _ _ _ _ Hm), (mi_cols _ _ _ _ Hm). cbn [negb].
      destruct (Nat.leb_spec r (c + 1)); [lia|]. cbn [negb rbind]. rewrite Nat.leb_refl. reflexivity. }
    split; [reflexivity|]. intros i j Hi Hj Hij.
    destruct (Nat.eq_dec i (c + 1)) as [->|].
    + apply H2; auto; lia.
    + apply K; lia.
  - right. split; [reflexivity|].
    assert (N : ~ forall j, 0 <= j < c -> within EPSILON (f (c + 1) j) f0).
    { intros H. apply H2 in H. discriminate. }
    assert (D : forall n, (forall j, j < n -> within EPSILON (f (c + 1) j) f0) \/ exists j, j < n /\ ~ within EPSILON (f (c + 1) j) f0).
    { intros n. induction n as [|n [IH|(j & Hj & H)]]; [left; lia| |right; exists j; auto].
      destruct (bool_dec (fabs (f (c + 1)%nat n - f0) <=? EPSILON)%F true) as [Y|Y].
      - left. intros j Hj. destruct (Nat.eq_dec j n) as [->|]; auto. apply IH. lia.
      - right. exists n. auto. }
    destruct (D c) as [Y|(j & Hj & Y)]; [destruct N; intros; apply Y; lia|].
    exists (c + 1), j. conjs; auto; lia.
Qed.

(*@ C13_lower_triangular *)
Lemma l_lower :
  forall (A : Arith) (OK : ArithOk A) (ck : bool) (m : Mat T) (r c : nat) (f : nat -> nat -> T), mat_is m r c f ->
  decides (m_is_lower_triangular ck m)
    (forall i j, i < r -> j < c -> i < j -> i + 1 < r -> within EPSILON (f i j) f0).
Proof.
  intros A OK ck m r c f Hm. unfold m_is_lower_triangular. rewrite (mi_rows _ _ _ _ Hm), (mi_cols _ _ _ _ Hm).
  destruct (mat_is_dim _ _ _ _ Hm) as [Dr Dc]. unfold u8_sub. destruct (Nat.leb_spec 1 r) as [_|]; [|lia]. cbn [rbind].
  eapply decides_iff.
  - apply rall_decides with (t := fun i => forall j, i + 1 <= j < c -> within EPSILON (f i j) f0). intros i Hi.
    apply rall_decides. intros j Hj. eapply decides_get1; eauto; try lia. apply ok_f0.
  - split.
    + intros H i j Hi Hj Hij Hl. apply H; lia.
    + intros H i Hi j Hj. apply H; lia.
Qed.

(*@ C13_allclose_symmetric *)
(** C13: [allclose] does not depend on the order of its operands (bit-exact f32). *)
Lemma l_close_sym :
  forall (lm : Libm), let A := F32 lm in forall (x y d : T),
  valid x -> valid y -> allclose x y d = allclose y x d.
Proof.
  intros lm A x y d Hx Hy. unfold allclose. rewrite !is_valid_value_ok by auto. cbn [rbind].
  change (@fabs A (@fsub A x y)) with (Babs (Bminus mode_NE (x : f32) y)).
  rewrite Babs_Bminus_sym by (apply (valid_finite lm); auto). reflexivity.
Qed.

(*@ C13_allclose_reflexive *)
(** C13: a finite float is within any non-negative tolerance of itself. *)
Lemma l_close_refl :
  forall (lm : Libm), let A := F32 lm in forall (x d : T),
  valid x -> (f0 <=? d)%F = true -> allclose x x d = Ok true.
Proof.
  intros lm A x d Hx Hd. unfold allclose. rewrite !is_valid_value_ok by auto. cbn [rbind].
  change (@fabs A (@fsub A x x)) with (Babs (Bminus mode_NE (x : f32) x)).
  rewrite Bminus_diag by (apply (valid_finite lm); auto). f_equal. exact Hd.
Qed.

(*@ C13_tall_zero_refuted *)
(** C13: a zero column matrix with three rows is not recognised as upper triangular. *)
Lemma l_tall_zero :
  forall (lm : Libm), exists (m : Mat (T (Arith := F32 lm))),
  mat_is m 3 1 (fun _ _ => f0) /\ m_is_upper_triangular m = Err InvalidCol.
Proof.
  intros lm. destruct (m_init_new (A := F32 lm) 3 1) as (m & _ & H); try lia. exists m. split; [exact H|].
  destruct (l_upper_tall (F32 lm) _ m 3 1 _ H) as [[E _]|[_ (i & j & Hi & Hj & Hij & N)]]; [lia|exact E|].
  destruct N. vm_compute. reflexivity.
Qed.

(*@ C13_lower_wide_refuted *)
(** C13: the last row is never inspected by [is_lower_triangular]: a wide matrix with a
    nonzero element right of the diagonal in its last row is called lower triangular. *)
Lemma l_lower_wide :
  forall (lm : Libm) (ck : bool), exists (m : Mat (T (Arith := F32 lm))),
  wfm m /\ m_get m 0 1 = Ok f1 /\ m_is_lower_triangular ck m = Ok true.
Proof.
  intros lm ck. exists (mk_mat (A := F32 lm) 1 2 [z32 1; z32 1]).
  split; [apply wfm_b_ok; vm_compute; reflexivity|]. split; [reflexivity|]. destruct ck; reflexivity.
Qed.

(*@ example *)
Example C13_example :
  let A := F32 lm_id in
  let u := mk_mat 2 2 (map z32 [1; 2; 0; 3]%Z) in
  let v := mk_mat 2 2 [z32 1; z32 2; lit32 1 20000; z32 3] in
  wfm u /\ wfm v /\ m_is_upper_triangular u = Ok true /\ m_is_lower_triangular true u = Ok false /\
  m_is_equal_to u v (lit32 1 10000) = Ok true /\ m_is_equal_to u v (lit32 1 30000) = Ok false /\
  m_is_symmetric u = Ok false.
Proof.
  cbv zeta. split; [apply wfm_b_ok; vm_compute; reflexivity|].
  split; [apply wfm_b_ok; vm_compute; reflexivity|].
  repeat (split; [vm_compute; reflexivity|]). vm_compute; reflexivity.
Qed.
