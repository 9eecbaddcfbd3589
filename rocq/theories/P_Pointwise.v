(** C08: element-wise operations. *)
(*@+*)
From Coq Require Import List Arith ZArith Lia Bool.
From Flocq Require Import BinarySingleNaN.
From Verif Require Import M_Base M_Arith M_Utils M_Vector M_Matrix M_F32 S_Spec P_Inst.
Import ListNotations.
(*@-*)
From Verif Require Import P_Hoare P_Cont P_Loops.

Section Aux.
  Context {A : Arith}.

  Lemma exec_pointwise_m m r c f g cmd : pointwise_m r c f g (cmd m) ->
    pointwise_mnew r c g (exec cmd m).
  Proof.
    unfold pointwise_m, pointwise_mnew, exec. destruct (cmd m) as [m' o]; cbn.
    intros [(H & -> & Hm)|(i & j & k & Hi & Hj & Hb & Hv & -> & Hm)].
    - left. eauto.
    - right. exists i, j, k. auto 10.
  Qed.
  Lemma exec_pointwise_v v n f g cmd : pointwise_v n f g (cmd v) ->
    pointwise_vnew n g (exec cmd v).
  Proof.
    unfold pointwise_v, pointwise_vnew, exec. destruct (cmd v) as [v' o]; cbn.
    intros [(H & -> & Hv)|(i & k & Hi & Hb & Hv & -> & Hm)].
    - left. eauto.
    - right. exists i, k. auto 10.
  Qed.
  Lemma bind_step {S E B} (c : ST S E unit) (k : ST S E B) s s' :
    c s = (s', Ok tt) -> (c ;;! k) s = k s'.
  Proof. intros H. unfold sbind. rewrite H. reflexivity. Qed.
  Lemma exec_step {S E} (c k : ST S E unit) s s' :
    c s = (s', Ok tt) -> exec (c ;;! k) s = exec k s'.
  Proof. intros H. unfold exec. rewrite (bind_step _ _ _ _ H). reflexivity. Qed.

  (** the new content after an element-wise operation reads two operands *)
  Ltac g2 := match goal with
    | |- pointwise_m _ _ _ _ ((m_guard_same2 _ _ ;;! _) _) =>
        rewrite (guard_bind (m_guard_same2 _ _)) by (eapply guard_same2_ok; eauto)
    | |- pointwise_m _ _ _ _ ((m_guard_same _ ;;! _) _) =>
        rewrite (guard_bind (m_guard_same _)) by (eapply guard_same_ok; eauto)
    | |- pointwise_v _ _ _ ((v_guard_same2 _ _ ;;! _) _) =>
        rewrite (guard_bind (v_guard_same2 _ _)) by (eapply vguard_same2_ok; eauto)
    | |- pointwise_v _ _ _ ((v_guard_same _ ;;! _) _) =>
        rewrite (guard_bind (v_guard_same _)) by (eapply vguard_same_ok; eauto)
    | |- _ => idtac end;
    first [eapply m_loop_pointwise | eapply v_loop_pointwise]; eauto.
  Ltac cell :=
    repeat match goal with
    | H : mat_is ?m ?r ?c ?f |- context [m_get ?m ?i ?j] => rewrite (mi_get m r c f H i j) by auto
    | H : vec_is ?m ?r ?f |- context [v_get ?m ?i] => rewrite (vi_get m r f H i) by auto
    end; cbn [rbind]; congruence.

  Section M.
    Context (m a b : Mat T) (r c : nat) (f fa fb : nat -> nat -> T).
    Hypothesis (Hm : mat_is m r c f) (Ha : mat_is a r c fa) (Hb : mat_is b r c fb).

    Lemma m_fill_pw x : pointwise_m r c f (fun _ _ => x) (m_fill x m).
    Proof. unfold m_fill. g2. Qed.
    Lemma m_copy_from_pw : pointwise_m r c f fa (m_copy_from a m).
    Proof. unfold m_copy_from. g2. intros; cell. Qed.
    Lemma m_add_pw : pointwise_m r c f (fun i j => fa i j + fb i j)%F (m_add a b m).
    Proof. unfold m_add. g2. intros; cell. Qed.
    Lemma m_sub_pw : pointwise_m r c f (fun i j => fa i j - fb i j)%F (m_sub a b m).
    Proof. unfold m_sub. g2. intros; cell. Qed.
    Lemma m_add_scalar_pw x : pointwise_m r c f (fun i j => fa i j + x)%F (m_add_scalar a x m).
    Proof. unfold m_add_scalar. g2. intros; cell. Qed.
    Lemma m_sub_scalar_pw x : pointwise_m r c f (fun i j => fa i j - x)%F (m_sub_scalar a x m).
    Proof. unfold m_sub_scalar. g2. intros; cell. Qed.
    Lemma m_add_in_place_pw : pointwise_m r c f (fun i j => f i j + fa i j)%F (m_add_in_place a m).
    Proof. unfold m_add_in_place. g2. intros; cell. Qed.
    Lemma m_sub_in_place_pw : pointwise_m r c f (fun i j => f i j - fa i j)%F (m_sub_in_place a m).
    Proof. unfold m_sub_in_place. g2. intros; cell. Qed.
    Lemma m_add_scalar_in_place_pw x : pointwise_m r c f (fun i j => f i j + x)%F (m_add_scalar_in_place x m).
    Proof. unfold m_add_scalar_in_place. g2. intros; cell. Qed.
    Lemma m_sub_scalar_in_place_pw x : pointwise_m r c f (fun i j => f i j - x)%F (m_sub_scalar_in_place x m).
    Proof. unfold m_sub_scalar_in_place. g2. intros; cell. Qed.
    Lemma m_mul_by_scalar_in_place_pw x : pointwise_m r c f (fun i j => f i j * x)%F (m_mul_by_scalar_in_place x m).
    Proof. unfold m_mul_by_scalar_in_place. g2. intros; cell. Qed.
    Lemma m_power_elements_pw x : pointwise_m r c f (fun i j => fpow (f i j) x) (m_power_elements x m).
    Proof. unfold m_power_elements. g2. intros; cell. Qed.

    Context {OK : ArithOk A}.
    Ltac fresh_m :=
      destruct (mat_is_dim _ _ _ _ Ha) as [Dr Dc];
      destruct (m_init_new r c Dr Dc) as (m0 & E0 & H0);
      rewrite ?(mi_init _ _ _ _ Ha), (mi_rows _ _ _ _ Ha), (mi_cols _ _ _ _ Ha); cbn [negb rbind];
      rewrite (exec_step _ _ _ _ E0); eapply exec_pointwise_m.
    Lemma m_add_new_pw : pointwise_mnew r c (fun i j => fa i j + fb i j)%F (m_add_new a b).
    Proof.
      unfold m_add_new. rewrite (m_same_ok _ _ _ _ _ _ _ _ Ha Hb), !Nat.eqb_refl. cbn [andb negb rbind].
      fresh_m. unfold m_add. g2. intros; cell.
    Qed.
    Lemma m_sub_new_pw : pointwise_mnew r c (fun i j => fa i j - fb i j)%F (m_sub_new a b).
    Proof.
      unfold m_sub_new. rewrite (m_same_ok _ _ _ _ _ _ _ _ Ha Hb), !Nat.eqb_refl. cbn [andb negb rbind].
      fresh_m. unfold m_sub. g2. intros; cell.
    Qed.
    Lemma m_add_scalar_new_pw x : pointwise_mnew r c (fun i j => fa i j + x)%F (m_add_scalar_new a x).
    Proof. unfold m_add_scalar_new. fresh_m. g2. intros; cell. Qed.
    Lemma m_sub_scalar_new_pw x : pointwise_mnew r c (fun i j => fa i j - x)%F (m_sub_scalar_new a x).
    Proof. unfold m_sub_scalar_new. fresh_m. unfold m_sub_scalar. g2. intros; cell. Qed.
    Lemma m_duplicate_pw : pointwise_mnew r c fa (m_duplicate a).
    Proof. unfold m_duplicate. fresh_m. unfold m_copy_from. g2. intros; cell. Qed.
  End M.

  Section V.
    Context (m a b : Vec T) (n : nat) (f fa fb : nat -> T).
    Hypothesis (Hm : vec_is m n f) (Ha : vec_is a n fa) (Hb : vec_is b n fb).

    Lemma v_fill_is_loop x v : v_fill x v = v_loop (fun _ _ => Ok x) v.
    Proof. reflexivity. Qed.
    Lemma v_fill_pw x : pointwise_v n f (fun _ => x) (v_fill x m).
    Proof. rewrite v_fill_is_loop. g2. Qed.
    Lemma v_copy_from_pw : pointwise_v n f fa (v_copy_from a m).
    Proof. unfold v_copy_from. g2. intros; cell. Qed.
    Lemma v_add_pw : pointwise_v n f (fun i => fa i + fb i)%F (v_add a b m).
    Proof. unfold v_add. g2. intros; cell. Qed.
    Lemma v_sub_pw : pointwise_v n f (fun i => fa i - fb i)%F (v_sub a b m).
    Proof. unfold v_sub. g2. intros; cell. Qed.
    Lemma v_add_scalar_pw x : pointwise_v n f (fun i => fa i + x)%F (v_add_scalar a x m).
    Proof. unfold v_add_scalar. g2. intros; cell. Qed.
    Lemma v_sub_scalar_pw x : pointwise_v n f (fun i => fa i - x)%F (v_sub_scalar a x m).
    Proof. unfold v_sub_scalar. g2. intros; cell. Qed.
    Lemma v_mul_by_scalar_pw x : pointwise_v n f (fun i => fa i * x)%F (v_mul_by_scalar a x m).
    Proof. unfold v_mul_by_scalar. g2. intros; cell. Qed.
    Lemma v_add_in_place_pw : pointwise_v n f (fun i => f i + fa i)%F (v_add_in_place a m).
    Proof. unfold v_add_in_place. g2. intros; cell. Qed.
    Lemma v_sub_in_place_pw : pointwise_v n f (fun i => f i - fa i)%F (v_sub_in_place a m).
    Proof. unfold v_sub_in_place. g2. intros; cell. Qed.
    Lemma v_add_scalar_in_place_pw x : pointwise_v n f (fun i => f i + x)%F (v_add_scalar_in_place x m).
    Proof. unfold v_add_scalar_in_place. g2. intros; cell. Qed.
    Lemma v_sub_scalar_in_place_pw x : pointwise_v n f (fun i => f i - x)%F (v_sub_scalar_in_place x m).
    Proof. unfold v_sub_scalar_in_place. g2. intros; cell. Qed.
    Lemma v_mul_by_scalar_in_place_pw x : pointwise_v n f (fun i => f i * x)%F (v_mul_by_scalar_in_place x m).
    Proof. unfold v_mul_by_scalar_in_place. g2. intros; cell. Qed.
    Lemma v_power_elements_pw x : pointwise_v n f (fun i => fpow (f i) x) (v_power_elements x m).
    Proof. unfold v_power_elements. g2. intros; cell. Qed.

    Context {OK : ArithOk A}.
    Ltac fresh_v :=
      pose proof (vec_is_dim _ _ _ Ha) as Dn;
      destruct (v_init_new n Dn) as (m0 & E0 & H0);
      rewrite ?(vi_init _ _ _ Ha), (vi_rows _ _ _ Ha); cbn [negb rbind];
      rewrite (exec_step _ _ _ _ E0); eapply exec_pointwise_v.
    Lemma v_add_new_pw : pointwise_vnew n (fun i => fa i + fb i)%F (v_add_new a b).
    Proof.
      unfold v_add_new. rewrite (v_same_ok _ _ _ _ _ _ Ha Hb), !Nat.eqb_refl. cbn [andb negb rbind].
      fresh_v. unfold v_add. g2. intros; cell.
    Qed.
    Lemma v_sub_new_pw : pointwise_vnew n (fun i => fa i - fb i)%F (v_sub_new a b).
    Proof.
      unfold v_sub_new. rewrite (v_same_ok _ _ _ _ _ _ Ha Hb), !Nat.eqb_refl. cbn [andb negb rbind].
      fresh_v. unfold v_sub. g2. intros; cell.
    Qed.
    Lemma v_add_scalar_new_pw x : pointwise_vnew n (fun i => fa i + x)%F (v_add_scalar_new a x).
    Proof. unfold v_add_scalar_new. fresh_v. unfold v_add_scalar. g2. intros; cell. Qed.
    Lemma v_sub_scalar_new_pw x : pointwise_vnew n (fun i => fa i - x)%F (v_sub_scalar_new a x).
    Proof. unfold v_sub_scalar_new. fresh_v. unfold v_sub_scalar. g2. intros; cell. Qed.
    Lemma v_mul_by_scalar_new_pw x : pointwise_vnew n (fun i => fa i * x)%F (v_mul_by_scalar_new a x).
    Proof. unfold v_mul_by_scalar_new. fresh_v. unfold v_mul_by_scalar. g2. intros; cell. Qed.
    Lemma v_duplicate_pw : pointwise_vnew n fa (v_duplicate a).
    Proof. unfold v_duplicate. fresh_v. unfold v_copy_from. g2. intros; cell. Qed.
  End V.
End Aux.

(*@ C08_matrix_out_of_place *)
(** C08: the matrix operations that overwrite [m] (content [f]) with a combination of
    operands [a], [b] of the same size. *)
Lemma l_matrix_out_of_place :
  forall (A : Arith) (m a b : Mat T) (r c : nat) (f fa fb : nat -> nat -> T),
  mat_is m r c f -> mat_is a r c fa -> mat_is b r c fb -> forall (x : T),
  pointwise_m r c f (fun _ _ => x) (m_fill x m) /\
  pointwise_m r c f (fun i j => fa i j) (m_copy_from a m) /\
  pointwise_m r c f (fun i j => fa i j + fb i j)%F (m_add a b m) /\
  pointwise_m r c f (fun i j => fa i j - fb i j)%F (m_sub a b m) /\
  pointwise_m r c f (fun i j => fa i j + x)%F (m_add_scalar a x m) /\
  pointwise_m r c f (fun i j => fa i j - x)%F (m_sub_scalar a x m).
Proof.
  intros A m a b r c f fa fb Hm Ha Hb x.
  conjs; eauto using m_fill_pw, m_copy_from_pw, m_add_pw, m_sub_pw, m_add_scalar_pw, m_sub_scalar_pw.
Qed.

(*@ C08_matrix_in_place *)
(** C08: the in-place matrix operations. *)
Lemma l_matrix_in_place :
  forall (A : Arith) (m a : Mat T) (r c : nat) (f fa : nat -> nat -> T),
  mat_is m r c f -> mat_is a r c fa -> forall (x : T),
  pointwise_m r c f (fun i j => f i j + fa i j)%F (m_add_in_place a m) /\
  pointwise_m r c f (fun i j => f i j - fa i j)%F (m_sub_in_place a m) /\
  pointwise_m r c f (fun i j => f i j + x)%F (m_add_scalar_in_place x m) /\
  pointwise_m r c f (fun i j => f i j - x)%F (m_sub_scalar_in_place x m) /\
  pointwise_m r c f (fun i j => f i j * x)%F (m_mul_by_scalar_in_place x m) /\
  pointwise_m r c f (fun i j => fpow (f i j) x) (m_power_elements x m).
Proof.
  intros A m a r c f fa Hm Ha x.
  conjs; eauto using m_add_in_place_pw, m_sub_in_place_pw, m_add_scalar_in_place_pw,
    m_sub_scalar_in_place_pw, m_mul_by_scalar_in_place_pw, m_power_elements_pw.
Qed.

(*@ C08_matrix_new *)
(** C08: the matrix operations that return a new object. *)
Lemma l_matrix_new :
  forall (A : Arith) (OK : ArithOk A) (a b : Mat T) (r c : nat) (fa fb : nat -> nat -> T),
  mat_is a r c fa -> mat_is b r c fb -> forall (x : T),
  pointwise_mnew r c (fun i j => fa i j + fb i j)%F (m_add_new a b) /\
  pointwise_mnew r c (fun i j => fa i j - fb i j)%F (m_sub_new a b) /\
  pointwise_mnew r c (fun i j => fa i j + x)%F (m_add_scalar_new a x) /\
  pointwise_mnew r c (fun i j => fa i j - x)%F (m_sub_scalar_new a x) /\
  exists d, m_duplicate a = Ok d /\ mat_is d r c fa.
Proof.
  intros A OK a b r c fa fb Ha Hb x.
  conjs; eauto using m_add_new_pw, m_sub_new_pw, m_add_scalar_new_pw, m_sub_scalar_new_pw.
  destruct (m_duplicate_pw a r c fa Ha) as [[_ H]|(i & j & k & Hi & Hj & Hk & _)]; auto.
  apply bad_Some_not in Hk. destruct Hk. eapply mat_is_valid; eauto.
Qed.

(*@ C08_vector_out_of_place *)
Lemma l_vector_out_of_place :
  forall (A : Arith) (v a b : Vec T) (n : nat) (f fa fb : nat -> T),
  vec_is v n f -> vec_is a n fa -> vec_is b n fb -> forall (x : T),
  pointwise_v n f (fun _ => x) (v_fill x v) /\
  pointwise_v n f (fun i => fa i) (v_copy_from a v) /\
  pointwise_v n f (fun i => fa i + fb i)%F (v_add a b v) /\
  pointwise_v n f (fun i => fa i - fb i)%F (v_sub a b v) /\
  pointwise_v n f (fun i => fa i + x)%F (v_add_scalar a x v) /\
  pointwise_v n f (fun i => fa i - x)%F (v_sub_scalar a x v) /\
  pointwise_v n f (fun i => fa i * x)%F (v_mul_by_scalar a x v).
Proof.
  intros A m a b n f fa fb Hm Ha Hb x.
  conjs; eauto using v_fill_pw, v_copy_from_pw, v_add_pw, v_sub_pw, v_add_scalar_pw, v_sub_scalar_pw, v_mul_by_scalar_pw.
Qed.

(*@ C08_vector_in_place *)
Lemma l_vector_in_place :
  forall (A : Arith) (v a : Vec T) (n : nat) (f fa : nat -> T),
  vec_is v n f -> vec_is a n fa -> forall (x : T),
  pointwise_v n f (fun i => f i + fa i)%F (v_add_in_place a v) /\
  pointwise_v n f (fun i => f i - fa i)%F (v_sub_in_place a v) /\
  pointwise_v n f (fun i => f i + x)%F (v_add_scalar_in_place x v) /\
  pointwise_v n f (fun i => f i - x)%F (v_sub_scalar_in_place x v) /\
  pointwise_v n f (fun i => f i * x)%F (v_mul_by_scalar_in_place x v) /\
  pointwise_v n f (fun i => fpow (f i) x) (v_power_elements x v).
Proof.
  intros A m a n f fa Hm Ha x.
  conjs; eauto using v_add_in_place_pw, v_sub_in_place_pw, v_add_scalar_in_place_pw,
    v_sub_scalar_in_place_pw, v_mul_by_scalar_in_place_pw, v_power_elements_pw.
Qed.

(*@ C08_vector_new *)
Lemma l_vector_new :
  forall (A : Arith) (OK : ArithOk A) (a b : Vec T) (n : nat) (fa fb : nat -> T),
  vec_is a n fa -> vec_is b n fb -> forall (x : T),
  pointwise_vnew n (fun i => fa i + fb i)%F (v_add_new a b) /\
  pointwise_vnew n (fun i => fa i - fb i)%F (v_sub_new a b) /\
  pointwise_vnew n (fun i => fa i + x)%F (v_add_scalar_new a x) /\
  pointwise_vnew n (fun i => fa i - x)%F (v_sub_scalar_new a x) /\
  pointwise_vnew n (fun i => fa i * x)%F (v_mul_by_scalar_new a x) /\
  exists d, v_duplicate a = Ok d /\ vec_is d n fa.
Proof.
  intros A OK a b n fa fb Ha Hb x.
  conjs; eauto using v_add_new_pw, v_sub_new_pw, v_add_scalar_new_pw, v_sub_scalar_new_pw, v_mul_by_scalar_new_pw.
  destruct (v_duplicate_pw a n fa Ha) as [[_ H]|(i & k & Hi & Hk & _)]; auto.
  apply bad_Some_not in Hk. destruct Hk. eapply vec_is_valid; eauto.
Qed.

(*@ C08_size_mismatch_matrix *)
(** C08: operands of different sizes are rejected and nothing is written. *)
Lemma l_mismatch_m :
  forall (A : Arith) (m a b : Mat T) (r c ra ca rb cb : nat) (f fa fb : nat -> nat -> T),
  mat_is m r c f -> mat_is a ra ca fa -> mat_is b rb cb fb -> forall (x : T),
  ((r, c) <> (ra, ca) ->
     m_copy_from a m = (m, Err NotSameSize) /\ m_add_scalar a x m = (m, Err NotSameSize) /\
     m_sub_scalar a x m = (m, Err NotSameSize) /\ m_add_in_place a m = (m, Err NotSameSize) /\
     m_sub_in_place a m = (m, Err NotSameSize) /\
     m_add_new m a = Err NotSameSize /\ m_sub_new m a = Err NotSameSize) /\
  ((r, c) <> (ra, ca) \/ (r, c) <> (rb, cb) ->
     m_add a b m = (m, Err NotSameSize) /\ m_sub a b m = (m, Err NotSameSize)).
Proof.
  intros A m a b r c ra ca rb cb f fa fb Hm Ha Hb x.
  assert (N : forall r c ra ca : nat, (r, c) <> (ra, ca) -> (r =? ra) && (c =? ca) = false).
  { intros r0 c0 r1 c1 H. destruct (Nat.eqb_spec r0 r1), (Nat.eqb_spec c0 c1); subst; cbn; congruence. }
  pose proof (m_same_ok _ _ _ _ _ _ _ _ Hm Ha) as Sa. pose proof (m_same_ok _ _ _ _ _ _ _ _ Hm Hb) as Sb.
  split.
  - intros H. rewrite (N _ _ _ _ H) in Sa.
    assert (G : m_guard_same a m = (m, Err NotSameSize)).
    { unfold m_guard_same, sbind, lift. rewrite Sa. reflexivity. }
    unfold m_copy_from, m_add_scalar, m_sub_scalar, m_add_in_place, m_sub_in_place, m_add_new, m_sub_new.
    unfold sbind. rewrite G, Sa. conjs; reflexivity.
  - intros H.
    assert (G : m_guard_same2 a b m = (m, Err NotSameSize)).
    { unfold m_guard_same2, sbind, lift. rewrite Sa, Sb.
      destruct ((r =? ra) && (c =? ca)) eqn:E; cbn; [|reflexivity].
      destruct H as [H|H].
      - rewrite (N _ _ _ _ H) in E. discriminate.
      - rewrite (N _ _ _ _ H). reflexivity. }
    unfold m_add, m_sub, sbind. rewrite G. split; reflexivity.
Qed.

(*@ C08_size_mismatch_vector *)
Lemma l_mismatch_v :
  forall (A : Arith) (v a b : Vec T) (n na nb : nat) (f fa fb : nat -> T),
  vec_is v n f -> vec_is a na fa -> vec_is b nb fb -> forall (x : T),
  (n <> na ->
     v_copy_from a v = (v, Err NotSameSize) /\ v_add_scalar a x v = (v, Err NotSameSize) /\
     v_sub_scalar a x v = (v, Err NotSameSize) /\ v_mul_by_scalar a x v = (v, Err NotSameSize) /\
     v_add_in_place a v = (v, Err NotSameSize) /\ v_sub_in_place a v = (v, Err NotSameSize) /\
     v_add_new v a = Err NotSameSize /\ v_sub_new v a = Err NotSameSize) /\
  (n <> na \/ n <> nb ->
     v_add a b v = (v, Err NotSameSize) /\ v_sub a b v = (v, Err NotSameSize)).
Proof.
  intros A m a b n na nb f fa fb Hm Ha Hb x.
  pose proof (v_same_ok _ _ _ _ _ _ Hm Ha) as Sa. pose proof (v_same_ok _ _ _ _ _ _ Hm Hb) as Sb.
  split.
  - intros H. destruct (Nat.eqb_spec n na) as [|_]; [congruence|].
    assert (G : v_guard_same a m = (m, Err NotSameSize)).
    { unfold v_guard_same, sbind, lift. rewrite Sa. reflexivity. }
    unfold v_copy_from, v_add_scalar, v_sub_scalar, v_mul_by_scalar, v_add_in_place, v_sub_in_place, v_add_new, v_sub_new.
    unfold sbind. rewrite G, Sa. conjs; reflexivity.
  - intros H.
    assert (G : v_guard_same2 a b m = (m, Err NotSameSize)).
    { unfold v_guard_same2, sbind, lift. rewrite Sa, Sb.
      destruct (Nat.eqb_spec n na); cbn; [|reflexivity].
      destruct H as [H|H]; [congruence|].
      destruct (Nat.eqb_spec n nb); [congruence|reflexivity]. }
    unfold v_add, v_sub, sbind. rewrite G. split; reflexivity.
Qed.

(*@ C08_variants_agree *)
(** C08: the plain, in-place and [*_new] variants write the same elements, whenever one of
    them succeeds. *)
Lemma l_variants :
  forall (A : Arith) (OK : ArithOk A) (a b d : Mat T) (r c : nat) (fa fb fd : nat -> nat -> T),
  mat_is a r c fa -> mat_is b r c fb -> mat_is d r c fd -> forall d',
  m_add a b d = (d', Ok tt) ->
  exists a' n, m_add_in_place b a = (a', Ok tt) /\ m_add_new a b = Ok n /\
    forall i j, i < r -> j < c -> m_get a' i j = m_get d' i j /\ m_get n i j = m_get d' i j.
Proof.
  intros A OK a b d r c fa fb fd Ha Hb Hd d' E.
  pose proof (m_add_pw d a b r c fd fa fb Hd Ha Hb) as H. rewrite E in H.
  destruct H as [(Hv & _ & Hd')|(i & j & k & _ & _ & _ & _ & E' & _)]; [|discriminate]. cbn in Hd'.
  pose proof (m_add_in_place_pw a b r c fa fb Ha Hb) as H1.
  pose proof (m_add_new_pw a b r c fa fb Ha Hb) as H2.
  destruct H1 as [(_ & E1 & H1)|(i & j & k & Hi & Hj & Hk & _)];
    [|exfalso; apply bad_Some_not in Hk; apply Hk; auto].
  destruct H2 as [(_ & n & E2 & H2)|(i & j & k & Hi & Hj & Hk & _)];
    [|exfalso; apply bad_Some_not in Hk; apply Hk; auto].
  exists (fst (m_add_in_place b a)), n. split; [rewrite <- E1; destruct (m_add_in_place b a); reflexivity|].
  split; auto. intros i j Hi Hj.
  rewrite (mi_get _ _ _ _ H1), (mi_get _ _ _ _ H2), (mi_get _ _ _ _ Hd') by auto. auto.
Qed.

(*@ example *)
(** a failing case: the third of four sums overflows, so the first two cells are written *)
Example C08_example :
  let A := F32 lm_id in
  let a := mk_mat 2 2 (map z32 [1; 2; 2^127; 4]%Z) in
  let m := mk_mat 2 2 (map z32 [5; 5; 5; 5]%Z) in
  wfm a /\ wfm m /\
  let (m', r) := m_add a a m in
  r = Err (UtilsErr Inf) /\
  map (fun p => obs (m_get m' (fst p) (snd p))) [(0, 0); (0, 1); (1, 0); (1, 1)] =
  [Ok (sf 2); Ok (sf 4); Ok (sf 5); Ok (sf 5)].
Proof.
  split; [apply wfm_b_ok; vm_compute; reflexivity|]. split; [apply wfm_b_ok; vm_compute; reflexivity|].
  vm_compute. split; reflexivity.
Qed.
