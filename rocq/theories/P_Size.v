(** C82: sizes, conversion to a column, vectors of u8. *)
(*@+*)
From Coq Require Import List Arith ZArith Lia Bool.
From Verif Require Import M_Base M_Arith M_Utils M_Vector M_Matrix M_F32 S_Spec S_Access P_Inst.
Import ListNotations.
Local Open Scope nat_scope.
(*@-*)
From Verif Require Import P_Hoare P_Cont P_Loops P_Access P_Pointwise P_Trans P_Rot.

(** the cells of a well-formed matrix that can be read *)
Lemma readable {A : Arith} m r c f i j : mat_is m r c f -> ((exists x, m_get m i j = Ok x) <-> i < r /\ j < c).
Proof.
  intros Hm. split.
  - intros [x E]. unfold m_get in E. rewrite (mi_init _ _ _ _ Hm), (mi_rows _ _ _ _ Hm), (mi_cols _ _ _ _ Hm) in E. cbn [negb] in E.
    unfold is_valid_row, is_valid_col in E. destruct (Nat.leb_spec r i); [discriminate|]. cbn [rbind] in E. destruct (Nat.leb_spec c j); [discriminate|]. auto.
  - intros [Hi Hj]. exists (f i j). apply (mi_get _ _ _ _ Hm); auto.
Qed.
Lemma readable_v {A : Arith} v n f i : vec_is v n f -> ((exists x, v_get v i = Ok x) <-> i < n).
Proof.
  intros Hv. split.
  - intros [x E]. unfold v_get in E. rewrite (vi_init _ _ _ Hv), (vi_rows _ _ _ Hv) in E. cbn [negb] in E.
    unfold is_valid_row in E. destruct (Nat.leb_spec n i); [discriminate|]. auto.
  - intros Hi. exists (f i). apply (vi_get _ _ _ Hv); auto.
Qed.

(*@ C82_matrix_same_size *)
(** C82: [is_same_size_as] answers true exactly when the two matrices have the same readable cells *)
Lemma l_same_size :
  forall (A : Arith) (m m' : Mat T) (r c r' c' : nat) (f f' : nat -> nat -> T), mat_is m r c f -> mat_is m' r' c' f' ->
  exists b, m_is_same_size_as m m' = Ok b /\
    (b = true <-> forall i j, (exists x, m_get m i j = Ok x) <-> (exists x, m_get m' i j = Ok x)).
Proof.
  intros A m m' r c r' c' f f' Hm Hm'. destruct (mat_is_dim _ _ _ _ Hm) as [Dr Dc]. destruct (mat_is_dim _ _ _ _ Hm') as [Dr' Dc'].
  exists ((r =? r') && (c =? c')). split.
  - unfold m_is_same_size_as. rewrite (mi_init _ _ _ _ Hm), (mi_init _ _ _ _ Hm'), (mi_rows _ _ _ _ Hm), (mi_cols _ _ _ _ Hm), (mi_rows _ _ _ _ Hm'), (mi_cols _ _ _ _ Hm').
    cbn [negb orb]. destruct (r =? r'), (c =? c'); reflexivity.
  - rewrite andb_true_iff, !Nat.eqb_eq. split.
    + intros [-> ->] i j. rewrite (readable m _ _ _ i j Hm), (readable m' _ _ _ i j Hm'). tauto.
    + intros H. assert (K : forall i j, (i < r /\ j < c) <-> (i < r' /\ j < c')) by (intros i j; rewrite <- (readable m _ _ _ i j Hm), <- (readable m' _ _ _ i j Hm'); apply H).
      pose proof (K (r - 1) 0) as K1. pose proof (K (r' - 1) 0) as K2. pose proof (K 0 (c - 1)) as K3. pose proof (K 0 (c' - 1)) as K4. lia.
Qed.

(*@ C82_square *)
(** C82: [is_square] answers true exactly when the readable cells are symmetric *)
Lemma l_square :
  forall (A : Arith) (m : Mat T) (r c : nat) (f : nat -> nat -> T), mat_is m r c f ->
  exists b, m_is_square m = Ok b /\ (b = true <-> forall i j, (exists x, m_get m i j = Ok x) -> exists x, m_get m j i = Ok x).
Proof.
  intros A m r c f Hm. destruct (mat_is_dim _ _ _ _ Hm) as [Dr Dc]. exists (r =? c). split.
  - unfold m_is_square. rewrite (mi_init _ _ _ _ Hm), (mi_rows _ _ _ _ Hm), (mi_cols _ _ _ _ Hm). cbn [negb]. destruct (r =? c); reflexivity.
  - rewrite Nat.eqb_eq. split.
    + intros -> i j. rewrite (readable m _ _ _ i j Hm), (readable m _ _ _ j i Hm). tauto.
    + intros H. assert (K : forall i j, i < r /\ j < c -> j < r /\ i < c) by (intros i j; rewrite <- (readable m _ _ _ i j Hm), <- (readable m _ _ _ j i Hm); apply H).
      pose proof (K (r - 1) 0). pose proof (K 0 (c - 1)). lia.
Qed.

(*@ C82_vector_same_size *)
Lemma l_vsame_size :
  forall (A : Arith) (v v' : Vec T) (n n' : nat) (f f' : nat -> T), vec_is v n f -> vec_is v' n' f' ->
  exists b, v_is_same_size_as v v' = Ok b /\
    (b = true <-> forall i, (exists x, v_get v i = Ok x) <-> (exists x, v_get v' i = Ok x)).
Proof.
  intros A v v' n n' f f' Hv Hv'. pose proof (vec_is_dim _ _ _ Hv) as D. pose proof (vec_is_dim _ _ _ Hv') as D'.
  exists (n =? n'). split.
  - unfold v_is_same_size_as. rewrite (vi_init _ _ _ Hv), (vi_init _ _ _ Hv'), (vi_rows _ _ _ Hv), (vi_rows _ _ _ Hv'). cbn [negb orb]. destruct (n =? n'); reflexivity.
  - rewrite Nat.eqb_eq. split.
    + intros -> i. rewrite (readable_v v _ _ i Hv), (readable_v v' _ _ i Hv'). tauto.
    + intros H. assert (K : forall i, i < n <-> i < n') by (intros i; rewrite <- (readable_v v _ _ i Hv), <- (readable_v v' _ _ i Hv'); apply H).
      pose proof (K (n - 1)). pose proof (K (n' - 1)). lia.
Qed.

(*@ C82_convert *)
(** C82: [convert_to_matrix] gives the column with the same components, and reading that column back gives the vector *)
Lemma l_convert :
  forall (A : Arith) (OK : ArithOk A) (v : Vec T) (n : nat) (f : nat -> T), vec_is v n f ->
  exists m v', v_convert_to_matrix v = Ok m /\ mat_is m n 1 (fun i _ => f i) /\ m_col_to_vector m 0 = Ok v' /\ vec_is v' n f.
Proof.
  intros A OK v n f Hv. destruct (v_convert_ok v n f Hv) as (m & E & Hm). destruct (col_to_vector_spec A OK m n 1 _ Hm 0) as (v' & E' & H').
  exists m, v'. auto.
Qed.

(*@ C82_u8 *)
(** C82: writing into a vector of u8 (used for permutations): errors in this order, otherwise the value is read
    back and nothing else changes *)
Lemma l_u8_set :
  forall (p : Vec nat) (i x : nat), length (v_elems p) = 4 -> v_rows p <= 4 ->
  let (p', r) := vu_set i x p in
  match first_error [(negb (v_is_initialized p), NotInit); (v_rows p <=? i, InvalidRow)] with
  | Some e => r = Err e /\ p' = p
  | None => r = Ok tt /\ v_get p' i = Ok x /\ (forall a, a <> i -> v_get p' a = v_get p a) /\
            v_get_rows p' = v_get_rows p /\ length (v_elems p') = 4
  end.
Proof.
  intros p i x L R. unfold vu_set, v_is_initialized. destruct (v_initialized p) eqn:I; cbn [negb first_error]; [|cbn; auto].
  unfold lift, is_valid_row. destruct (Nat.leb_spec (v_rows p) i) as [H|H]; cbn; [auto|].
  unfold v_store, arr_set. rewrite L. destruct (Nat.ltb_spec i 4); [|lia]. split; [reflexivity|].
  unfold v_get, v_get_rows. cbn [v_elems v_rows v_initialized]. rewrite I. cbn [negb]. unfold is_valid_row, arr_get.
  split; [destruct (Nat.leb_spec (v_rows p) i); [lia|]; cbn; rewrite nth_error_upd_eq by lia; reflexivity|].
  split; [intros a Ha; destruct (v_rows p <=? a); [reflexivity|]; cbn; rewrite nth_error_upd_neq by auto; reflexivity|].
  split; [reflexivity|]. rewrite upd_length. exact L.
Qed.

(*@ C82_u8_fresh *)
(** C82: a new vector of u8 holds zeros *)
Lemma l_u8_fresh :
  forall (n : nat), 1 <= n <= 4 -> exists p, v_init n vu_new = (p, Ok tt) /\ length (v_elems p) = 4 /\ v_get_rows p = Ok n /\
  forall i, v_get p i = if i <? n then Ok 0 else Err InvalidRow.
Proof.
  intros n Hn. unfold v_init, vu_new, v_new. cbn [v_initialized]. unfold lift, is_valid_rows_number, M_MAX.
  destruct (Nat.ltb_spec 4 n); [lia|]. destruct (Nat.eqb_spec n 0); [lia|]. cbn. eexists. split; [reflexivity|]. split; [reflexivity|]. split; [reflexivity|].
  intros i. unfold v_get. cbn [v_initialized negb v_rows v_elems]. unfold is_valid_row. destruct (Nat.leb_spec n i), (Nat.ltb_spec i n); try lia; [reflexivity|].
  destruct i as [|[|[|[|i]]]]; try reflexivity. lia.
Qed.

(*@ example *)
Example C82_example :
  exists p p', v_init 3 vu_new = (p, Ok tt) /\ vu_set 1 200 p = (p', Ok tt) /\ map (v_get p') [0; 1; 2; 3] = [Ok 0; Ok 200; Ok 0; Err InvalidRow].
Proof. eexists. eexists. repeat split; reflexivity. Qed.
