(** The two instances satisfy [ArithOk]; helpers for concrete examples. *)
From Coq Require Import List Arith ZArith Reals Lia Bool SpecFloat.
From Flocq Require Import Core BinarySingleNaN.
From Verif Require Import M_Base M_Arith M_Utils M_Vector M_Matrix M_F32 M_RX S_Spec.
Import ListNotations.

#[global] Instance F32_ok (lm : Libm) : ArithOk (F32 lm).
Proof. split; split; reflexivity. Qed.

#[global] Instance RX_ok : ArithOk RX.
Proof. split; split; reflexivity. Qed.

(** a libm for examples only: every function returns its (first) argument *)
Definition lm_id : Libm := mkLibm (fun x => x) (fun x => x) (fun x => x) (fun x => x)
  (fun x _ => x) (fun x _ => x) (fun x => x).

Section Build.
  Context {A : Arith}.
  (** r x c matrix from a row-major list of quotients; the rest of the storage is 0 *)
  Definition mk_mat (r c : nat) (l : list T) : Mat T :=
    mkMat r c (l ++ repeat f0 (16 - length l)) true.
  Definition mk_vec (l : list T) : Vec T :=
    mkVec (length l) (l ++ repeat f0 (4 - length l)) true.
  Definition validb (x : T) : bool := negb (fnan x) && negb (finf x).
  Lemma validb_ok x : validb x = true -> valid x.
  Proof. unfold validb, valid. destruct (fnan x), (finf x); cbn; intuition congruence. Qed.
  Definition wfm_b (m : Mat T) : bool :=
    (length (m_elems m) =? 16) && (m_rows m <=? 4) && (m_cols m <=? 4) &&
    (negb (m_initialized m) || ((1 <=? m_rows m) && (1 <=? m_cols m))) && forallb validb (m_elems m).
  Lemma wfm_b_ok m : wfm_b m = true -> wfm m.
  Proof.
    unfold wfm_b. rewrite !andb_true_iff, orb_true_iff, andb_true_iff, forallb_forall.
    rewrite !Nat.leb_le, Nat.eqb_eq, negb_true_iff. intros [[[[H1 H2] H3] H4] H5].
    split; auto.
    - intros I. destruct H4; [congruence|auto].
    - apply Forall_forall. intros x Hx. apply validb_ok, H5, Hx.
  Qed.
  Definition wfv_b (v : Vec T) : bool :=
    (length (v_elems v) =? 4) && (v_rows v <=? 4) &&
    (negb (v_initialized v) || (1 <=? v_rows v)) && forallb validb (v_elems v).
  Lemma wfv_b_ok v : wfv_b v = true -> wfv v.
  Proof.
    unfold wfv_b. rewrite !andb_true_iff, orb_true_iff, forallb_forall.
    rewrite !Nat.leb_le, Nat.eqb_eq, negb_true_iff. intros [[[H1 H2] H4] H5].
    split; auto.
    - intros I. destruct H4; [congruence|auto].
    - apply Forall_forall. intros x Hx. apply validb_ok, H5, Hx.
  Qed.
End Build.

(** binary32 integers and quotients for examples *)
Definition z32 (z : Z) : f32 := lit32 z 1.
Definition nan32 : f32 := B754_nan.
Definition inf32 : f32 := B754_infinity false.

(** observation of a result without the proof part of the float *)
Definition obs {E} (r : res E f32) : res E spec_float := rmap B2SF r.
(** integer value as an observation *)
Definition sf (z : Z) : spec_float := B2SF (z32 z).
(** what can be seen of a container, for examples: dimensions and elements in use *)
Definition show_m (m : Mat f32) : nat * nat * bool * list spec_float :=
  (m_rows m, m_cols m, m_initialized m, map B2SF (firstn (m_rows m * m_cols m) (m_elems m))).
Definition show_v (v : Vec f32) : nat * bool * list spec_float :=
  (v_rows v, v_initialized v, map B2SF (firstn (v_rows v) (v_elems v))).
Definition shown {E X Y Z} (f : X -> Z) (o : X * res E Y) : Z * res E Y := (f (fst o), snd o).

(** concrete exact-real containers for examples *)
Definition rvec (l : list R) : Vec (T (Arith := RX)) := mk_vec (A := RX) (map (@Some R) l).
Definition rmat (r c : nat) (l : list R) : Mat (T (Arith := RX)) := mk_mat (A := RX) r c (map (@Some R) l).
Lemma rvec_is (l : list R) : 1 <= length l <= 4 ->
  vec_is (A := RX) (rvec l) (length l) (fun i => Some (nth i l 0%R)).
Proof.
  intros H. split.
  - split; cbn [rvec mk_vec v_rows v_elems v_initialized]; rewrite ?map_length; try lia.
    + rewrite ?app_length, ?repeat_length, ?map_length; lia.
    + apply Forall_app. split.
      * apply Forall_forall. intros x Hx. apply in_map_iff in Hx. destruct Hx as (y & <- & _). split; reflexivity.
      * apply Forall_forall. intros x Hx. apply repeat_spec in Hx. subst. split; reflexivity.
  - reflexivity.
  - cbn. apply map_length.
  - intros i Hi. unfold v_get, is_valid_row, rvec, mk_vec. cbn [v_initialized v_rows v_elems negb].
    rewrite map_length. destruct (Nat.leb_spec (length l) i); [lia|]. cbn [rbind negb]. unfold arr_get.
    rewrite nth_error_app1 by (rewrite map_length; lia).
    rewrite nth_error_map, (nth_error_nth' _ 0%R) by lia. reflexivity.
Qed.
Lemma rmat_is (r c : nat) (l : list R) : 1 <= r <= 4 -> 1 <= c <= 4 -> length l = r * c ->
  mat_is (A := RX) (rmat r c l) r c (fun i j => Some (nth (i * c + j) l 0%R)).
Proof.
  intros Hr Hc Hl. assert (r * c <= 16) by nia. split.
  - split; cbn [rmat mk_mat m_rows m_cols m_elems m_initialized]; try lia.
    + rewrite ?app_length, ?repeat_length, ?map_length; lia.
    + apply Forall_app. split.
      * apply Forall_forall. intros x Hx. apply in_map_iff in Hx. destruct Hx as (y & <- & _). split; reflexivity.
      * apply Forall_forall. intros x Hx. apply repeat_spec in Hx. subst. split; reflexivity.
  - reflexivity.
  - reflexivity.
  - reflexivity.
  - intros i j Hi Hj. unfold m_get, is_valid_row, is_valid_col, rmat, mk_mat.
    cbn [m_initialized m_rows m_cols m_elems negb].
    destruct (Nat.leb_spec r i); [lia|]. cbn [rbind negb]. destruct (Nat.leb_spec c j); [lia|]. cbn [rbind negb].
    unfold arr_get. assert (i * c + j < length l) by nia.
    rewrite nth_error_app1 by (rewrite map_length; lia).
    rewrite nth_error_map, (nth_error_nth' _ 0%R) by lia. reflexivity.
Qed.
