(** Generated by tools/gen_properties.py from P_Shape.v: property theorems only. *)

From Coq Require Import List Arith ZArith Lia Bool.
From Flocq Require Import BinarySingleNaN.
From Verif Require Import M_Base M_Arith M_Utils M_Vector M_Matrix M_F32 S_Spec S_Shape P_Inst.
Import ListNotations.

From Verif Require Import P_Shape.

(** C06: [add_row] inserts the vector before row [i] ([i] may be the number of rows). *)
Theorem C06_add_row :
  forall (A : Arith) (OK : ArithOk A) (ck : bool) (m : Mat T) (r c : nat) (f : nat -> nat -> T)
         (v : Vec T) (g : nat -> T) (i : nat),
  mat_is m r c f -> vec_is v c g -> r < 4 -> i <= r ->
  exists m', m_add_row ck v i m = (m', Ok tt) /\
    mat_is m' (r + 1) c (insert_at i g f).
Proof. exact l_add_row. Qed.
Print Assumptions C06_add_row.

(** C06: [add_col] inserts the vector before column [j]. *)
Theorem C06_add_col :
  forall (A : Arith) (OK : ArithOk A) (ck : bool) (m : Mat T) (r c : nat) (f : nat -> nat -> T)
         (v : Vec T) (g : nat -> T) (j : nat),
  mat_is m r c f -> vec_is v r g -> c < 4 -> j <= c ->
  exists m', m_add_col ck v j m = (m', Ok tt) /\
    mat_is m' r (c + 1) (fun a => insert_at j (g a) (f a)).
Proof. exact l_add_col. Qed.
Print Assumptions C06_add_col.

(** C06: a matrix that already has four rows (columns) is left alone. *)
Theorem C06_add_to_full :
  forall (A : Arith) (ck : bool) (m : Mat T) (r c : nat) (f : nat -> nat -> T) (v : Vec T) (i : nat),
  mat_is m r c f ->
  (r = 4 -> m_add_row ck v i m = (m, Err RowsNumberOverflow)) /\
  (c = 4 -> m_add_col ck v i m = (m, Err ColsNumberOverflow)).
Proof. exact l_add_full. Qed.
Print Assumptions C06_add_to_full.

(** C06: [del_row] returns row [i] and closes the gap; it refuses a bad index and the
    only row, without change. *)
Theorem C06_del_row :
  forall (A : Arith) (OK : ArithOk A) (ck : bool) (m : Mat T) (r c : nat) (f : nat -> nat -> T) (i : nat),
  mat_is m r c f ->
  if r <=? i then m_del_row ck i m = (m, Err InvalidRow)
  else if r =? 1 then m_del_row ck i m = (m, Err RowsNumberNull)
  else exists m' v, m_del_row ck i m = (m', Ok v) /\
         vec_is v c (f i) /\ mat_is m' (r - 1) c (remove_at i f).
Proof. exact l_del_row. Qed.
Print Assumptions C06_del_row.

(** C06: [del_row] undoes [add_row]. *)
Theorem C06_del_after_add :
  forall (A : Arith) (OK : ArithOk A) (ck : bool) (m : Mat T) (r c : nat) (f : nat -> nat -> T)
         (v : Vec T) (g : nat -> T) (i : nat),
  mat_is m r c f -> vec_is v c g -> r < 4 -> i <= r ->
  exists m1 m2 w, m_add_row ck v i m = (m1, Ok tt) /\ m_del_row ck i m1 = (m2, Ok w) /\
    vec_is w c g /\ mat_is m2 r c f.
Proof. exact l_del_add. Qed.
Print Assumptions C06_del_after_add.

Example C06_example :
  let A := F32 lm_id in
  let m := mk_mat 2 2 (map z32 [1; 2; 3; 4]%Z) in
  let v := mk_vec (map z32 [8; 9]%Z) in
  wfm m /\ wfv v /\
  exists m', m_add_row true v 1 m = (m', Ok tt) /\
    map (fun p => obs (m_get m' (fst p) (snd p))) [(0,0);(0,1);(1,0);(1,1);(2,0);(2,1)] =
    map (fun z => Ok (sf z)) [1; 2; 8; 9; 3; 4]%Z.
Proof.
  split; [apply wfm_b_ok; vm_compute; reflexivity|]. split; [apply wfv_b_ok; vm_compute; reflexivity|].
  eexists. split; [reflexivity|]. vm_compute. reflexivity.
Qed.

(** C07 VIOLATION: whenever a non-full matrix is given a vector of the wrong length, or an
    index past the end, [add_row] reports an error but has added a row. *)
Theorem C07_add_row_not_atomic :
  forall (A : Arith) (OK : ArithOk A) (ck : bool) (m : Mat T) (r c : nat) (f : nat -> nat -> T)
         (v : Vec T) (n : nat) (g : nat -> T) (i : nat),
  mat_is m r c f -> vec_is v n g -> r < 4 -> i < 255 -> (n <> c \/ r < i) ->
  exists m' e, m_add_row ck v i m = (m', Err e) /\ m_get_rows m' = Ok (r + 1) /\
    e = (if n =? c then InvalidRow else InvalidSize).
Proof. exact l_add_row_bad. Qed.
Print Assumptions C07_add_row_not_atomic.

Theorem C07_add_col_not_atomic :
  forall (A : Arith) (OK : ArithOk A) (ck : bool) (m : Mat T) (r c : nat) (f : nat -> nat -> T)
         (v : Vec T) (n : nat) (g : nat -> T) (j : nat),
  mat_is m r c f -> vec_is v n g -> c < 4 -> j < 255 -> (n <> r \/ c < j) ->
  exists m' e, m_add_col ck v j m = (m', Err e) /\ m_get_cols m' = Ok (c + 1) /\
    e = (if n =? r then InvalidCol else InvalidSize).
Proof. exact l_add_col_bad. Qed.
Print Assumptions C07_add_col_not_atomic.

(** C07 VIOLATION, concrete: a 2x2 f32 matrix and a vector of length 3. *)
Theorem C07_atomic_insertion_refuted :
  forall (lm : Libm), let A := F32 lm in
  exists (m m1 m2 : Mat T) (v : Vec T) (e : LinalgError),
    wfm m /\ wfv v /\ m_get_rows m = Ok 2 /\ m_get_cols m = Ok 2 /\
    m_add_row true v 0 m = (m1, Err e) /\ m_get_rows m1 = Ok 3 /\
    m_add_col true v 0 m = (m2, Err e) /\ m_get_cols m2 = Ok 3.
Proof. exact l_atomic_refuted. Qed.
Print Assumptions C07_atomic_insertion_refuted.
