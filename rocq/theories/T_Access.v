(** Generated by tools/gen_properties.py from P_Access.v: property theorems only. *)

From Coq Require Import List Arith ZArith Lia Bool.
From Flocq Require Import BinarySingleNaN.
From Verif Require Import M_Base M_Arith M_Utils M_Vector M_Matrix M_F32 S_Spec S_Access P_Inst.
Import ListNotations.

From Verif Require Import P_Access.

(** C02: the decision table of [Matrix::set_element] and its frame law. *)
Theorem C02_matrix_set_element :
  forall (A : Arith) (m : Mat T), wfm m -> forall (i j : nat) (x : T),
  let (m', r) := m_set i j x m in
  match first_error [(negb (m_is_initialized m), NotInit);
                     (fnan x, UtilsErr Nan); (finf x, UtilsErr Inf);
                     (m_rows m <=? i, InvalidRow); (m_cols m <=? j, InvalidCol)] with
  | Some e => r = Err e /\ m' = m
  | None => r = Ok tt /\ wfm m' /\ m_get m' i j = Ok x /\
            (forall a b, (a, b) <> (i, j) -> m_get m' a b = m_get m a b) /\
            m_get_rows m' = m_get_rows m /\ m_get_cols m' = m_get_cols m /\
            m_is_initialized m' = m_is_initialized m
  end.
Proof. exact m_set_table. Qed.
Print Assumptions C02_matrix_set_element.

(** C02: [Matrix::get_element] fails in this order of priority, otherwise returns a
    finite float. *)
Theorem C02_matrix_get_element :
  forall (A : Arith) (m : Mat T), wfm m -> forall (i j : nat),
  match first_error [(negb (m_is_initialized m), NotInit);
                     (m_rows m <=? i, InvalidRow); (m_cols m <=? j, InvalidCol)] with
  | Some e => m_get m i j = Err e
  | None => exists x, m_get m i j = Ok x /\ valid x
  end.
Proof. exact m_get_table. Qed.
Print Assumptions C02_matrix_get_element.

Theorem C02_vector_set_element :
  forall (A : Arith) (v : Vec T), wfv v -> forall (i : nat) (x : T),
  let (v', r) := v_set i x v in
  match first_error [(negb (v_is_initialized v), NotInit);
                     (fnan x, UtilsErr Nan); (finf x, UtilsErr Inf);
                     (v_rows v <=? i, InvalidRow)] with
  | Some e => r = Err e /\ v' = v
  | None => r = Ok tt /\ wfv v' /\ v_get v' i = Ok x /\
            (forall a, a <> i -> v_get v' a = v_get v a) /\
            v_get_rows v' = v_get_rows v /\ v_is_initialized v' = v_is_initialized v
  end.
Proof. exact v_set_table. Qed.
Print Assumptions C02_vector_set_element.

Theorem C02_vector_get_element :
  forall (A : Arith) (v : Vec T), wfv v -> forall (i : nat),
  match first_error [(negb (v_is_initialized v), NotInit); (v_rows v <=? i, InvalidRow)] with
  | Some e => v_get v i = Err e
  | None => exists x, v_get v i = Ok x /\ valid x
  end.
Proof. exact v_get_table. Qed.
Print Assumptions C02_vector_get_element.

(** a 2x3 matrix of f32 is well formed; writing 9 at (1,2) is visible there only *)
Example C02_example :
  let A := F32 lm_id in
  let m := mk_mat 2 3 (map z32 [1; 2; 3; 4; 5; 6]%Z) in
  wfm m /\
  let m' := fst (m_set 1 2 (z32 9) m) in
  map (fun p => m_get m' (fst p) (snd p)) [(0, 0); (1, 1); (1, 2); (1, 3)] =
  [Ok (z32 1); Ok (z32 5); Ok (z32 9); Err InvalidCol].
Proof. split; [apply wfm_b_ok; reflexivity|reflexivity]. Qed.

(** C03: [Matrix::init]. *)
Theorem C03_matrix_init :
  forall (A : Arith) (m : Mat T) (rows cols : nat),
  let (m', r) := m_init rows cols m in
  match first_error [(m_is_initialized m, AlreadyInit);
                     (4 <? rows, RowsNumberOverflow); (rows =? 0, RowsNumberNull);
                     (4 <? cols, ColsNumberOverflow); (cols =? 0, ColsNumberNull)] with
  | Some e => r = Err e /\ m' = m
  | None => r = Ok tt /\ m_is_initialized m' = true /\
            m_get_rows m' = Ok rows /\ m_get_cols m' = Ok cols
  end.
Proof. exact m_init_table. Qed.
Print Assumptions C03_matrix_init.

(** C03: [Matrix::reinit].  The case of an invalid size is the VIOLATION: an initialised
    matrix becomes unusable. *)
Theorem C03_matrix_reinit :
  forall (A : Arith) (m : Mat T) (rows cols : nat),
  let (m', r) := m_reinit rows cols m in
  if negb (m_is_initialized m) then r = Err NotInit /\ m' = m
  else match first_error [(4 <? rows, RowsNumberOverflow); (rows =? 0, RowsNumberNull);
                          (4 <? cols, ColsNumberOverflow); (cols =? 0, ColsNumberNull)] with
  | Some e => r = Err e /\ m_is_initialized m' = false /\ forall i j, m_get m' i j = Err NotInit
  | None => r = Ok tt /\ m_is_initialized m' = true /\
            m_get_rows m' = Ok rows /\ m_get_cols m' = Ok cols
  end.
Proof. exact m_reinit_table. Qed.
Print Assumptions C03_matrix_reinit.

(** C03 VIOLATION: an initialised matrix on which a rejected [reinit] makes every later
    read fail. *)
Theorem C03_reinit_keeps_usable_refuted :
  forall (lm : Libm), let A := F32 lm in
  exists (m m' : Mat T) (e : LinalgError),
    m_init 2 2 mnew = (m, Ok tt) /\ m_get m 0 0 = Ok f0 /\
    m_reinit 2 5 m = (m', Err e) /\ m_get m' 0 0 = Err NotInit.
Proof. exact m_reinit_refuted. Qed.
Print Assumptions C03_reinit_keeps_usable_refuted.

Theorem C03_vector_init :
  forall (X : Type) (v : Vec X) (rows : nat),
  let (v', r) := v_init rows v in
  match first_error [(v_is_initialized v, AlreadyInit);
                     (4 <? rows, RowsNumberOverflow); (rows =? 0, RowsNumberNull)] with
  | Some e => r = Err e /\ v' = v
  | None => r = Ok tt /\ v_is_initialized v' = true /\ v_get_rows v' = Ok rows
  end.
Proof. exact v_init_table. Qed.
Print Assumptions C03_vector_init.

Theorem C03_vector_reinit :
  forall (X : Type) (v : Vec X) (rows : nat),
  let (v', r) := v_reinit rows v in
  if negb (v_is_initialized v) then r = Err NotInit /\ v' = v
  else match first_error [(4 <? rows, RowsNumberOverflow); (rows =? 0, RowsNumberNull)] with
  | Some e => r = Err e /\ v_is_initialized v' = false /\ forall i, v_get v' i = Err NotInit
  | None => r = Ok tt /\ v_is_initialized v' = true /\ v_get_rows v' = Ok rows
  end.
Proof. exact v_reinit_table. Qed.
Print Assumptions C03_vector_reinit.

(** C04: a newly created and initialised matrix is all zero. *)
Theorem C04_fresh_matrix_zero :
  forall (A : Arith) (OK : ArithOk A) (r c : nat), 1 <= r <= 4 -> 1 <= c <= 4 ->
  exists m, m_init r c mnew = (m, Ok tt) /\
    forall i j, i < r -> j < c -> m_get m i j = Ok f0.
Proof. exact m_fresh_zero. Qed.
Print Assumptions C04_fresh_matrix_zero.

Theorem C04_fresh_vector_zero :
  forall (A : Arith) (OK : ArithOk A) (n : nat), 1 <= n <= 4 ->
  exists v, v_init n vnew = (v, Ok tt) /\ forall i, i < n -> v_get v i = Ok f0.
Proof. exact v_fresh_zero. Qed.
Print Assumptions C04_fresh_vector_zero.

(** C04: what a re-initialised matrix contains: the old row-major storage read with the
    new row length. *)
Theorem C04_reinit_exposes_old_storage :
  forall (A : Arith) (m : Mat T) (r0 c0 : nat) (f : nat -> nat -> T), mat_is m r0 c0 f ->
  forall r c, 1 <= r <= 4 -> 1 <= c <= 4 ->
  exists m', m_reinit r c m = (m', Ok tt) /\
    forall i j, i < r -> j < c -> i * c + j < r0 * c0 ->
      m_get m' i j = Ok (f ((i * c + j) / c0) ((i * c + j) mod c0)).
Proof. exact m_reinit_content. Qed.
Print Assumptions C04_reinit_exposes_old_storage.

(** C04 VIOLATION: a matrix that is filled with 7 and re-initialised still reads 7. *)
Theorem C04_reinit_zero_refuted :
  forall (lm : Libm), let A := F32 lm in
  exists (m1 m2 m3 : Mat T),
    m_init 2 2 mnew = (m1, Ok tt) /\ m_fill (z32 7) m1 = (m2, Ok tt) /\
    m_reinit 2 2 m2 = (m3, Ok tt) /\ m_get m3 1 1 = Ok (z32 7) /\ z32 7 <> f0.
Proof. exact m_reinit_zero_refuted. Qed.
Print Assumptions C04_reinit_zero_refuted.

(** C05: [set_row] replaces exactly the given row, bit for bit. *)
Theorem C05_set_row :
  forall (A : Arith) (m : Mat T) (r c : nat) (f : nat -> nat -> T), mat_is m r c f ->
  forall (v : Vec T) (n : nat) (g : nat -> T), vec_is v n g -> forall i,
  if negb (n =? c) then m_set_row v i m = (m, Err InvalidSize)
  else if r <=? i then m_set_row v i m = (m, Err InvalidRow)
  else exists m', m_set_row v i m = (m', Ok tt) /\
         mat_is m' r c (fun a b => if a =? i then g b else f a b).
Proof. exact set_row_spec. Qed.
Print Assumptions C05_set_row.

Theorem C05_set_col :
  forall (A : Arith) (m : Mat T) (r c : nat) (f : nat -> nat -> T), mat_is m r c f ->
  forall (v : Vec T) (n : nat) (g : nat -> T), vec_is v n g -> forall j,
  if negb (n =? r) then m_set_col v j m = (m, Err InvalidSize)
  else if c <=? j then m_set_col v j m = (m, Err InvalidCol)
  else exists m', m_set_col v j m = (m', Ok tt) /\
         mat_is m' r c (fun a b => if b =? j then g a else f a b).
Proof. exact set_col_spec. Qed.
Print Assumptions C05_set_col.

(** C05: [get_row] copies exactly row [i] into a vector of matching length. *)
Theorem C05_get_row :
  forall (A : Arith) (m : Mat T) (r c : nat) (f : nat -> nat -> T), mat_is m r c f ->
  forall (v : Vec T) (n : nat) (g : nat -> T), vec_is v n g -> forall i,
  if negb (n =? c) then m_get_row m i v = (v, Err InvalidSize)
  else if r <=? i then m_get_row m i v = (v, Err InvalidRow)
  else exists v', m_get_row m i v = (v', Ok tt) /\ vec_is v' c (fun b => f i b).
Proof. exact get_row_spec. Qed.
Print Assumptions C05_get_row.

Theorem C05_get_col :
  forall (A : Arith) (m : Mat T) (r c : nat) (f : nat -> nat -> T), mat_is m r c f ->
  forall (v : Vec T) (n : nat) (g : nat -> T), vec_is v n g -> forall j,
  if negb (n =? r) then m_get_col m j v = (v, Err InvalidSize)
  else if c <=? j then m_get_col m j v = (v, Err InvalidCol)
  else exists v', m_get_col m j v = (v', Ok tt) /\ vec_is v' r (fun a => f a j).
Proof. exact get_col_spec. Qed.
Print Assumptions C05_get_col.

(** C05: [row_to_vector] and [col_to_vector]. *)
Theorem C05_row_to_vector :
  forall (A : Arith) (OK : ArithOk A) (m : Mat T) (r c : nat) (f : nat -> nat -> T),
  mat_is m r c f -> forall i,
  if r <=? i then m_row_to_vector m i = Err InvalidRow
  else exists v, m_row_to_vector m i = Ok v /\ vec_is v c (fun b => f i b).
Proof. exact row_to_vector_spec. Qed.
Print Assumptions C05_row_to_vector.

Theorem C05_col_to_vector :
  forall (A : Arith) (OK : ArithOk A) (m : Mat T) (r c : nat) (f : nat -> nat -> T),
  mat_is m r c f -> forall j,
  if c <=? j then m_col_to_vector m j = Err InvalidCol
  else exists v, m_col_to_vector m j = Ok v /\ vec_is v r (fun a => f a j).
Proof. exact col_to_vector_spec. Qed.
Print Assumptions C05_col_to_vector.

(** C05: what was put in with [set_row] comes out of [row_to_vector], for every element. *)
Theorem C05_set_row_get_row :
  forall (A : Arith) (OK : ArithOk A) (m m' : Mat T) (v : Vec T) (i : nat),
  wfm m -> wfv v -> m_is_initialized m = true -> m_set_row v i m = (m', Ok tt) ->
  exists v', m_row_to_vector m' i = Ok v' /\ v_get_rows v' = v_get_rows v /\
             (forall k, v_get v' k = v_get v k) /\
             (forall a b, a <> i -> m_get m' a b = m_get m a b).
Proof. exact set_get_row. Qed.
Print Assumptions C05_set_row_get_row.

(** the hypotheses of C05 hold on a 2x3 matrix and a vector of length 3 *)
Example C05_example :
  let A := F32 lm_id in
  let m := mk_mat 2 3 (map z32 [1; 2; 3; 4; 5; 6]%Z) in
  let v := mk_vec (map z32 [7; 8; 9]%Z) in
  wfm m /\ wfv v /\ m_is_initialized m = true /\
  exists m', m_set_row v 1 m = (m', Ok tt) /\ m_get m' 1 2 = Ok (z32 9) /\ m_get m' 0 2 = Ok (z32 3).
Proof.
  split; [apply wfm_b_ok; reflexivity|]. split; [apply wfv_b_ok; reflexivity|]. split; [reflexivity|].
  eexists. split; [reflexivity|]. split; reflexivity.
Qed.
