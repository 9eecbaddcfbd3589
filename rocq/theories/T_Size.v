(** Generated by tools/gen_properties.py from P_Size.v: property theorems only. *)

From Coq Require Import List Arith ZArith Lia Bool.
From Verif Require Import M_Base M_Arith M_Utils M_Vector M_Matrix M_F32 S_Spec S_Access P_Inst.
Import ListNotations.
Local Open Scope nat_scope.

From Verif Require Import P_Size.

(** C82: [is_same_size_as] answers true exactly when the two matrices have the same readable cells *)
Theorem C82_matrix_same_size :
  forall (A : Arith) (m m' : Mat T) (r c r' c' : nat) (f f' : nat -> nat -> T), mat_is m r c f -> mat_is m' r' c' f' ->
  exists b, m_is_same_size_as m m' = Ok b /\
    (b = true <-> forall i j, (exists x, m_get m i j = Ok x) <-> (exists x, m_get m' i j = Ok x)).
Proof. exact l_same_size. Qed.
Print Assumptions C82_matrix_same_size.

(** C82: [is_square] answers true exactly when the readable cells are symmetric *)
Theorem C82_square :
  forall (A : Arith) (m : Mat T) (r c : nat) (f : nat -> nat -> T), mat_is m r c f ->
  exists b, m_is_square m = Ok b /\ (b = true <-> forall i j, (exists x, m_get m i j = Ok x) -> exists x, m_get m j i = Ok x).
Proof. exact l_square. Qed.
Print Assumptions C82_square.

Theorem C82_vector_same_size :
  forall (A : Arith) (v v' : Vec T) (n n' : nat) (f f' : nat -> T), vec_is v n f -> vec_is v' n' f' ->
  exists b, v_is_same_size_as v v' = Ok b /\
    (b = true <-> forall i, (exists x, v_get v i = Ok x) <-> (exists x, v_get v' i = Ok x)).
Proof. exact l_vsame_size. Qed.
Print Assumptions C82_vector_same_size.

(** C82: [convert_to_matrix] gives the column with the same components, and reading that column back gives the vector *)
Theorem C82_convert :
  forall (A : Arith) (OK : ArithOk A) (v : Vec T) (n : nat) (f : nat -> T), vec_is v n f ->
  exists m v', v_convert_to_matrix v = Ok m /\ mat_is m n 1 (fun i _ => f i) /\ m_col_to_vector m 0 = Ok v' /\ vec_is v' n f.
Proof. exact l_convert. Qed.
Print Assumptions C82_convert.

(** C82: writing into a vector of u8 (used for permutations): errors in this order, otherwise the value is read
    back and nothing else changes *)
Theorem C82_u8 :
  forall (p : Vec nat) (i x : nat), length (v_elems p) = 4 -> v_rows p <= 4 ->
  let (p', r) := vu_set i x p in
  match first_error [(negb (v_is_initialized p), NotInit); (v_rows p <=? i, InvalidRow)] with
  | Some e => r = Err e /\ p' = p
  | None => r = Ok tt /\ v_get p' i = Ok x /\ (forall a, a <> i -> v_get p' a = v_get p a) /\
            v_get_rows p' = v_get_rows p /\ length (v_elems p') = 4
  end.
Proof. exact l_u8_set. Qed.
Print Assumptions C82_u8.

(** C82: a new vector of u8 holds zeros *)
Theorem C82_u8_fresh :
  forall (n : nat), 1 <= n <= 4 -> exists p, v_init n vu_new = (p, Ok tt) /\ length (v_elems p) = 4 /\ v_get_rows p = Ok n /\
  forall i, v_get p i = if i <? n then Ok 0 else Err InvalidRow.
Proof. exact l_u8_fresh. Qed.
Print Assumptions C82_u8_fresh.

Example C82_example :
  exists p p', v_init 3 vu_new = (p, Ok tt) /\ vu_set 1 200 p = (p', Ok tt) /\ map (v_get p') [0; 1; 2; 3] = [Ok 0; Ok 200; Ok 0; Err InvalidRow].
Proof. eexists. eexists. repeat split; reflexivity. Qed.
