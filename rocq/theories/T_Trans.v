(** Generated by tools/gen_properties.py from P_Trans.v: property theorems only. *)

From Coq Require Import List Arith ZArith Lia Bool.
From Flocq Require Import BinarySingleNaN.
From Verif Require Import M_Base M_Arith M_Utils M_Vector M_Matrix M_F32 S_Spec P_Inst.
Import ListNotations.

From Verif Require Import P_Trans.

(** C11: transpose succeeds on every initialised matrix; dimensions and indices are swapped. *)
Theorem C11_transpose :
  forall (A : Arith) (OK : ArithOk A) (m : Mat T) (r c : nat) (f : nat -> nat -> T), mat_is m r c f ->
  exists m', m_transpose m = (m', Ok tt) /\ mat_is m' c r (fun i j => f j i).
Proof. exact l_transpose. Qed.
Print Assumptions C11_transpose.

(** C11: transposing twice restores dimensions and every element. *)
Theorem C11_transpose_twice :
  forall (A : Arith) (OK : ArithOk A) (m : Mat T) (r c : nat) (f : nat -> nat -> T), mat_is m r c f ->
  exists m1 m2, m_transpose m = (m1, Ok tt) /\ m_transpose m1 = (m2, Ok tt) /\ mat_is m2 r c f.
Proof. exact l_transpose_twice. Qed.
Print Assumptions C11_transpose_twice.

(** C11: [transpose_new] returns a matrix with the content [transpose] would produce. *)
Theorem C11_transpose_new :
  forall (A : Arith) (OK : ArithOk A) (m : Mat T) (r c : nat) (f : nat -> nat -> T), mat_is m r c f ->
  exists m' m'', m_transpose_new m = Ok m' /\ m_transpose m = (m'', Ok tt) /\
    mat_is m' c r (fun i j => f j i) /\ mat_is m'' c r (fun i j => f j i).
Proof. exact l_transpose_new. Qed.
Print Assumptions C11_transpose_new.

Example C11_example :
  let A := F32 lm_id in
  let m := mk_mat 2 3 (map z32 [1; 2; 3; 4; 5; 6]%Z) in
  wfm m /\ shown show_m (m_transpose m) = ((3, 2, true, map sf [1; 4; 2; 5; 3; 6]%Z), Ok tt).
Proof.
  split; [apply wfm_b_ok; vm_compute; reflexivity|]. vm_compute. reflexivity.
Qed.
