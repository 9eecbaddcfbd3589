(** Generated by tools/gen_properties.py from P_Diag.v: property theorems only. *)

From Coq Require Import List Arith ZArith Reals Lia Bool.
From Flocq Require Import Core BinarySingleNaN.
From Verif Require Import M_Base M_Arith M_Utils M_Vector M_Matrix M_F32 M_RX S_Spec S_Linalg P_Inst.
Import ListNotations.
Local Open Scope nat_scope.

From Verif Require Import P_Diag.

(** C12: [diag(k)] for every i8 offset: the elements (i + max(-k,0), i + max(k,0)), as many as
    lie inside the matrix; an error exactly when there is none.  No overflow with or without
    overflow checks. *)
Theorem C12_diag :
  forall (A : Arith) (OK : ArithOk A) (ck : bool) (m : Mat T) (r c : nat) (f : nat -> nat -> T) (k : Z),
  mat_is m r c f -> (-128 <= k <= 127)%Z ->
  exists n, (forall i, i < n <-> i + Z.to_nat (- k) < r /\ i + Z.to_nat k < c) /\
    match n with
    | 0 => m_diag ck m (Some k) = Err InvalidDiagonalLength
    | _ => exists v, m_diag ck m (Some k) = Ok v /\
             vec_is v n (fun i => f (i + Z.to_nat (- k)) (i + Z.to_nat k))
    end.
Proof. exact l_diag. Qed.
Print Assumptions C12_diag.

(** C12: without offset, the main diagonal *)
Theorem C12_diag_default :
  forall (A : Arith) (OK : ArithOk A) (ck : bool) (m : Mat T) (r c : nat) (f : nat -> nat -> T),
  mat_is m r c f -> exists v, m_diag ck m None = Ok v /\ vec_is v (min r c) (fun i => f i i).
Proof. exact l_diag_default. Qed.
Print Assumptions C12_diag_default.

Theorem C12_identity :
  forall (A : Arith) (OK : ArithOk A) (m : Mat T) (r c : nat) (f : nat -> nat -> T), mat_is m r c f ->
  if r =? c then exists m', m_fill_identity m = (m', Ok tt) /\
                   mat_is m' r r (fun i j => if i =? j then f1 else f0)
  else m_fill_identity m = (m, Err NotSquare).
Proof. exact l_identity. Qed.
Print Assumptions C12_identity.

(** C12: the trace is the left-to-right sum of the main diagonal of a square matrix (it is not
    checked for overflow) *)
Theorem C12_trace :
  forall (A : Arith) (m : Mat T) (r c : nat) (f : nat -> nat -> T), mat_is m r c f ->
  m_trace m = if r =? c then Ok (fsum r (fun i => f i i)) else Err NotSquare.
Proof. exact l_trace. Qed.
Print Assumptions C12_trace.

Example C12_example :
  let A := F32 lm_id in
  let m := mk_mat 2 3 (map z32 [1; 2; 3; 4; 5; 6]%Z) in
  wfm m /\
  rmap show_v (m_diag true m (Some 1%Z)) = Ok (2, true, map sf [2; 6]%Z) /\
  rmap show_v (m_diag true m (Some (-1)%Z)) = Ok (1, true, map sf [4]%Z) /\
  rmap show_v (m_diag true m (Some (-128)%Z)) = Err InvalidDiagonalLength /\
  rmap show_v (m_diag true m (Some 127%Z)) = Err InvalidDiagonalLength.
Proof.
  cbv zeta. split; [apply wfm_b_ok; vm_compute; reflexivity|].
  repeat (split; [vm_compute; reflexivity|]). vm_compute; reflexivity.
Qed.
