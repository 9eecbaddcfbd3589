(** Generated by tools/gen_properties.py from P_Print.v: property theorems only. *)

From Coq Require Import String List Arith ZArith NArith Reals Lia Bool Lra SpecFloat.
From Flocq Require Import Core BinarySingleNaN.
From Verif Require Import M_Base M_Arith M_Utils M_Vector M_Matrix M_Quaternion M_Sensors M_Ar M_F32 M_Print
  S_Spec S_Reach S_Linalg S_Quat S_Sensors S_Ar P_Inst.
Import ListNotations.
Local Open Scope nat_scope.
Local Open Scope list_scope.

From Verif Require Import P_Print.

(** C64: printing any initialised vector a program can get hold of succeeds and writes its elements, as [get_element]
    returns them, in order and one per line, then an empty line *)
Theorem C64_vector :
  forall (A : Arith) (OK : ArithOk A) (ck : bool) (v : Vec T) (n : nat) (o : list token), reach ck (OV v) -> v_get_rows v = Ok n ->
  exists f, (forall i, i < n -> v_get v i = Ok (f i)) /\
    v_print v o = (o ++ flat_map (fun i => [Number (f i); Newline]) (seq 0 n) ++ [Newline], Ok tt).
Proof. exact l_v_print. Qed.
Print Assumptions C64_vector.

(** C64: the same for matrices: row by row, a tabulator after each element, a newline after each row and one more
    at the end *)
Theorem C64_matrix :
  forall (A : Arith) (OK : ArithOk A) (ck : bool) (m : Mat T) (r c : nat) (o : list token), reach ck (OM m) -> m_get_rows m = Ok r -> m_get_cols m = Ok c ->
  exists f, (forall i j, i < r -> j < c -> m_get m i j = Ok (f i j)) /\
    m_print m o = (o ++ flat_map (fun i => flat_map (fun j => [Number (f i j); Tab]) (seq 0 c) ++ [Newline]) (seq 0 r) ++ [Newline], Ok tt).
Proof. exact l_m_print. Qed.
Print Assumptions C64_matrix.

(** C64: [print_attitude] of the angular-rate filter, after any history: before a successful [init] it writes nothing and
    reports that the filter is not initialised; afterwards it writes the four components that [get_attitude] returns *)
Theorem C64_attitude :
  forall (A : Arith) (OK : ArithOk A) (ck : bool) (s : AR) (p : phase) (o : list token), ar_hist ck s p ->
  match p with
  | Live => exists v w x y z, ar_get_attitude s = Ok v /\ vec_is v 4 (quad w x y z) /\
      ar_print_attitude s o = (o ++ [Number w; Newline; Number x; Newline; Number y; Newline; Number z; Newline; Newline], Ok tt)
  | _ => ar_print_attitude s o = (o, Err ARFilterNotInit)
  end.
Proof. exact l_ar_print. Qed.
Print Assumptions C64_attitude.

(** C64, violation: unlike every other method, [print] of a container that was never initialised does not report [NotInit]: it
    succeeds and writes an empty line *)
Theorem C64_uninitialised_refuted :
  forall (lm : Libm) (ck : bool) (o : list token), exists (v : Vec (T (Arith := F32 lm))) (m : Mat (T (Arith := F32 lm))),
  reach (A := F32 lm) ck (OV v) /\ reach (A := F32 lm) ck (OM m) /\ v_get_rows v = Err NotInit /\ m_get_rows m = Err NotInit /\
  v_print (A := F32 lm) v o = (o ++ [Newline], Ok tt) /\ m_print (A := F32 lm) m o = (o ++ [Newline], Ok tt).
Proof. exact l_print_new. Qed.
Print Assumptions C64_uninitialised_refuted.

Example C64_example : forall lm ck, exists (m : Mat (T (Arith := F32 lm))), reach (A := F32 lm) ck (OM m) /\ m_get_rows m = Ok 2 /\ m_get_cols m = Ok 3.
Proof. exact print_ex_h. Qed.
