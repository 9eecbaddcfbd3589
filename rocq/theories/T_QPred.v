(** Generated by tools/gen_properties.py from P_QPred.v: property theorems only. *)

From Coq Require Import List Arith ZArith Reals Lia Bool Lra.
From Flocq Require Import Core BinarySingleNaN.
From Verif Require Import M_Base M_Arith M_Utils M_Vector M_Matrix M_Quaternion M_F32 M_RX
  S_Spec S_Compare S_Linalg S_Norm S_Quat P_Inst P_InstQ.
Import ListNotations.
Local Open Scope nat_scope.

From Verif Require Import P_QPred.

(** C37: the getters return exactly the named components *)
Theorem C37_get :
  forall (A : Arith) (q : Vec T) (f : nat -> T), vec_is q 4 f ->
  q_get_qw q = Ok (f 0) /\ q_get_qx q = Ok (f 1) /\ q_get_qy q = Ok (f 2) /\ q_get_qz q = Ok (f 3).
Proof. exact l_get. Qed.
Print Assumptions C37_get.

(** C37: [get_vector_part] returns the 3-vector (x, y, z) *)
Theorem C37_get_vector_part :
  forall (A : Arith) (OK : ArithOk A) (q : Vec T) (f : nat -> T), vec_is q 4 f ->
  exists v, q_get_vector_part q = Ok v /\ vec_is v 3 (triple (f 1) (f 2) (f 3)).
Proof. exact l_vector_part. Qed.
Print Assumptions C37_get_vector_part.

(** C37: a setter writes its own component only; a value that is not finite is refused and nothing changes *)
Theorem C37_set :
  forall (A : Arith) (q : Vec T) (f : nat -> T) (x : T), vec_is q 4 f ->
  let outcome (cmd : T -> ST (Vec T) LinalgError unit) (i : nat) :=
    (valid x -> exists q', cmd x q = (q', Ok tt) /\ vec_is q' 4 (fun k => if k =? i then x else f k)) /\
    (forall k, bad x = Some k -> cmd x q = (q, Err (UtilsErr k))) in
  outcome q_set_qw 0 /\ outcome q_set_qx 1 /\ outcome q_set_qy 2 /\ outcome q_set_qz 3.
Proof. exact l_set. Qed.
Print Assumptions C37_set.

(** C37: [fillq] writes the four components in order, stopping at the first that is not finite;
    [fill_identity] gives 1, 0, 0, 0 *)
Theorem C37_fill :
  forall (A : Arith) (OK : ArithOk A) (q : Vec T) (f : nat -> T) (w x y z : T), vec_is q 4 f ->
  pointwise_v 4 f (quad w x y z) (q_fillq w x y z q) /\
  exists q', q_fill_identity q = (q', Ok tt) /\ vec_is q' 4 (quad f1 f0 f0 f0).
Proof. exact l_fill. Qed.
Print Assumptions C37_fill.

(** C37: [is_real], [is_pure], [is_identity] *)
Theorem C37_is_real :
  forall (A : Arith) (OK : ArithOk A) (q : Vec T) (f : nat -> T), vec_is q 4 f ->
  decides (q_is_real q) (within EPSILON (f 1) f0 /\ within EPSILON (f 2) f0 /\ within EPSILON (f 3) f0) /\
  decides (q_is_pure q) (within EPSILON (f 0) f0) /\
  decides (q_is_identity q) (within EPSILON (f 0) f1 /\
    within EPSILON (f 1) f0 /\ within EPSILON (f 2) f0 /\ within EPSILON (f 3) f0).
Proof. exact l_is_real. Qed.
Print Assumptions C37_is_real.

(** C37: [is_versor] compares the norm with 1; if the norm overflowed it reports the error *)
Theorem C37_is_versor :
  forall (A : Arith) (OK : ArithOk A) (q : Vec T) (f : nat -> T) (N : T), vec_is q 4 f -> v_calculate_norm q = Ok N ->
  (valid N -> decides (q_is_versor q) (within EPSILON N f1)) /\
  (forall k, bad N = Some k -> q_is_versor q = Err (UtilsErr k)).
Proof. exact l_is_versor. Qed.
Print Assumptions C37_is_versor.

(** C37: in exact arithmetic [is_versor] holds exactly when | |q| - 1 | <= EPSILON *)
Theorem C37_is_versor_real :
  forall (v : Vec (T (Arith := RX))) (q : quat), quat_r v q ->
  decides (q_is_versor v) (Rabs (qnorm q - 1) <= eps)%R.
Proof. exact l_is_versor_real. Qed.
Print Assumptions C37_is_versor_real.

(** C37: on a vector of size other than 4 every one of them answers InvalidSize and changes nothing *)
Theorem C37_sizes :
  forall (A : Arith) (q : Vec T) (n : nat) (f : nat -> T) (w x y z : T), vec_is q n f -> n <> 4 ->
  q_is_quaternion q = Ok false /\
  q_is_real q = Err InvalidSize /\ q_is_pure q = Err InvalidSize /\ q_is_versor q = Err InvalidSize /\
  q_is_identity q = Err InvalidSize /\ q_get_vector_part q = Err InvalidSize /\
  q_get_qw q = Err InvalidSize /\ q_get_qx q = Err InvalidSize /\ q_get_qy q = Err InvalidSize /\ q_get_qz q = Err InvalidSize /\
  q_set_qw x q = (q, Err InvalidSize) /\ q_set_qx x q = (q, Err InvalidSize) /\
  q_set_qy x q = (q, Err InvalidSize) /\ q_set_qz x q = (q, Err InvalidSize) /\
  q_fillq w x y z q = (q, Err InvalidSize) /\ q_fill_identity q = (q, Err InvalidSize).
Proof. exact l_qpred_sizes. Qed.
Print Assumptions C37_sizes.

Example C37_example :
  let A := F32 lm_id in
  let q := mk_vec (A := F32 lm_id) [z32 1; z32 0; z32 2; z32 0] in
  wfv q /\ q_is_identity q = Ok false /\ q_is_real q = Ok false /\ q_is_pure q = Ok false /\
  q_is_versor q = Ok false /\ obs (q_get_qy q) = Ok (sf 2).
Proof. split; [apply wfv_b_ok; reflexivity|]. vm_compute. auto. Qed.
