(** Generated by tools/gen_properties.py from P_Quat.v: property theorems only. *)

From Coq Require Import List Arith ZArith Reals Lia Bool Lra.
From Flocq Require Import Core BinarySingleNaN.
From Verif Require Import M_Base M_Arith M_Utils M_Vector M_Matrix M_Quaternion M_F32 M_RX
  S_Spec S_Compare S_Linalg S_Norm S_Quat P_Inst P_InstQ.
Import ListNotations.
Local Open Scope nat_scope.

From Verif Require Import P_Quat.

(** C31: what [mul] and [mul_new] compute in any arithmetic, in the machine's order of operations;
    they stop at the first component that overflows *)
Theorem C31_machine_product :
  forall (A : Arith) (OK : ArithOk A) (self a b : Vec T) (s f g : nat -> T),
  vec_is self 4 s -> vec_is a 4 f -> vec_is b 4 g ->
  let prod := quad (f 0 * g 0 - f 1 * g 1 - f 2 * g 2 - f 3 * g 3)%F
                   (f 0 * g 1 + f 1 * g 0 - f 3 * g 2 + f 2 * g 3)%F
                   (f 0 * g 2 + f 3 * g 1 + g 0 * f 2 - f 1 * g 3)%F
                   (f 0 * g 3 - f 2 * g 1 + f 1 * g 2 + g 0 * f 3)%F in
  pointwise_v 4 s prod (q_mul a b self) /\ pointwise_vnew 4 prod (q_mul_new a b).
Proof. exact l_machine_mul. Qed.
Print Assumptions C31_machine_product.

(** C31: in exact arithmetic both are the Hamilton product *)
Theorem C31_hamilton :
  forall (self a b : Vec (T (Arith := RX))) (s : nat -> R) (p q : quat),
  vec_r self 4 s -> quat_r a p -> quat_r b q ->
  exists v v', q_mul a b self = (v, Ok tt) /\ quat_r v (qmul p q) /\
               q_mul_new a b = Ok v' /\ quat_r v' (qmul p q).
Proof. exact l_hamilton. Qed.
Print Assumptions C31_hamilton.

(** C31: associativity, unit, distributivity on both sides, homogeneity, conjugation reverses
    products, q q* = q* q = |q|^2: equalities of program results *)
Theorem C31_laws :
  forall (one a b c : Vec (T (Arith := RX))) (p q r : quat) (t : R),
  quat_r one qone -> quat_r a p -> quat_r b q -> quat_r c r ->
  (let? ab := q_mul_new a b in q_mul_new ab c) = (let? bc := q_mul_new b c in q_mul_new a bc) /\
  q_mul_new one a = Ok a /\ q_mul_new a one = Ok a /\
  (let? bc := v_add_new b c in q_mul_new a bc)
    = (let? ab := q_mul_new a b in let? ac := q_mul_new a c in v_add_new ab ac) /\
  (let? ab := v_add_new a b in q_mul_new ab c)
    = (let? ac := q_mul_new a c in let? bc := q_mul_new b c in v_add_new ac bc) /\
  (let? ta := v_mul_by_scalar_new (A := RX) a (Some t) in q_mul_new ta b)
    = (let? ab := q_mul_new a b in v_mul_by_scalar_new (A := RX) ab (Some t)) /\
  (let? ab := q_mul_new a b in q_conjugate_new ab)
    = (let? b' := q_conjugate_new b in let? a' := q_conjugate_new a in q_mul_new b' a') /\
  (exists v, (let? a' := q_conjugate_new a in q_mul_new a a') = Ok v /\
             (let? a' := q_conjugate_new a in q_mul_new a' a) = Ok v /\
             quat_r v (Quat (qnorm2 p) 0 0 0)).
Proof. exact l_laws. Qed.
Print Assumptions C31_laws.

(** C31: the norm of the computed product is the product of the norms *)
Theorem C31_norm :
  forall (a b v : Vec (T (Arith := RX))) (p q r : quat),
  quat_r a p -> quat_r b q -> q_mul_new a b = Ok v -> quat_r v r ->
  qnorm r = (qnorm p * qnorm q)%R.
Proof. exact l_norm_mul. Qed.
Print Assumptions C31_norm.

(** C31: i^2 = j^2 = k^2 = ijk = -1, as computed *)
Theorem C31_units :
  forall (i j k : Vec (T (Arith := RX))), quat_r i q_i -> quat_r j q_j -> quat_r k q_k ->
  exists v, quat_r v (Quat (-1) 0 0 0) /\ q_mul_new i i = Ok v /\ q_mul_new j j = Ok v /\
    q_mul_new k k = Ok v /\ (let? ij := q_mul_new i j in q_mul_new ij k) = Ok v.
Proof. exact l_units. Qed.
Print Assumptions C31_units.

(** C31, f32: conjugating flips exactly the signs of the vector part, and twice gives the original
    quaternion back bit for bit *)
Theorem C31_conjugate_f32 :
  forall (lm : Libm), let A := F32 lm in
  forall (v : Vec T) (f : nat -> T), vec_is v 4 f ->
  exists v', q_conjugate v = (v', Ok tt) /\
    vec_is v' 4 (quad (f 0) (Bopp (f 1 : f32)) (Bopp (f 2 : f32)) (Bopp (f 3 : f32))) /\
    q_conjugate v' = (v, Ok tt) /\ q_conjugate_new v = Ok v' /\ q_conjugate_new v' = Ok v.
Proof. exact l_conj32. Qed.
Print Assumptions C31_conjugate_f32.

(** C31: arguments of size other than 4 are refused and the target is untouched *)
Theorem C31_sizes :
  forall (A : Arith) (OK : ArithOk A) (self a b : Vec T) (ns na nb : nat) (s f g : nat -> T),
  vec_is self ns s -> vec_is a na f -> vec_is b nb g ->
  (ns <> 4 \/ na <> 4 \/ nb <> 4 -> q_mul a b self = (self, Err InvalidSize)) /\
  (na <> 4 \/ nb <> 4 -> q_mul_new a b = Err InvalidSize) /\
  (ns <> 4 -> q_conjugate self = (self, Err InvalidSize) /\ q_conjugate_new self = Err InvalidSize).
Proof. exact l_mul_sizes. Qed.
Print Assumptions C31_sizes.

Example C31_example :
  let v := rvec [1; 2; 3; 4]%R in quat_r v (Quat 1 2 3 4) /\ qnorm2 (Quat 1 2 3 4) = 30%R /\
  qmul (Quat 1 2 3 4) (Quat 5 6 7 8) = Quat (-60) 12 30 24 /\
  qmul (Quat 5 6 7 8) (Quat 1 2 3 4) = Quat (-60) 20 14 32.
Proof.
  cbv zeta. split.
  - apply rquat_is.
  - unfold qnorm2, qmul; cbn. repeat split; try f_equal; ring.
Qed.
