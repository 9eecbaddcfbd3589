(** Generated by tools/gen_properties.py from P_Norm.v: property theorems only. *)

From Coq Require Import List Arith ZArith Reals Lia Bool Lra.
From Flocq Require Import Core BinarySingleNaN.
From Verif Require Import M_Base M_Arith M_Utils M_Vector M_Matrix M_F32 M_RX S_Spec S_Linalg S_Norm P_Inst.
Import ListNotations.
Local Open Scope nat_scope.

From Verif Require Import P_Norm.

(** C27: [calculate_norm] is the Euclidean norm, flushed to 0 when it is at most EPSILON *)
Theorem C27_norm :
  forall (v : Vec (T (Arith := RX))) (n : nat) (x : nat -> R), vec_r v n x ->
  ((rnorm n x <= eps)%R -> v_calculate_norm v = Ok (Some 0%R)) /\
  ((eps < rnorm n x)%R -> v_calculate_norm v = Ok (Some (rnorm n x))).
Proof. exact l_norm. Qed.
Print Assumptions C27_norm.

(** C27: [normalize] divides by the norm when it exceeds EPSILON, and the result then has norm 1 *)
Theorem C27_normalize :
  forall (v : Vec (T (Arith := RX))) (n : nat) (x : nat -> R), vec_r v n x -> (eps < rnorm n x)%R ->
  exists v' y, v_normalize v = (v', Ok tt) /\ vec_r v' n y /\ rnorm n y = 1%R /\
    forall i, i < n -> (x i = rnorm n x * y i)%R.
Proof. exact l_normalize. Qed.
Print Assumptions C27_normalize.

(** C27: otherwise it writes zeros *)
Theorem C27_normalize_small :
  forall (v : Vec (T (Arith := RX))) (n : nat) (x : nat -> R), vec_r v n x -> (rnorm n x <= eps)%R ->
  exists v', v_normalize v = (v', Ok tt) /\ vec_r v' n (fun _ => 0%R).
Proof. exact l_normalize_small. Qed.
Print Assumptions C27_normalize_small.

Example C27_example :
  let v := rvec [3; 4]%R in
  vec_r v 2 (fun i => nth i [3; 4] 0)%R /\ rnorm 2 (fun i => nth i [3; 4] 0)%R = 5%R /\ (eps < 5)%R.
Proof.
  cbv zeta. split; [apply (rvec_is [3; 4]%R); cbn; lia|]. split; [|unfold eps; lra].
  unfold rnorm, rdot. cbn. replace (0 + 3 * 3 + 4 * 4)%R with (5 * 5)%R by ring. apply sqrt_square. lra.
Qed.
