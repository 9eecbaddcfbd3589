(** Generated by tools/gen_properties.py from P_Norm32.v: property theorems only. *)

From Coq Require Import List Arith ZArith Reals Lia Bool Lra.
From Flocq Require Import Core BinarySingleNaN.
From Verif Require Import M_Base M_Arith M_Utils M_Vector M_Matrix M_Quaternion M_F32 M_RX S_Spec S_Linalg S_Norm P_Inst.
Import ListNotations.
Local Open Scope R_scope.

From Verif Require Import P_Norm32.

(** C28: for every finite f32 vector whose true norm is between 2*EPSILON and 2^60,
    [normalize] succeeds, the true norm of the result is within 1e-6 of 1 and every
    component is within 1e-6 of the true one. *)
Theorem C28_normalize_f32 :
  forall (lm : Libm), let A := F32 lm in
  forall (v : Vec T) (n : nat) (f : nat -> T), vec_is v n f ->
  let N := rnorm n (fun i => B2R (f i : f32)) in
  2 * eps <= N <= bpow radix2 60 ->
  exists v' g, v_normalize v = (v', Ok tt) /\ vec_is v' n g /\
    Rabs (rnorm n (fun i => B2R (g i : f32)) - 1) < / 1000000 /\
    forall i, (i < n)%nat -> Rabs (B2R (g i : f32) - B2R (f i : f32) / N) <= / 1000000.
Proof. exact l_normalize32. Qed.
Print Assumptions C28_normalize_f32.

(** C28: every quaternion whose true norm is within 1e-6 of 1 passes [is_versor]; in particular
    every normalised one *)
Theorem C28_versor :
  forall (lm : Libm), let A := F32 lm in
  forall (q : Vec T) (f : nat -> T), vec_is q 4 f ->
  Rabs (rnorm 4 (fun i => B2R (f i : f32)) - 1) < / 1000000 ->
  q_is_versor q = Ok true.
Proof. exact l_versor32. Qed.
Print Assumptions C28_versor.

(** C28: after [normalize] a quaternion passes [is_versor] *)
Theorem C28_normalized_is_versor :
  forall (lm : Libm), let A := F32 lm in
  forall (q : Vec T) (f : nat -> T), vec_is q 4 f ->
  2 * eps <= rnorm 4 (fun i => B2R (f i : f32)) <= bpow radix2 60 ->
  exists q', v_normalize q = (q', Ok tt) /\ q_is_versor q' = Ok true.
Proof. exact l_normalized_versor. Qed.
Print Assumptions C28_normalized_is_versor.

(** C28, violation: every finite vector with a component of magnitude 2^64 (about 1.8e19) or more
    is silently replaced by zeros, with the outcome Ok. *)
Theorem C28_overflow :
  forall (lm : Libm), let A := F32 lm in
  forall (v : Vec T) (n : nat) (f : nat -> T) (k : nat), vec_is v n f -> (k < n)%nat ->
  bpow radix2 64 <= Rabs (B2R (f k : f32)) ->
  exists v' g, v_normalize v = (v', Ok tt) /\ vec_is v' n g /\
    forall i, (i < n)%nat -> B2R (g i : f32) = 0.
Proof. exact l_norm_overflow. Qed.
Print Assumptions C28_overflow.

(** C28: for EVERY finite f32 vector, however large or small, [normalize] succeeds and the result
    has a true norm within 1e-6 of 1 or is exactly zero *)
Theorem C28_normalize_total :
  forall (lm : Libm), let A := F32 lm in
  forall (v : Vec T) (n : nat) (f : nat -> T), vec_is v n f ->
  exists v' g, v_normalize v = (v', Ok tt) /\ vec_is v' n g /\
    (Rabs (rnorm n (fun i => B2R (g i : f32)) - 1) < / 1000000 \/ forall i, (i < n)%nat -> B2R (g i : f32) = 0).
Proof. exact l_normalize_total. Qed.
Print Assumptions C28_normalize_total.

(** ... for instance 2^100 in one component *)
Theorem C28_overflow_refuted :
  forall (lm : Libm), exists (v v' : Vec (T (Arith := F32 lm))),
  wfv v /\ obs (v_get v 0) = Ok (sf (2 ^ 100)) /\ v_normalize v = (v', Ok tt) /\
  obs (v_get v' 0) = Ok (sf 0) /\ obs (v_get v' 1) = Ok (sf 0).
Proof. exact l_norm_overflow_w. Qed.
Print Assumptions C28_overflow_refuted.

Example C28_example :
  let A := F32 lm_id in
  let v := mk_vec (map z32 [3; 4]%Z) in
  wfv v /\ shown show_v (v_normalize v) = ((2, true, [B2SF (lit32 3 5); B2SF (lit32 4 5)])%nat, Ok tt).
Proof. cbv zeta. split; [apply wfv_b_ok; vm_compute; reflexivity|]. vm_compute; reflexivity. Qed.
