(** Generated by tools/gen_properties.py from P_Ar32.v: property theorems only. *)

From Coq Require Import List Arith ZArith NArith Reals Lia Bool Lra SpecFloat.
From Flocq Require Import Core BinarySingleNaN.
From Verif Require Import M_Base M_Arith M_Utils M_Vector M_Matrix M_Quaternion M_Sensors M_Ar M_F32 M_RX
  S_Spec S_Linalg S_Norm S_Quat S_Sensors S_Ar P_Inst.
Import ListNotations.
Local Open Scope nat_scope.

From Verif Require Import P_Ar32.

(** C42, in f32 with any libm, any method and after any history: a successful update that saw rotation (the
    corrected rate, which is what the gyrometer then reports, has a norm above EPSILON) leaves an attitude
    of true norm within 1e-6 of 1, or exactly zero; one that saw none leaves the attitude as it was; and a failed
    one too, unless the method is Euler and the attitude was not unit. *)
Theorem C42_unit :
  forall (lm : Libm) (ck : bool) (s : AR (A := F32 lm)) (f w : nat -> f32) (gx gy gz : f32), let A := F32 lm in
  ar_hist ck s Live -> vec_is (ar_attitude s) 4 f ->
  let (s', o) := ar_update ck gx gy gz s in
  (o = Ok tt -> (forall i, i < 3 -> sensor_get Gyr i (ar_gyr s') = Ok (w i)) ->
     ((rate_norm w >? EPSILON)%F = true -> exists g, vec_is (ar_attitude s') 4 g /\ good g) /\
     ((rate_norm w >? EPSILON)%F = false -> ar_attitude s' = ar_attitude s)) /\
  (forall e, o = Err e -> ar_method s <> Euler \/ good f -> ar_attitude s' = ar_attitude s).
Proof. exact l_ar_unit. Qed.
Print Assumptions C42_unit.

(** C42: once the attitude is unit (or zero) - in particular if the filter was initialised with a unit quaternion -
    it stays so along every further history of calls, successful or not: drift never accumulates *)
Theorem C42_history :
  forall (lm : Libm) (ck : bool) (s0 s : AR (A := F32 lm)) (f : nat -> f32), let A := F32 lm in
  ar_hist ck s0 Live -> vec_is (ar_attitude s0) 4 f -> good f -> ar_later ck s0 s ->
  exists v g, ar_get_attitude s = Ok v /\ vec_is v 4 g /\ good g.
Proof. exact l_ar_history. Qed.
Print Assumptions C42_history.
