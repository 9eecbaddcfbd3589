(** Generated by tools/gen_properties.py from P_ArZ.v: property theorems only. *)

From Coq Require Import List Arith ZArith NArith Reals Lia Bool Lra SpecFloat.
From Flocq Require Import Core BinarySingleNaN.
From Verif Require Import M_Base M_Arith M_Utils M_Vector M_Matrix M_Quaternion M_Sensors M_Ar M_F32 M_RX
  S_Spec S_Linalg S_Norm S_Quat S_Sensors S_Ar P_Inst.
Import ListNotations.
Local Open Scope nat_scope.

From Verif Require Import P_ArZ.

(** C42, violation: a zero attitude never recovers, whatever is measured and whatever the method *)
Theorem C42_zero_absorbing :
  forall (lm : Libm) (ck : bool) (s0 s : AR (A := F32 lm)) (f : nat -> f32), let A := F32 lm in
  ar_hist ck s0 Live -> vec_is (ar_attitude s0) 4 f -> (forall i, i < 4 -> B2R (f i) = 0%R) -> ar_later ck s0 s ->
  exists v g, ar_get_attitude s = Ok v /\ vec_is v 4 g /\ forall i, i < 4 -> B2R (g i : f32) = 0%R.
Proof. exact l_ar_zero. Qed.
Print Assumptions C42_zero_absorbing.

(** C42, violation: a filter initialised with the identity quaternion and given one huge but finite rate reports
    success, and its attitude is then zero *)
Theorem C42_zero_refuted :
  forall (lm : Libm) (ck : bool), exists (s s' : AR (A := F32 lm)), let A := F32 lm in
  ar_hist ck s Live /\ show_v (ar_attitude s) = (4, true, [sf 1; sf 0; sf 0; sf 0]) /\
  ar_update ck (z32 (2 ^ 72)) (z32 0) (z32 0) s = (s', Ok tt) /\ show_v (ar_attitude s') = (4, true, [sf 0; sf 0; sf 0; sf 0]).
Proof. exact l_ar_zero_w. Qed.
Print Assumptions C42_zero_refuted.

(** C42, violation: a failed update can leave a half-written attitude: with the Euler method from a quaternion that
    is not unit, one component has been replaced when the next one overflows *)
Theorem C42_failed_update_refuted :
  forall (lm : Libm) (ck : bool), exists (s s' : AR (A := F32 lm)) (e : AhrsError), let A := F32 lm in
  let M := z32 (2 ^ 127) in let N := z32 (- 2 ^ 127) in
  ar_hist ck s Live /\ show_v (ar_attitude s) = (4, true, [sf 1; B2SF M; B2SF N; sf 2]) /\
  ar_update ck (z32 0) (z32 0) (z32 1) s = (s', Err e) /\ show_v (ar_attitude s') = (4, true, [sf (-1); B2SF M; B2SF N; sf 2]).
Proof. exact l_ar_partial_w. Qed.
Print Assumptions C42_failed_update_refuted.

(** C41, violation: [init] does not check the sampling period.  With NaN or an infinity the
    filter is live, and yet no update that sees rotation ever succeeds with the Euler or Taylor methods *)
Theorem C41_nan_period :
  forall (lm : Libm) (ck : bool) (s : AR (A := F32 lm)) (w : nat -> f32) (gx gy gz : f32), let A := F32 lm in
  ar_hist ck s Live -> is_finite (ar_ts s : f32) = false -> ar_method s = Euler \/ ar_method s = TaylorSeries ->
  let (s', o) := ar_update ck gx gy gz s in
  o = Ok tt -> (forall i, i < 3 -> sensor_get Gyr i (ar_gyr s') = Ok (w i)) -> (rate_norm w >? EPSILON)%F = false.
Proof. exact l_ar_nan_ts. Qed.
Print Assumptions C41_nan_period.

(** a quarter-like turn by the Euler method: (1, 0, 0, 0) becomes (4/5, 0, 0, 3/5) *)
Example C42_example : forall (lm : Libm) (ck : bool), let A := F32 lm in
  let s := started_state lm (z32 1) (z32 0) (z32 0) (z32 0) (z32 2) Euler 1 in
  ar_hist ck s Live /\ show_v (ar_attitude s) = (4, true, [sf 1; sf 0; sf 0; sf 0]) /\
  shown (fun s => show_v (ar_attitude s)) (ar_update ck (z32 0) (z32 0) (lit32 3 4) s) =
    ((4, true, [B2SF (lit32 4 5); sf 0; sf 0; B2SF (lit32 3 5)]), Ok tt).
Proof. intros lm ck A s. split; [apply started; repeat split|]. split; vm_compute; reflexivity. Qed.
