(** Generated by tools/gen_properties.py from P_Rand.v: property theorems only. *)

From Coq Require Import List Arith ZArith NArith Reals Lia Bool Lra.
From Verif Require Import M_Base M_Arith M_Utils M_Vector M_Matrix M_Quaternion M_Ar M_RX S_Spec S_Linalg.
Local Open Scope R_scope.

From Verif Require Import P_Rand.

(** The attitudes do not depend on the random generator: any two streams of 64-bit words below u64::MAX
    give the same result, whatever the arithmetic (only the words consumed matter). *)
Theorem C55_stream :
  forall (A : Arith) (draws draws' : nat -> N) (number : nat),
  (forall i, (i < 3 * number)%nat -> (draws i < 2 ^ 64 - 1)%N /\ (draws' i < 2 ^ 64 - 1)%N) ->
  generate_random_attitudes draws number = generate_random_attitudes draws' number.
Proof. exact l_gra_stream. Qed.
Print Assumptions C55_stream.

(** What they are, in exact arithmetic: for 1 to 4 attitudes the n-th one is always the same rotation
    about the y axis, starting one step of pi/64 from the identity and adding pi/64 (of half-angle) at each
    step; other numbers of attitudes are refused. *)
Theorem C55_value :
  forall (draws : nat -> N) (number : nat), (forall i, (i < 3 * number)%nat -> (draws i < 2 ^ 64 - 1)%N) ->
  (number = 0%nat -> generate_random_attitudes (A := RX) draws number = Err ColsNumberNull) /\
  ((4 < number)%nat -> generate_random_attitudes (A := RX) draws number = Err ColsNumberOverflow) /\
  ((1 <= number <= 4)%nat ->
    exists m, generate_random_attitudes (A := RX) draws number = Ok m /\
      let angle n := INR (n + 1) * (3141592653589793 / 1000000000000000 / 64) in
      mat_r m 4 number (fun i n => match i with 0%nat => cos (angle n) | 2%nat => sin (angle n) | _ => 0 end)).
Proof. exact l_gra_value. Qed.
Print Assumptions C55_value.

(** So two generators that produce different words give the same four attitudes. *)
Theorem C55_refuted :
  exists draws draws' : nat -> N, (forall i, (draws i < 2 ^ 64)%N /\ (draws' i < 2 ^ 64)%N /\ draws i <> draws' i) /\
  forall A : Arith, generate_random_attitudes draws 4 = generate_random_attitudes draws' 4.
Proof. exact l_gra_refuted. Qed.
Print Assumptions C55_refuted.
