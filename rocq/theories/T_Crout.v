(** Generated by tools/gen_properties.py from P_Crout.v: property theorems only. *)

From Coq Require Import List Arith ZArith Reals Lia Bool Lra.
From Flocq Require Import Core BinarySingleNaN.
From Verif Require Import M_Base M_Arith M_Utils M_Vector M_Matrix M_F32 M_RX
  S_Spec S_Linalg S_Norm S_Lu P_Inst.
Import ListNotations.
Local Open Scope R_scope.

From Verif Require Import P_Crout.

(** C19, violation for every 4 x 4 matrix: when [lr] succeeds the factors are triangular, and L R = A holds if and only if
    five sums of products of their elements, which the accumulator carries over, all vanish *)
Theorem C19_four :
  forall (m ml mr : Mat (T (Arith := RX))) (a : nat -> nat -> R), mat_r m 4 4 a -> m_lr m = Ok (ml, mr) ->
  exists l r, mat_r ml 4 4 l /\ mat_r mr 4 4 r /\ (forall i, (i < 4)%nat -> l i i = 1) /\ lower 4 l /\ upper 4 r /\
    (req 4 4 (rmul 4 l r) a <->
     l 1%nat 0%nat * r 0%nat 1%nat = 0 /\ l 1%nat 0%nat * r 0%nat 2%nat = 0 /\ l 3%nat 0%nat * r 0%nat 1%nat = 0 /\
     l 2%nat 0%nat * r 0%nat 2%nat + l 2%nat 1%nat * r 1%nat 2%nat = 0 /\
     l 3%nat 0%nat * r 0%nat 2%nat + l 3%nat 1%nat * r 1%nat 2%nat = 0).
Proof. exact l_lr_four. Qed.
Print Assumptions C19_four.

(** C20: for 1 x 1 and 2 x 2, when [lu_crout] does succeed, L U = A with L unit lower and U upper triangular *)
Theorem C20_small :
  forall (m ml mu : Mat (T (Arith := RX))) (n : nat) (a : nat -> nat -> R), mat_r m n n a -> (n <= 2)%nat -> m_lu_crout m = Ok (ml, mu) ->
  exists l u, mat_r ml n n l /\ mat_r mu n n u /\ (forall i, (i < n)%nat -> l i i = 1) /\ lower n l /\ upper n u /\ req n n (rmul n l u) a.
Proof. exact l_crout_small. Qed.
Print Assumptions C20_small.

(** C20, violation for every 3 x 3 matrix: when [lu_crout] succeeds, L U = A holds if and only if l10 u01 = 0 and
    l20 u01 = 0; the factors are always triangular *)
Theorem C20_three :
  forall (m ml mu : Mat (T (Arith := RX))) (a : nat -> nat -> R), mat_r m 3 3 a -> m_lu_crout m = Ok (ml, mu) ->
  exists l u, mat_r ml 3 3 l /\ mat_r mu 3 3 u /\ (forall i, (i < 3)%nat -> l i i = 1) /\ lower 3 l /\ upper 3 u /\
    (req 3 3 (rmul 3 l u) a <-> l 1%nat 0%nat * u 0%nat 1%nat = 0 /\ l 2%nat 0%nat * u 0%nat 1%nat = 0).
Proof. exact l_crout_three. Qed.
Print Assumptions C20_three.

(** C20, violation for every 4 x 4 matrix: the same with six sums of products *)
Theorem C20_four :
  forall (m ml mu : Mat (T (Arith := RX))) (a : nat -> nat -> R), mat_r m 4 4 a -> m_lu_crout m = Ok (ml, mu) ->
  exists l u, mat_r ml 4 4 l /\ mat_r mu 4 4 u /\ (forall i, (i < 4)%nat -> l i i = 1) /\ lower 4 l /\ upper 4 u /\
    (req 4 4 (rmul 4 l u) a <->
     l 1%nat 0%nat * u 0%nat 1%nat = 0 /\ l 1%nat 0%nat * u 0%nat 2%nat = 0 /\ l 3%nat 0%nat * u 0%nat 1%nat = 0 /\
     l 2%nat 0%nat * u 0%nat 2%nat + l 2%nat 1%nat * u 1%nat 2%nat = 0 /\
     l 3%nat 0%nat * u 0%nat 2%nat + l 3%nat 1%nat * u 1%nat 2%nat = 0 /\ l 2%nat 0%nat * u 0%nat 1%nat = 0).
Proof. exact l_crout_four. Qed.
Print Assumptions C20_four.

(** C20, violation: in binary32, with e = 2^-14, [lu_crout] succeeds on [[e,1,0],[0,e,1],[1,0,0]], and the last element of
    L U is -2^14 instead of 0 *)
Theorem C20_three_refuted :
  exists m : Mat f32, forall lm : Libm, wfm (A := F32 lm) m /\
  show_m m = (3%nat, 3%nat, true, map B2SF [lit32 1 16384; z32 1; z32 0; z32 0; lit32 1 16384; z32 1; z32 1; z32 0; z32 0]) /\
  rmap (fun s => (show_m (fst s), show_m (snd s), rmap show_m (m_mul_new (A := F32 lm) (fst s) (snd s)))) (m_lu_crout (A := F32 lm) m) =
    Ok ((3%nat, 3%nat, true, map sf [1; 0; 0; 0; 1; 0; 2 ^ 14; - 2 ^ 28; 1]%Z),
        (3%nat, 3%nat, true, map B2SF [lit32 1 16384; z32 1; z32 0; z32 0; lit32 1 16384; z32 1; z32 0; z32 0; z32 (2 ^ 28 - 2 ^ 14)]),
        Ok (3%nat, 3%nat, true, map B2SF [lit32 1 16384; z32 1; z32 0; z32 0; lit32 1 16384; z32 1; z32 1; z32 0; z32 (- 2 ^ 14)])).
Proof. exact l_crout_three_w. Qed.
Print Assumptions C20_three_refuted.

(** test: [lr] succeeds on a 4 x 4 matrix on which nothing is carried over, and on one where something is *)
Example C19_four_example :
  let A := F32 lm_id in
  let m := mk_mat 4 4 (map z32 [2; 0; 0; 1; 0; 1; 0; 2; 4; 0; 1; 3; 0; 0; 2; 1]%Z) in
  let m' := mk_mat 4 4 (map z32 [1; 1; 1; 1; 1; 2; 3; 4; 1; 3; 6; 10; 1; 4; 10; 20]%Z) in
  let square x := rbind (m_lr x) (fun s => rmap show_m (m_mul_new (fst s) (snd s))) in
  wfm m /\ wfm m' /\ square m = Ok (show_m m) /\ square m' <> Ok (show_m m').
Proof. cbv zeta. split; [apply wfm_b_ok; vm_compute; reflexivity|]. split; [apply wfm_b_ok; vm_compute; reflexivity|]. split; vm_compute; [reflexivity|discriminate]. Qed.
