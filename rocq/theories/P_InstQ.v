(** Concrete exact-real quaternions and 3 x 3 matrices, for examples. *)
From Coq Require Import List Reals Lia.
From Verif Require Import M_Base M_Arith M_Vector M_Matrix M_RX S_Spec S_Linalg S_Quat P_Inst.
Import ListNotations.

Lemma rquat_is (w x y z : R) : quat_r (rvec [w; x; y; z]) (Quat w x y z).
Proof.
  destruct (rvec_is [w; x; y; z]) as [W I R G]; [cbn; lia|]. split; auto.
  intros i Hi. rewrite G by auto. destruct i as [|[|[|[|i]]]]; try reflexivity. lia.
Qed.
Lemma rtriple_is (x y z : R) : vec_r (rvec [x; y; z]) 3 (triple x y z).
Proof.
  destruct (rvec_is [x; y; z]) as [W I R G]; [cbn; lia|]. split; auto.
  intros i Hi. rewrite G by auto. destruct i as [|[|[|i]]]; try reflexivity. cbn in Hi. lia.
Qed.
