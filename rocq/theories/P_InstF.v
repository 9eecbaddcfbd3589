(** Concrete f32 containers for examples, and the value of literals. *)
From Coq Require Import List Arith ZArith Reals Lia Bool Lra SpecFloat.
From Flocq Require Import Core BinarySingleNaN.
From Verif Require Import M_Base M_Arith M_Utils M_Vector M_Matrix M_F32 S_Spec S_Linalg S_Quat S_F32 P_Inst P_Float P_FErr.
Import ListNotations.
Local Open Scope R_scope.

Lemma lit32_R n d : Rabs (IZR n / IZR (Zpos d)) <= bpow radix2 127 ->
  is_finite (lit32 n d) = true /\ B2R (lit32 n d) = rnd32 (IZR n / IZR (Zpos d)).
Proof.
  intros H. destruct n as [|p|p].
  - cbn. split; auto. unfold Rdiv. rewrite Rmult_0_l, round_0; auto with typeclass_instances.
  - destruct (Bdiv_correct_aux prec emax _ _ mode_NE false p 0 false d 0) as [V C] eqn:E.
    pose proof C as C'. cbn [round_mode cond_Zopp] in C'. unfold F2R in C'. cbn [Fnum Fexp bpow] in C'.
    rewrite !Rmult_1_r, (rnd32_lt _ H) in C'. destruct C' as (C1 & C2 & _).
    unfold lit32. rewrite is_finite_SF2B, B2R_SF2B. split; [exact C2|exact C1].
  - destruct (Bdiv_correct_aux prec emax _ _ mode_NE true p 0 false d 0) as [V C] eqn:E.
    pose proof C as C'. cbn [round_mode cond_Zopp] in C'. unfold F2R in C'. cbn [Fnum Fexp bpow Z.opp] in C'.
    rewrite !Rmult_1_r, (rnd32_lt _ H) in C'. destruct C' as (C1 & C2 & _).
    unfold lit32. rewrite is_finite_SF2B, B2R_SF2B. split; [exact C2|exact C1].
Qed.
Lemma z32_R n : (Z.abs n <= 2 ^ 24)%Z -> is_finite (z32 n) = true /\ B2R (z32 n) = IZR n.
Proof.
  intros H. assert (HR : Rabs (IZR n) <= bpow radix2 24).
  { rewrite <- abs_IZR. apply IZR_le in H. exact H. }
  destruct (lit32_R n 1) as [F E].
  { unfold Rdiv. rewrite Rinv_1, Rmult_1_r. eapply Rle_trans; [exact HR|]. apply bpow_le. lia. }
  split; [exact F|]. unfold z32. rewrite E. unfold Rdiv. rewrite Rinv_1, Rmult_1_r.
  apply round_generic; auto with typeclass_instances.
  destruct (Z.eq_dec n 0) as [->|N0]; [apply generic_format_0|].
  destruct (Z.eq_dec (Z.abs n) (2 ^ 24)) as [E24|N24].
  - apply generic_format_abs_inv. rewrite <- abs_IZR, E24. change (IZR (2 ^ 24)) with (bpow radix2 24).
    apply fmt_bpow. lia.
  - apply generic_format_FLT. exists (Float radix2 n 0).
    + unfold F2R. cbn. ring.
    + cbn [Fnum]. change (Zpower radix2 prec) with (2 ^ 24)%Z. lia.
    + cbn. unfold emax, prec. lia.
Qed.

Lemma fvec_is lm (l : list f32) : (1 <= length l <= 4)%nat -> Forall (fun x => is_finite x = true) l ->
  vec_is (A := F32 lm) (mk_vec (A := F32 lm) l) (length l) (fun i => nth i l (B754_zero false)).
Proof.
  intros H F. assert (HL : (1 <= @length (T (Arith := F32 lm)) l <= 4)%nat) by exact H. split.
  - split; cbn [mk_vec v_rows v_elems v_initialized]; try lia.
    + rewrite app_length, repeat_length. lia.
    + apply Forall_app. split.
      * eapply Forall_impl; [|exact F]. intros x Hx. apply (valid_finite lm). exact Hx.
      * apply Forall_forall. intros x Hx. apply repeat_spec in Hx. subst. split; reflexivity.
  - reflexivity.
  - reflexivity.
  - intros i Hi. unfold v_get, is_valid_row, mk_vec. cbn [v_initialized v_rows v_elems negb].
    destruct (Nat.leb_spec (@length (T (Arith := F32 lm)) l) i) as [HC|HC]; [exfalso; change (length l <= i)%nat in HC; lia|]. cbn [rbind negb]. unfold arr_get.
    rewrite nth_error_app1 by exact Hi. rewrite (nth_error_nth' _ (B754_zero false : f32)) by exact Hi. reflexivity.
Qed.
(** integer quaternions and vectors *)
Lemma fquat_z lm (w x y z : Z) : (Z.abs w <= 2 ^ 24 -> Z.abs x <= 2 ^ 24 -> Z.abs y <= 2 ^ 24 -> Z.abs z <= 2 ^ 24 ->
  quat_f (lm := lm) (mk_vec (A := F32 lm) (map z32 [w; x; y; z])) (Quat (IZR w) (IZR x) (IZR y) (IZR z)))%Z.
Proof.
  intros W X Y Z. destruct (z32_R _ W), (z32_R _ X), (z32_R _ Y), (z32_R _ Z).
  eexists. split; [apply (fvec_is lm); [cbn; lia|repeat constructor; auto]|].
  cbn [map length]. intros i Hi. destruct i as [|[|[|[|i]]]]; cbn [nth qf quad Qw Qx Qy Qz]; auto. lia.
Qed.
Lemma fvec3_z lm (x y z : Z) : (Z.abs x <= 2 ^ 24 -> Z.abs y <= 2 ^ 24 -> Z.abs z <= 2 ^ 24 ->
  vec_f (lm := lm) (mk_vec (A := F32 lm) (map z32 [x; y; z])) 3 (triple (IZR x) (IZR y) (IZR z)))%Z.
Proof.
  intros X Y Z. destruct (z32_R _ X), (z32_R _ Y), (z32_R _ Z).
  eexists. split; [apply (fvec_is lm); [cbn; lia|repeat constructor; auto]|].
  cbn [map length]. intros i Hi. destruct i as [|[|[|i]]]; cbn [nth triple]; auto. lia.
Qed.
