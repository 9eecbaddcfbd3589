(** Facts about binary32 arithmetic used by the f32-level theorems. *)
From Coq Require Import ZArith Reals Lia Lra Bool Psatz.
From Flocq Require Import Core BinarySingleNaN.
From Verif Require Import M_Base M_Arith M_Utils M_F32 S_Spec P_Inst.
Local Open Scope R_scope.

Notation rnd32 := (round radix2 (SpecFloat.fexp prec emax) ZnearestE).
Notation fexp32 := (SpecFloat.fexp prec emax).

Lemma valid_finite lm (x : f32) : valid (A := F32 lm) x <-> is_finite x = true.
Proof.
  unfold valid. cbn. destruct x; cbn; intuition congruence.
Qed.

Lemma Bmult_comm (x y : f32) : Bmult mode_NE x y = Bmult mode_NE y x.
Proof.
  apply B2SF_inj. destruct x as [sx|sx| |sx mx ex Hx], y as [sy|sy| |sy my ey Hy]; cbn;
    try rewrite xorb_comm; try reflexivity.
  rewrite !B2SF_SF2B. rewrite (xorb_comm sx sy), (Pos.mul_comm mx my), (Z.add_comm ex ey). reflexivity.
Qed.

Lemma Bplus_comm (x y : f32) : Bplus mode_NE x y = Bplus mode_NE y x.
Proof.
  destruct x as [sx|sx| |sx mx ex Hx], y as [sy|sy| |sy my ey Hy]; cbn; try reflexivity;
    try (destruct sx, sy; reflexivity).
  rewrite (Z.min_comm ey ex). f_equal. unfold Fplus_naive. apply Zplus_comm.
Qed.

Lemma rnd32_opp x : rnd32 (- x) = - rnd32 x.
Proof. apply round_NE_opp. Qed.

(** distance is symmetric bit for bit *)
Lemma Babs_Bminus_sym (x y : f32) : is_finite x = true -> is_finite y = true ->
  Babs (Bminus mode_NE x y) = Babs (Bminus mode_NE y x).
Proof.
  intros Fx Fy.
  pose proof (Bminus_correct prec emax _ _ mode_NE x y Fx Fy) as H1.
  pose proof (Bminus_correct prec emax _ _ mode_NE y x Fy Fx) as H2.
  replace (B2R y - B2R x) with (- (B2R x - B2R y)) in H2 by ring.
  cbn [round_mode] in *. rewrite rnd32_opp, Rabs_Ropp in H2.
  destruct (Rlt_bool_spec (Rabs (rnd32 (B2R x - B2R y))) (bpow radix2 emax)).
  - destruct H1 as (E1 & F1 & _), H2 as (E2 & F2 & _).
    apply B2R_Bsign_inj; rewrite ?is_finite_Babs, ?Bsign_Babs; auto.
    rewrite !B2R_Babs, E1, E2, Rabs_Ropp. reflexivity.
  - destruct H1 as (E1 & _), H2 as (E2 & _).
    assert (K : forall z : f32, forall s, B2SF z = binary_overflow prec emax mode_NE s -> Babs z = B754_infinity false).
    { intros z s Hz. destruct z; try discriminate Hz. reflexivity. }
    rewrite (K _ _ E1), (K _ _ E2). reflexivity.
Qed.
Lemma Bminus_diag (x : f32) : is_finite x = true -> Bminus mode_NE x x = B754_zero false.
Proof.
  intros Fx. pose proof (Bminus_correct prec emax _ _ mode_NE x x Fx Fx) as H.
  rewrite Rminus_diag_eq in H by reflexivity. cbn [round_mode] in H. rewrite round_0 in H by auto with typeclass_instances.
  rewrite Rabs_R0, Rlt_bool_true in H by apply bpow_gt_0.
  destruct H as (E & F & S). apply B2R_Bsign_inj; auto.
  rewrite S, Rcompare_Eq by reflexivity. destruct (Bsign x); reflexivity.
Qed.

(** multiplication by 1.0 and 0.0 *)
Lemma B2R_one : B2R (lit32 1 1) = 1.
Proof. cbn. unfold F2R. cbn. lra. Qed.
Lemma Bmult_one_r (x : f32) : is_finite x = true -> Bmult mode_NE x (lit32 1 1) = x.
Proof.
  intros Fx. pose proof (Bmult_correct prec emax _ _ mode_NE x (lit32 1 1)) as H.
  rewrite B2R_one, Rmult_1_r in H. cbn [round_mode] in H.
  rewrite round_generic in H; auto with typeclass_instances; [|apply generic_format_B2R].
  rewrite Rlt_bool_true in H by apply abs_B2R_lt_emax.
  destruct H as (E & F & S). rewrite Fx in F.
  assert (N : is_nan (Bmult mode_NE x (lit32 1 1)) = false).
  { destruct (Bmult mode_NE x (lit32 1 1)); cbn in *; congruence. }
  apply B2R_Bsign_inj; auto.
  rewrite (S N). change (Bsign (lit32 1 1)) with false. apply xorb_false_r.
Qed.
Lemma Bmult_zero_r (x : f32) : is_finite x = true -> exists s, Bmult mode_NE x (lit32 0 1) = B754_zero s.
Proof. destruct x; cbn; try discriminate; eauto. Qed.
(** [-0] becomes [+0] *)
Definition zpos (x : f32) : f32 := match x with B754_zero _ => B754_zero false | _ => x end.
Lemma Bplus_zpos_zero x s : is_finite x = true -> Bplus mode_NE (zpos x) (B754_zero s) = zpos x.
Proof. destruct x, s; cbn; try discriminate; reflexivity. Qed.
Lemma Bplus_zero_l x : is_finite x = true -> Bplus mode_NE (B754_zero false) x = zpos x.
Proof. destruct x as [[]| | |]; cbn; try discriminate; reflexivity. Qed.
