(** C62: how far the angular-rate filter (closed form) is off in f32. *)
(*@+*)
From Coq Require Import List Arith ZArith NArith Reals Lia Bool Lra SpecFloat.
From Flocq Require Import Core BinarySingleNaN.
From Verif Require Import M_Base M_Arith M_Utils M_Vector M_Matrix M_Quaternion M_Sensors M_Ar M_F32
  S_Spec S_Linalg S_Norm S_Quat S_Sensors S_Ar S_F32 S_Track P_Inst P_InstF.
Import ListNotations.
Local Open Scope R_scope.
(*@-*)
From Coq Require Import Psatz.
From Verif Require Import P_Hoare P_Cont P_Loops P_Access P_Pointwise P_Trans P_Float P_Product
  P_Compare P_Dot P_Norm P_FErr P_Norm32 P_Quat P_Sensors P_Ar P_ArR P_Ar32 P_ArZ P_FAcc P_F32Mul P_F32Rot.

Lemma Rabs_sin_le x : Rabs (sin x) <= Rabs x.
Proof.
  assert (P : forall y, 0 <= y -> Rabs (sin y) <= y).
  { intros y Hy. destruct (Rle_lt_dec 1 y) as [L|L].
    - pose proof (SIN_bound y). apply Rabs_le. lra.
    - destruct (Req_dec y 0) as [->|N]; [rewrite sin_0, Rabs_R0; lra|].
      pose proof (sin_lt_x y ltac:(lra)). pose proof PI2_1. pose proof (sin_ge_0 y ltac:(lra) ltac:(lra)). rewrite Rabs_pos_eq; lra. }
  destruct (Rle_dec 0 x) as [H|H].
  - rewrite (Rabs_pos_eq x) by auto. auto.
  - rewrite (Rabs_left1 x) by lra. rewrite <- Rabs_Ropp, <- sin_neg. apply P. lra.
Qed.
Lemma sin_lip x y : Rabs (sin x - sin y) <= Rabs (x - y).
Proof.
  rewrite form4. pose proof (COS_bound ((x + y) / 2)) as C. pose proof (Rabs_sin_le ((x - y) / 2)) as S.
  rewrite !Rabs_mult, (Rabs_pos_eq 2) by lra.
  assert (Rabs (cos ((x + y) / 2)) <= 1) by (apply Rabs_le; lra).
  assert (E : Rabs ((x - y) / 2) = Rabs (x - y) / 2) by (unfold Rdiv; rewrite Rabs_mult, (Rabs_pos_eq (/ 2)) by lra; reflexivity).
  rewrite E in S. pose proof (Rabs_pos (cos ((x + y) / 2))). pose proof (Rabs_pos (sin ((x - y) / 2))).
  assert (Rabs (cos ((x + y) / 2)) * Rabs (sin ((x - y) / 2)) <= 1 * (Rabs (x - y) / 2)) by (apply Rmult_le_compat; auto). lra.
Qed.
Lemma cos_lip x y : Rabs (cos x - cos y) <= Rabs (x - y).
Proof.
  rewrite !cos_sin. replace (x - y) with ((PI / 2 + x) - (PI / 2 + y)) by ring. apply sin_lip.
Qed.

Lemma Bmult_opp_l (x y : f32) : is_finite x = true -> is_finite y = true -> Rabs (B2R x * B2R y) <= bpow radix2 127 ->
  is_finite (Bmult mode_NE (Bopp x) y) = true /\ B2R (Bmult mode_NE (Bopp x) y) = - B2R (Bmult mode_NE x y).
Proof.
  intros Fx Fy H. destruct (mult_ok x y Fx Fy H) as [_ E].
  destruct (mult_ok (Bopp x) y) as [F E']; [rewrite is_finite_Bopp; auto|auto| |].
  - rewrite B2R_Bopp, <- Ropp_mult_distr_l, Rabs_Ropp. exact H.
  - split; auto. rewrite E', E, B2R_Bopp, <- Ropp_mult_distr_l. apply rnd32_opp.
Qed.
Lemma plus_zero (x y : f32) : is_finite x = true -> is_finite y = true -> B2R x = 0 \/ B2R y = 0 ->
  is_finite (Bplus mode_NE x y) = true /\ B2R (Bplus mode_NE x y) = B2R x + B2R y.
Proof.
  intros Fx Fy H.
  assert (G : generic_format radix2 fexp32 (B2R x + B2R y)).
  { destruct H as [-> | ->]; rewrite ?Rplus_0_l, ?Rplus_0_r; apply generic_format_B2R. }
  pose proof (Bplus_correct prec emax _ _ mode_NE x y Fx Fy) as C. cbn [round_mode] in C.
  rewrite (round_generic _ _ _ _ G) in C. rewrite Rlt_bool_true in C; [tauto|].
  destruct H as [-> | ->]; rewrite ?Rplus_0_l, ?Rplus_0_r; apply abs_B2R_lt_emax.
Qed.
Lemma mult_zero (x y : f32) : is_finite x = true -> is_finite y = true -> B2R x = 0 \/ B2R y = 0 ->
  is_finite (Bmult mode_NE x y) = true /\ B2R (Bmult mode_NE x y) = 0.
Proof.
  intros Fx Fy H. assert (E : B2R x * B2R y = 0) by (destruct H as [-> | ->]; ring).
  destruct (mult_ok x y Fx Fy) as [F E']; [rewrite E, Rabs_R0; apply bpow_ge_0|]. split; auto.
  rewrite E', E, round_0; auto with typeclass_instances.
Qed.

Lemma sqrt_finite (s : f32) : is_finite s = true -> 0 <= B2R s -> is_finite (Bsqrt mode_NE s) = true.
Proof.
  intros F H. destruct (Rle_lt_or_eq_dec _ _ H) as [L|Z]; [apply sqrt_ok; auto|].
  destruct s as [sg| | |sg m e Hb]; cbn in F; try discriminate; [reflexivity|].
  exfalso. cbn in Z. symmetry in Z. apply eq_0_F2R in Z. destruct sg; discriminate.
Qed.
(** the matrix of q -> q r *)
Definition rmat (r : quat) (i j : nat) : R :=
  nth (4 * i + j) [Qw r; - Qx r; - Qy r; - Qz r;
                   Qx r; Qw r; Qz r; - Qy r;
                   Qy r; - Qz r; Qw r; Qx r;
                   Qz r; Qy r; - Qx r; Qw r] 0.
Lemma rmat_mul r q i : (i < 4)%nat -> Rsum 4 (fun j => rmat r i j * qf q j) = qf (qmul q r) i.
Proof. intros H. do 4 (destruct i as [|i]; [cbn; ring|]). lia. Qed.
Lemma Rsum_less g k : (forall j, 0 <= g j) -> (k <= 4)%nat -> Rsum k g <= Rsum 4 g.
Proof.
  intros P Hk. pose proof (P 0%nat). pose proof (P 1%nat). pose proof (P 2%nat). pose proof (P 3%nat).
  do 5 (destruct k as [|k]; [cbn; lra|]). lia.
Qed.
Lemma rmat_abs r q i k : (i < 4)%nat -> (k <= 4)%nat -> Rsum k (fun j => Rabs (rmat r i j * qf q j)) <= qnorm q * qnorm r.
Proof.
  intros Hi Hk. apply Rle_trans with (Rsum 4 (fun j => Rabs (rmat r i j * qf q j))).
  - apply Rsum_less; [intros; apply Rabs_pos|auto].
  - pose proof (cs_abs q r (rmat r i 0) (rmat r i 1) (rmat r i 2) (rmat r i 3)) as C. cbn [Rsum].
    rewrite !(Rmult_comm (rmat r i _)). rewrite Rplus_0_l. apply C.
    unfold qnorm2. do 4 (destruct i as [|i]; [cbn; ring|]). lia.
Qed.

Lemma gt_b lm (x y : f32) : fltb (Arith := F32 lm) y x = Bltb y x.
Proof. reflexivity. Qed.
Lemma step_cf lm order (ts : f32) (f fw : nat -> f32) (n : f32) i : step (A := F32 lm) ClosedForm order ts f fw n i =
  fsum (A := F32 lm) 4 (fun j => Bmult mode_NE (cf_mat (A := F32 lm) ts fw n i j) (f j)).
Proof. reflexivity. Qed.
Section Step.
  Context (lm : Libm) (d B : R) (LM : libm_accurate lm d B).
  Notation A := (F32 lm).
  Context (fw : nat -> f32) (Fw : forall i, (i < 3)%nat -> is_finite (fw i) = true).
  Let w i := B2R (fw i).
  Let N := rnorm 3 w.
  Context (N60 : N <= bpow radix2 60) (ts : f32) (Ft : is_finite ts = true).
  Let t := B2R ts.
  Context (HB : N * Rabs t <= B) (B3 : 1 <= B <= 1000) (Hd : 0 <= d <= / 100).
  Let n : f32 := rate_norm (A := A) fw.

  Lemma N_pos : 0 <= N. Proof. apply rnorm_pos. Qed.
  Lemma rate_cases :
    (Bltb (EPSILON (A := A) : f32) n = false /\ N <= 102 / 1000000) \/
    (Bltb (EPSILON (A := A) : f32) n = true /\ 98 / 1000000 <= N /\ is_finite n = true /\ Rabs (B2R n - N) <= 7 * u * N).
  Proof.
    pose proof N_pos as P. destruct (eps32 lm) as [FE EE]. set (E := EPSILON (A := A) : f32) in *.
    set (r := Bsqrt mode_NE (fsum (A := A) 3 (fun i => Bmult mode_NE (fw i) (fw i)))).
    assert (En : n = if Bleb r E then B754_zero false else r) by reflexivity.
    assert (T0 : Bltb E (B754_zero false) = false).
    { rewrite Bltb_ok by (auto; reflexivity). apply Rlt_bool_false. cbn [B2R]. lra. }
    destruct (Rlt_dec N (/ 100000)) as [L|L].
    - destruct (Bleb r E) eqn:ER; rewrite En.
      + left. split; [exact T0|lra].
      + destruct (Bltb E r) eqn:EL; [|left; split; [reflexivity|lra]]. exfalso.
        destruct (sumsq_err lm 3 fw ltac:(lia) Fw) as [Fs Es].
        { fold w. rewrite <- rnorm_sqr. fold N. rewrite <- big_60. apply Rmult_le_compat; auto. }
        assert (Fr : is_finite r = true).
        { destruct (nonneg_fsum lm 3 fw Fw) as [C|[_ C]]; [cbn in C, Fs; rewrite C in Fs; discriminate|].
          apply sqrt_finite; [exact Fs|exact C]. }
        rewrite Bltb_ok in EL by auto. destruct (Rlt_bool_spec (B2R E) (B2R r)) as [EL'|EL']; [|discriminate].
        destruct (norm_fin lm 3 fw ltac:(lia) Fs) as [NF _]; [fold r; lra|]. fold w in NF. fold N in NF. lra.
    - destruct (norm_err lm 3 fw ltac:(lia) Fw) as [Fr Er]; [fold w; fold N; lra|]. fold w in Er. fold N in Er. fold r in Fr, Er.
      rewrite Bleb_ok in En by auto. apply Rabs_le_inv in Er as Er'. unfold u in Er'.
      destruct (Rle_bool_spec (B2R r) (B2R E)) as [L1|L1]; rewrite En.
      + left. split; [exact T0|]. lra.
      + right. rewrite Bltb_ok by auto. split; [apply Rlt_bool_true; auto|]. split; [lra|]. auto.
  Qed.

  Context (HN : 98 / 1000000 <= N) (Fn : is_finite n = true) (En : Rabs (B2R n - N) <= 7 * u * N).
  Let X := N * Rabs t.
  Let th0 := N * t / 2.
  Let th : f32 := Bdiv mode_NE (Bmult mode_NE n ts) (f2 (A := A)).
  Let s : f32 := lm_sin lm th.
  Let c : f32 := lm_cos lm th.
  Let k : f32 := Bdiv mode_NE s n.
  Let D := d + (5 * u * X + 2 * eta).

  Lemma X_bd : 0 <= X <= 1000.
  Proof. pose proof N_pos. pose proof (Rabs_pos t). unfold X. split; [apply Rmult_le_pos; auto|lra]. Qed.
  Lemma eta_lt : 0 < eta <= u / 1000000 /\ bpow radix2 60 * eta <= u / 1000000.
  Proof.
    split; [apply eta_1|]. unfold eta. rewrite <- bpow_plus. apply Rle_trans with (bpow radix2 (-50)); [apply bpow_le; lia|].
    cbn. unfold u. lra.
  Qed.
  Lemma big127 : 1000000 <= bpow radix2 127.
  Proof. apply Rle_trans with (bpow radix2 20); [cbn; lra|apply bpow_le; lia]. Qed.
  Lemma two32 : B2R (f2 (A := A) : f32) = 2.
  Proof. cbn. unfold F2R. cbn. lra. Qed.
  Lemma th_ok : is_finite th = true /\ Rabs (B2R th - th0) <= 5 * u * X + 2 * eta.
  Proof.
    pose proof X_bd as XB. pose proof eta_lt as [E0 _]. pose proof big127 as BG.
    assert (P1 : Rabs (B2R n * t - N * t) <= 7 * u * X).
    { replace (B2R n * t - N * t) with ((B2R n - N) * t) by ring. rewrite Rabs_mult. unfold X. rewrite <- Rmult_assoc.
      apply Rmult_le_compat_r; auto using Rabs_pos. }
    assert (AX : Rabs (N * t) = X) by (unfold X; rewrite Rabs_mult, (Rabs_pos_eq N) by apply N_pos; reflexivity).
    assert (S1 : Rabs (B2R n * t) <= 2000).
    { replace (B2R n * t) with ((B2R n * t - N * t) + N * t) by ring. eapply Rle_trans; [apply Rabs_triang|]. rewrite AX. unfold u in *. lra. }
    destruct (mult_ok n ts Fn Ft) as [Fa Ea]; [fold t; lra|]. fold t in Ea.
    assert (P2 : Rabs (B2R (Bmult mode_NE n ts) - N * t) <= 81 / 10 * u * X + eta).
    { rewrite Ea. eapply Rle_trans; [apply (rnd_acc _ _ X _ P1); [lra|unfold u; lra]|]. unfold u in *. lra. }
    set (a := Bmult mode_NE n ts) in *.
    assert (P3 : Rabs (B2R a / 2 - th0) <= 405 / 100 * u * X + eta / 2).
    { unfold th0. replace (B2R a / 2 - N * t / 2) with ((B2R a - N * t) * / 2) by field.
      rewrite Rabs_mult, (Rabs_pos_eq (/ 2)) by lra. lra. }
    assert (S2 : Rabs th0 <= X / 2).
    { unfold th0, Rdiv. rewrite Rabs_mult, (Rabs_pos_eq (/ 2)), AX by lra. lra. }
    destruct (div_ok a (f2 (A := A) : f32) Fa) as [F E].
    - rewrite two32. lra.
    - rewrite two32. replace (B2R a / 2) with ((B2R a / 2 - th0) + th0) by ring. eapply Rle_trans; [apply Rabs_triang|]. unfold u in *. lra.
    - split; [exact F|]. unfold th. rewrite E, two32. eapply Rle_trans; [apply (rnd_acc _ _ (X / 2) _ P3 S2); unfold u; lra|]. unfold u in *. lra.
  Qed.
  Lemma sc_ok : is_finite s = true /\ Rabs (B2R s - sin th0) <= D /\ is_finite c = true /\ Rabs (B2R c - cos th0) <= D.
  Proof.
    destruct th_ok as [F E]. pose proof X_bd as XB. pose proof eta_lt as [E0 _].
    assert (AX : Rabs (N * t) = X) by (unfold X; rewrite Rabs_mult, (Rabs_pos_eq N) by apply N_pos; reflexivity).
    assert (S2 : Rabs th0 <= X / 2).
    { unfold th0, Rdiv. rewrite Rabs_mult, (Rabs_pos_eq (/ 2)), AX by lra. lra. }
    destruct (LM th F) as [[Fs Es] [Fc Ec]].
    - replace (B2R th) with ((B2R th - th0) + th0) by ring. eapply Rle_trans; [apply Rabs_triang|]. fold X in HB. unfold u in *. lra.
    - fold s in Fs, Es. fold c in Fc, Ec. split; [exact Fs|]. split; [|split; [exact Fc|]].
      + replace (B2R s - sin th0) with ((B2R s - sin (B2R th)) + (sin (B2R th) - sin th0)) by ring.
        eapply Rle_trans; [apply Rabs_triang|]. pose proof (sin_lip (B2R th) th0). unfold D. lra.
      + replace (B2R c - cos th0) with ((B2R c - cos (B2R th)) + (cos (B2R th) - cos th0)) by ring.
        eapply Rle_trans; [apply Rabs_triang|]. pose proof (cos_lip (B2R th) th0). unfold D. lra.
  Qed.
  Lemma D_bd : 0 <= D <= 11 / 1000.
  Proof. pose proof X_bd. pose proof eta_lt as [E0 _]. unfold D, u in *. lra. Qed.
  Lemma s_bd : Rabs (B2R s) <= 102 / 100.
  Proof.
    destruct sc_ok as (_ & E & _). pose proof D_bd. pose proof (SIN_bound th0). apply Rabs_le_inv in E. apply Rabs_le. lra.
  Qed.
  Lemma n_pos : 97 / 1000000 <= B2R n.
  Proof. apply Rabs_le_inv in En. unfold u in *. lra. Qed.
  Lemma k_ok : is_finite k = true /\ exists e h, Rabs e <= u /\ Rabs h <= eta /\ B2R k = B2R s / B2R n * (1 + e) + h.
  Proof.
    destruct sc_ok as (Fs & _). pose proof s_bd as SB. pose proof n_pos as NP. pose proof big127 as BG.
    destruct (div_ok s n Fs) as [F E]; [lra| |].
    - unfold Rdiv. rewrite Rabs_mult, (Rabs_pos_eq (/ B2R n)) by (left; apply Rinv_0_lt_compat; lra).
      assert (/ B2R n <= / (97 / 1000000)) by (apply Rinv_le; lra).
      assert (0 < / B2R n) by (apply Rinv_0_lt_compat; lra).
      apply Rle_trans with (102 / 100 * / (97 / 1000000)); [apply Rmult_le_compat; auto using Rabs_pos; lra|lra].
    - split; [exact F|]. fold k in E. destruct (rnd32_err (B2R s / B2R n)) as (e & h & He & Hh & Er). exists e, h. rewrite E, Er. auto.
  Qed.
  Lemma wi_ok i : (i < 3)%nat -> Rabs (w i * B2R k) <= 2 /\
    is_finite (Bmult mode_NE (fw i) k) = true /\ Rabs (B2R (Bmult mode_NE (fw i) k) - sin th0 * (w i / N)) <= D + 10 * u.
  Proof.
    intros Hi. destruct k_ok as (Fk & e & h & He & Hh & Ek). destruct sc_ok as (_ & Es & _). pose proof s_bd as SB. pose proof n_pos as NP.
    pose proof D_bd as DB. pose proof eta_lt as [E0 E60]. pose proof big127 as BG.
    assert (WN : Rabs (w i) <= N) by (apply (rnorm_bound 3 w i Hi)).
    assert (RN : Rabs (w i / N) <= 1).
    { unfold Rdiv. rewrite Rabs_mult, (Rabs_pos_eq (/ N)) by (left; apply Rinv_0_lt_compat; lra).
      apply Rmult_le_reg_r with N; [lra|]. rewrite Rmult_assoc, Rinv_l by lra. lra. }
    assert (P1 : Rabs (w i / B2R n - w i / N) <= 71 / 10 * u).
    { replace (w i / B2R n - w i / N) with ((w i / N) * ((N - B2R n) / B2R n)) by (field; lra).
      rewrite Rabs_mult. replace (71 / 10 * u) with (1 * (71 / 10 * u)) by ring. apply Rmult_le_compat; auto using Rabs_pos.
      unfold Rdiv. rewrite Rabs_mult, (Rabs_pos_eq (/ B2R n)) by (left; apply Rinv_0_lt_compat; lra).
      apply Rmult_le_reg_r with (B2R n); [lra|]. rewrite Rmult_assoc, Rinv_l, Rmult_1_r by lra. rewrite Rabs_minus_sym.
      eapply Rle_trans; [exact En|]. apply Rabs_le_inv in En. unfold u in *. lra. }
    set (rho := w i / N) in *. set (v := w i / B2R n) in *.
    assert (VB : Rabs v <= 101 / 100).
    { replace v with ((v - rho) + rho) by ring. eapply Rle_trans; [apply Rabs_triang|]. unfold u in *. lra. }
    assert (P2 : Rabs (B2R s * v - sin th0 * rho) <= D + 73 / 10 * u).
    { replace (B2R s * v - sin th0 * rho) with (B2R s * (v - rho) + (B2R s - sin th0) * rho) by ring.
      eapply Rle_trans; [apply Rabs_triang|]. rewrite !Rabs_mult.
      assert (Rabs (B2R s) * Rabs (v - rho) <= 102 / 100 * (71 / 10 * u)) by (apply Rmult_le_compat; auto using Rabs_pos).
      assert (Rabs (B2R s - sin th0) * Rabs rho <= D * 1) by (apply Rmult_le_compat; auto using Rabs_pos).
      unfold u in *. lra. }
    assert (SV : Rabs (B2R s * v) <= 104 / 100).
    { rewrite Rabs_mult. apply Rle_trans with (102 / 100 * (101 / 100)); [apply Rmult_le_compat; auto using Rabs_pos|lra]. }
    assert (EW : w i * B2R k = B2R s * v + (B2R s * v * e + w i * h)). { rewrite Ek. unfold v. field. lra. }
    assert (P3 : Rabs (B2R s * v * e + w i * h) <= 105 / 100 * u).
    { eapply Rle_trans; [apply Rabs_triang|]. rewrite (Rabs_mult _ e), (Rabs_mult (w i) h).
      assert (Rabs (B2R s * v) * Rabs e <= 104 / 100 * u) by (apply Rmult_le_compat; auto using Rabs_pos).
      assert (Rabs (w i) * Rabs h <= bpow radix2 60 * eta) by (apply Rmult_le_compat; auto using Rabs_pos; lra).
      unfold u in *. lra. }
    assert (P4 : Rabs (w i * B2R k - sin th0 * rho) <= D + 84 / 10 * u).
    { rewrite EW. replace (B2R s * v + (B2R s * v * e + w i * h) - sin th0 * rho) with ((B2R s * v - sin th0 * rho) + (B2R s * v * e + w i * h)) by ring.
      eapply Rle_trans; [apply Rabs_triang|]. lra. }
    assert (SR : Rabs (sin th0 * rho) <= 1).
    { rewrite Rabs_mult. pose proof (SIN_bound th0). assert (Rabs (sin th0) <= 1) by (apply Rabs_le; lra).
      replace 1 with (1 * 1) by ring. apply Rmult_le_compat; auto using Rabs_pos. }
    assert (W2 : Rabs (w i * B2R k) <= 2).
    { rewrite EW. eapply Rle_trans; [apply Rabs_triang|]. unfold u in *. lra. }
    split; [exact W2|]. destruct (mult_ok (fw i) k (Fw i Hi) Fk) as [F E]; [fold (w i); lra|]. fold (w i) in E.
    split; [exact F|]. rewrite E. eapply Rle_trans; [apply (rnd_acc _ _ 1 _ P4 SR); unfold u; lra|]. unfold u in *. lra.
  Qed.

  (** the quaternion whose product the matrix computes *)
  Definition rhat : quat := Quat (B2R c) (B2R (Bmult mode_NE (fw 0%nat) k)) (B2R (Bmult mode_NE (fw 1%nat) k)) (B2R (Bmult mode_NE (fw 2%nat) k)).
  Lemma rhat_ok : qdist rhat (turn w t) <= 2 * (D + 10 * u).
  Proof.
    destruct sc_ok as (_ & _ & _ & Ec). pose proof (wi_ok 0%nat ltac:(lia)) as (_ & _ & W0).
    pose proof (wi_ok 1%nat ltac:(lia)) as (_ & _ & W1). pose proof (wi_ok 2%nat ltac:(lia)) as (_ & _ & W2).
    unfold turn. rewrite <- rnorm3. fold N. fold th0. apply qdist_comp; cbn [rhat Qw Qx Qy Qz]; auto.
    pose proof eta_lt. unfold u in *. lra.
  Qed.
  Lemma cell_ok i j : (i < 4)%nat -> (j < 4)%nat ->
    is_finite (Bmult mode_NE (idm (A := A) i j) c) = true /\ is_finite (Bmult mode_NE (omega_t (A := A) fw i j) k) = true /\
    is_finite (cf_mat (A := A) ts fw n i j : f32) = true /\ B2R (cf_mat (A := A) ts fw n i j : f32) = rmat rhat i j.
  Proof.
    intros Hi Hj. destruct sc_ok as (_ & _ & Fc & _). destruct k_ok as (Fk & _).
    assert (F0 : is_finite (f0 (A := A) : f32) = true) by reflexivity.
    assert (Z0 : B2R (f0 (A := A) : f32) = 0) by reflexivity.
    assert (I1 : Bmult mode_NE (f1 (A := A) : f32) c = c) by (rewrite Bmult_comm; apply Bmult_one_r; auto).
    destruct (mult_zero (f0 (A := A) : f32) c F0 Fc (or_introl Z0)) as [FI EI].
    destruct (mult_zero (f0 (A := A) : f32) k F0 Fk (or_introl Z0)) as [FZ EZ].
    pose proof big127 as BG.
    assert (W : forall i, (i < 3)%nat -> is_finite (Bmult mode_NE (fw i) k) = true /\
      is_finite (Bmult mode_NE (Bopp (fw i)) k) = true /\ B2R (Bmult mode_NE (Bopp (fw i)) k) = - B2R (Bmult mode_NE (fw i) k)).
    { intros a Ha. destruct (wi_ok a Ha) as (L & F & _). split; [exact F|]. apply Bmult_opp_l; auto. fold (w a). lra. }
    assert (CASE : forall (a b : f32) (x y : R), is_finite (Bmult mode_NE a c) = true -> is_finite (Bmult mode_NE b k) = true ->
      B2R (Bmult mode_NE a c) = x -> B2R (Bmult mode_NE b k) = y -> x = 0 \/ y = 0 ->
      is_finite (Bmult mode_NE a c) = true /\ is_finite (Bmult mode_NE b k) = true /\
      is_finite (Bplus mode_NE (Bmult mode_NE a c) (Bmult mode_NE b k)) = true /\
      B2R (Bplus mode_NE (Bmult mode_NE a c) (Bmult mode_NE b k)) = x + y).
    { intros a b x y Fa Fb <- <- O. split; [exact Fa|]. split; [exact Fb|]. apply plus_zero; auto. }
    change (cf_mat (A := A) ts fw n i j : f32) with (Bplus mode_NE (Bmult mode_NE (idm (A := A) i j) c) (Bmult mode_NE (omega_t (A := A) fw i j) k)).
    destruct (W 0%nat ltac:(lia)) as (A0 & A1 & A2). destruct (W 1%nat ltac:(lia)) as (B0 & B1 & B2). destruct (W 2%nat ltac:(lia)) as (C0 & C1 & C2).
    assert (DG : forall i, (i < 4)%nat -> rmat rhat i i = B2R c + 0). { intros a Ha. do 4 (destruct a as [|a]; [cbn; ring|]). lia. }
    assert (OD : forall i, (i < 4)%nat -> omega_t (A := A) fw i i = f0). { intros a Ha. do 4 (destruct a as [|a]; [reflexivity|]). lia. }
    destruct (Nat.eq_dec i j) as [<-|NE].
    - unfold idm. rewrite Nat.eqb_refl, OD, DG by auto. apply CASE; auto; rewrite I1; auto.
    - replace (idm (A := A) i j) with (f0 (A := A)) by (unfold idm; rewrite (proj2 (Nat.eqb_neq i j) NE); reflexivity).
      replace (rmat rhat i j) with (0 + rmat rhat i j) by ring.
      apply CASE; auto.
      all: destruct i as [|[|[|[|i]]]]; [| | | |lia]; (destruct j as [|[|[|[|j]]]]; [| | | |lia]); try (exfalso; apply NE; reflexivity); assumption || reflexivity.
  Qed.

  Context (f : nat -> f32) (q : quat) (Ff : forall i, (i < 4)%nat -> is_finite (f i) = true /\ B2R (f i) = qf q i)
    (Nq : Rabs (qnorm q - 1) < / 1000000).
  Lemma rhat_norm : qnorm rhat <= 103 / 100.
  Proof.
    pose proof rhat_ok as R. pose proof D_bd. pose proof (qdist_norm rhat (turn w t)) as Q.
    rewrite (unit_norm (turn w t)) in Q by (apply turn_unit; fold N; lra). unfold u in *. lra.
  Qed.
  Lemma row_acc i m : (i < 4)%nat -> (m <= 4)%nat ->
    acc (INR m + 1) (fsum (A := A) m (fun j => Bmult mode_NE (cf_mat (A := A) ts fw n i j) (f j)))
      (Rsum m (fun j => rmat rhat i j * qf q j)) (Rsum m (fun j => Rabs (rmat rhat i j * qf q j))).
  Proof.
    intros Hi Hm. pose proof (rmat_abs rhat q i m Hi Hm) as L. pose proof rhat_norm as RN. apply Rabs_def2 in Nq as Nq'. pose proof huge_1 as HG.
    assert (E : forall a, (a < m)%nat -> B2R (cf_mat (A := A) ts fw n i a : f32) * B2R (f a) = rmat rhat i a * qf q a).
    { intros a Ha. destruct (cell_ok i a Hi ltac:(lia)) as (_ & _ & _ & ->). destruct (Ff a ltac:(lia)) as [_ ->]. reflexivity. }
    pose proof (fsum_acc lm m (fun j => cf_mat (A := A) ts fw n i j) f Hm) as R.
    rewrite (Rsum_ext m (fun j => rmat rhat i j * qf q j) (fun j => B2R (cf_mat (A := A) ts fw n i j : f32) * B2R (f j))) by (intros; rewrite E; auto).
    rewrite (Rsum_ext m (fun j => Rabs (rmat rhat i j * qf q j)) (fun j => Rabs (B2R (cf_mat (A := A) ts fw n i j : f32) * B2R (f j)))) in * by (intros; rewrite E; auto).
    apply R.
    - intros a Ha. split; [apply cell_ok; lia|apply Ff; lia].
    - eapply Rle_trans; [exact L|]. apply Rle_trans with (2 * 2); [|lra]. apply Rmult_le_compat; auto using qnorm_pos; lra.
  Qed.
  Lemma step_fin ck order : step_finite (A := A) ck ClosedForm order ts f fw n.
  Proof.
    split.
    - intros i j Hi Hj. apply (valid_finite lm). destruct i as [|[|[|[|i]]]]; [| | | |lia]; (destruct j as [|[|[|[|j]]]]; [| | | |lia]);
        try reflexivity; try (cbn; apply Fw; lia); cbn; rewrite is_finite_Bopp; apply Fw; lia.
    - intros i j Hi Hj. destruct (cell_ok i j Hi Hj) as (C1 & C2 & C3 & _).
      split; [apply (valid_finite lm); exact C1|]. split; [apply (valid_finite lm); exact C2|]. split; [apply (valid_finite lm); exact C3|].
      intros m Hm. apply (valid_finite lm). apply (row_acc i m Hi). lia.
  Qed.
  Definition zq : quat := let z i := B2R (fsum (A := A) 4 (fun j => Bmult mode_NE (cf_mat (A := A) ts fw n i j) (f j)) : f32) in
    Quat (z 0%nat) (z 1%nat) (z 2%nat) (z 3%nat).
  Lemma zq_f i : (i < 4)%nat -> qf zq i = B2R (fsum (A := A) 4 (fun j => Bmult mode_NE (cf_mat (A := A) ts fw n i j) (f j)) : f32).
  Proof. unfold zq. cbv zeta. revert i. apply below4; cbn [qf quad Qw Qx Qy Qz]; reflexivity. Qed.
  Lemma zq_ok : qdist zq (qmul q (turn w t)) <= 201 / 100 * d + 61 / 100000000 * X + 19 / 10000000.
  Proof.
    assert (D1 : qdist zq (qmul q rhat) <= 2 * (33 / 100000000)).
    { assert (R : forall i, (i < 4)%nat -> Rabs (B2R (fsum (A := A) 4 (fun j => Bmult mode_NE (cf_mat (A := A) ts fw n i j) (f j)) : f32) - qf (qmul q rhat) i) <= 33 / 100000000).
      { intros i Hi. pose proof (acc_final (INR 4 + 1) _ _ _ ltac:(cbn; lra) (row_acc i 4 Hi ltac:(lia))) as E.
        rewrite rmat_mul in E by auto. eapply Rle_trans; [exact E|].
        pose proof (rmat_abs rhat q i 4 Hi ltac:(lia)) as L. pose proof rhat_norm as RN. apply Rabs_def2 in Nq as Nq'. pose proof tiny_small as TS.
        assert (qnorm q * qnorm rhat <= 1000001 / 1000000 * (103 / 100)) by (apply Rmult_le_compat; auto using qnorm_pos; lra).
        replace (INR 4 + 1) with 5 by (cbn; ring). lra. }
      apply qdist_comp; [apply (R 0%nat)|apply (R 1%nat)|apply (R 2%nat)|apply (R 3%nat)]; lia. }
    eapply Rle_trans; [apply (qdist_tri _ (qmul q rhat))|]. rewrite qdist_mul_l. pose proof rhat_ok as RO. apply Rabs_def2 in Nq as Nq'.
    pose proof (qdist_pos rhat (turn w t)). pose proof D_bd. pose proof X_bd. pose proof eta_lt as [E0 _].
    assert (qnorm q * qdist rhat (turn w t) <= 1000001 / 1000000 * (2 * (D + 10 * u))) by (apply Rmult_le_compat; auto using qnorm_pos; lra).
    unfold D, u in *. lra.
  Qed.
  Lemma step_norm (v : Vec (T (Arith := A))) order : vec_is (A := A) v 4 (step (A := A) ClosedForm order ts f fw n) ->
    exists v' r, v_normalize (A := A) v = (v', Ok tt) /\ quat_f v' r /\ Rabs (qnorm r - 1) < / 1000000 /\
      qdist r (qmul q (turn w t)) <= (7 + 2 * X) / 1000000 + 5 * d.
  Proof.
    intros Hv. pose proof zq_ok as Z. pose proof X_bd as XB. apply Rabs_def2 in Nq as Nq'.
    assert (EN : rnorm 4 (fun i => B2R (step (A := A) ClosedForm order ts f fw n i : f32)) = qnorm zq).
    { rewrite <- rnorm_qnorm. apply rnorm_ext. intros i Hi. rewrite step_cf, zq_f by auto. reflexivity. }
    assert (NT : qnorm (qmul q (turn w t)) = qnorm q) by (rewrite qnorm_mul, (unit_norm (turn w t)) by (apply turn_unit; fold N; lra); ring).
    pose proof (qdist_norm_abs zq (qmul q (turn w t))) as QA. rewrite NT in QA.
    assert (NZ : Rabs (qnorm zq - 1) <= 201 / 100 * d + 61 / 100000000 * X + 29 / 10000000).
    { replace (qnorm zq - 1) with ((qnorm zq - qnorm q) + (qnorm q - 1)) by ring. eapply Rle_trans; [apply Rabs_triang|]. lra. }
    apply Rabs_le_inv in NZ as NZ'.
    assert (B60 : 2 <= bpow radix2 60) by (apply Rle_trans with (bpow radix2 1); [cbn; lra|apply bpow_le; lia]).
    pose proof (l_normalize32 lm v 4 _ Hv) as L. cbv zeta in L. rewrite EN in L. destruct L as (v' & g & En' & Hg & Ng & Bg); [unfold eps; lra|].
    set (r := Quat (B2R (g 0%nat : f32)) (B2R (g 1%nat : f32)) (B2R (g 2%nat : f32)) (B2R (g 3%nat : f32))).
    exists v', r. split; [exact En'|]. split; [apply quat_f_of; exact Hg|].
    assert (Nr : rnorm 4 (fun i => B2R (g i : f32)) = qnorm r).
    { rewrite <- rnorm_qnorm. apply rnorm_ext. apply below4; reflexivity. }
    rewrite Nr in Ng. split; [exact Ng|].
    assert (Z0 : 0 < qnorm zq) by lra.
    assert (D2 : qdist r (qunit zq) <= 2 * / 1000000).
    { assert (CC : forall i, (i < 4)%nat -> Rabs (B2R (g i : f32) - qf (qunit zq) i) <= / 1000000).
      { intros i Hi. specialize (Bg i Hi). replace (qf (qunit zq) i) with (B2R (step (A := A) ClosedForm order ts f fw n i : f32) / qnorm zq); [exact Bg|].
        clear Bg. rewrite step_cf, <- zq_f by auto. unfold Rdiv. rewrite Rmult_comm. unfold qunit. destruct i as [|[|[|[|i]]]]; [| | | |lia]; cbn [qf quad qscale Qw Qx Qy Qz]; reflexivity. }
      apply qdist_comp; [apply (CC 0%nat)|apply (CC 1%nat)|apply (CC 2%nat)|apply (CC 3%nat)]; lia. }
    eapply Rle_trans; [apply (qdist_tri _ (qunit zq))|].
    pose proof (qdist_tri (qunit zq) zq (qmul q (turn w t))) as T3. rewrite (qdist_sym (qunit zq) zq), qunit_dist in T3 by auto. lra.
  Qed.
End Step.

Lemma turn_zero w t : rnorm 3 w = 0 -> turn w t = qone.
Proof.
  intros Z. unfold turn. rewrite <- rnorm3, Z. replace (0 * t / 2) with 0 by (unfold Rdiv; ring). rewrite cos_0, sin_0. unfold qone. f_equal; ring.
Qed.
Lemma turn_norm w t : qnorm (turn w t) = 1.
Proof.
  destruct (Req_dec (rnorm 3 w) 0) as [Z|Z]; [rewrite turn_zero by auto|]; apply unit_norm; [unfold unitq, qnorm2, qone; cbn; ring|apply turn_unit; auto].
Qed.
Lemma turn_small w t : qdist qone (turn w t) <= rnorm 3 w * Rabs t / 2.
Proof.
  destruct (Req_dec (rnorm 3 w) 0) as [Z|Z]; [rewrite turn_zero, Z, qdist_refl by auto; lra|].
  pose proof (rnorm_pos 3 w) as P. set (th := rnorm 3 w * t / 2).
  assert (AX : Rabs th = rnorm 3 w * Rabs t / 2). { unfold th, Rdiv. rewrite !Rabs_mult, (Rabs_pos_eq (rnorm 3 w)), (Rabs_pos_eq (/ 2)) by lra. reflexivity. }
  rewrite <- AX. apply sqr_le_abs; [apply Rabs_pos|]. unfold qdist. rewrite qnorm_sqr.
  assert (E : qnorm2 (qsub qone (turn w t)) = 1 - 2 * cos th + qnorm2 (turn w t)).
  { unfold turn. rewrite <- rnorm3. fold th. unfold qnorm2, qsub, qone. cbn. ring. }
  rewrite E, (turn_unit w t Z). replace th with (2 * (th / 2)) at 1 by field. rewrite cos_2a_sin.
  pose proof (Rabs_sin_le (th / 2)) as L.
  assert (S : forall x, Rabs x * Rabs x = x * x) by (intros; rewrite <- Rabs_mult, Rabs_pos_eq; [auto|apply Rle_0_sqr]).
  assert (L2 : Rabs (sin (th / 2)) * Rabs (sin (th / 2)) <= Rabs (th / 2) * Rabs (th / 2)) by (apply Rmult_le_compat; auto using Rabs_pos).
  rewrite !S in L2. rewrite S. lra.
Qed.

Definition step_bound (d X : R) : R := (7 + 2 * X) / 1000000 + 5 * d.

Lemma step_core lm ck (s : AR (A := F32 lm)) (g' : Sensor (A := F32 lm)) q w gx gy gz d B :
  ar_inv s Live -> ar_method s = ClosedForm -> is_finite (ar_ts s : f32) = true -> let t := B2R (ar_ts s : f32) in
  quat_f (ar_attitude s) q -> Rabs (qnorm q - 1) < / 1000000 ->
  libm_accurate lm d B -> 0 <= d <= / 100 -> 1 <= B <= 1000 ->
  sensor_update Gyr gx gy gz (ar_gyr s) = (g', Ok tt) -> reports g' w -> rnorm 3 w <= bpow radix2 60 -> rnorm 3 w * Rabs t <= B ->
  exists s' r, ar_update ck gx gy gz s = (s', Ok tt) /\ ar_gyr s' = g' /\ same_settings s s' /\ quat_f (ar_attitude s') r /\ Rabs (qnorm r - 1) < / 1000000 /\
    ((r = q /\ rnorm 3 w <= 102 / 1000000) \/ qdist r (qmul q (turn w t)) <= step_bound d (rnorm 3 w * Rabs t)).
Proof.
  intros IV M Ft t Hq Nq LM Hd HB Su Rp N60 NB.
  destruct (live_facts s IV) as (c & raw & cor & _ & Hs & Hc & _). destruct IV as (HR & I & AI & _).
  destruct (quat_f_inv _ _ _ Hq) as (f & Hf & Ff).
  set (rw := raw3 (A := F32 lm) gx gy gz).
  pose proof (update_wp (A := F32 lm) Gyr (ar_gyr s) c raw cor rw Hs I) as U. unfold wp in U.
  change (rw 0%nat) with gx in U; change (rw 1%nat) with gy in U; change (rw 2%nat) with gz in U. rewrite Su in U. destruct U as (S1 & S2 & S3 & Hg' & I').
  pose proof (ar_update_wp (A := F32 lm) ck s c raw cor f rw Hs I AI Hf) as W.
  change (rw 0%nat) with gx in W; change (rw 1%nat) with gy in W; change (rw 2%nat) with gz in W. cbv zeta in W. unfold wp in W.
  set (fw := corrected (A := F32 lm) Gyr c rw 3) in *.
  assert (EW : forall i, (i < 3)%nat -> is_finite (fw i : f32) = true /\ B2R (fw i : f32) = w i).
  { intros i Hi. destruct (Rp i Hi) as (x & Ex & Fx & Bx). rewrite (get_is (A := F32 lm) Gyr g' c rw fw i Hg' I' Hi) in Ex.
    assert (E : Ok (E := AhrsError) (fw i : f32) = Ok x) by exact Ex. injection E as ->. auto. }
  assert (NE : rnorm 3 (fun i => B2R (fw i : f32)) = rnorm 3 w) by (apply rnorm_ext; intros i Hi; apply EW, Hi).
  assert (TE : turn (fun i => B2R (fw i : f32)) t = turn w t).
  { unfold turn. rewrite (proj2 (EW 0%nat ltac:(lia))), (proj2 (EW 1%nat ltac:(lia))), (proj2 (EW 2%nat ltac:(lia))). reflexivity. }
  assert (Fw : forall i, (i < 3)%nat -> is_finite (fw i : f32) = true) by (intros; apply EW; auto).
  rewrite <- NE in N60, NB.
  destruct (rate_cases lm fw Fw N60) as [[RB NL]|(RB & NL & Fn & En)].
  all: rewrite <- (gt_b lm) in RB; rewrite RB in W.
  - destruct (ar_update ck gx gy gz s) as [s' [[]|e|]] eqn:EU.
    + destruct W as (SS & EG & _ & EA). rewrite Su in EG. exists s', q. rewrite EA. split; [reflexivity|]. split; [exact EG|]. split; [exact SS|]. split; [exact Hq|]. split; [exact Nq|].
      left. rewrite <- NE. auto.
    + exfalso. destruct W as (_ & _ & _ & [(_ & W & _)|(_ & W & _)]); [apply W; auto|discriminate].
    + exfalso. destruct W as (_ & _ & _ & W). discriminate.
  - set (n := rate_norm (A := F32 lm) fw) in *.
    pose proof (step_fin lm d B LM fw Fw N60 (ar_ts s) Ft NB HB Hd NL Fn En f q Ff Nq ck (ar_order s)) as SF.
    pose proof (fun v => step_norm lm d B LM fw Fw N60 (ar_ts s) Ft NB HB Hd NL Fn En f q Ff Nq v (ar_order s)) as SN.
    fold n in SF, SN. rewrite M in W. fold t in SN. rewrite TE, NE in SN.
    destruct (ar_update ck gx gy gz s) as [s' [[]|e|]] eqn:EU.
    + destruct W as (SS & EG & _ & _ & _ & v & Hv & EV). rewrite Su in EG. destruct (SN v Hv) as (v' & r & EV' & Hr & Nr & Dr).
      rewrite EV in EV'. injection EV' as EA. subst v'. exists s', r. do 5 (split; [assumption || reflexivity|]). right. exact Dr.
    + exfalso. destruct W as (_ & _ & _ & [(_ & W & _)|(_ & _ & [(_ & W & _)|[(_ & W & _)|(_ & _ & _ & W)]])]).
      * apply W. auto.
      * apply W. exact SF.
      * apply W. left. reflexivity.
      * destruct W as [W|(v & Hv & W)].
        -- apply W. intros i Hi. destruct SF as [_ SF]. apply (SF i 0%nat Hi ltac:(lia)). lia.
        -- destruct (SN v Hv) as (v' & r & EV' & _). rewrite EV' in W. apply W. reflexivity.
    + exfalso. destruct W as (_ & W & _). discriminate.
Qed.

Lemma unchanged_bound q w t : Rabs (qnorm q - 1) < / 1000000 -> rnorm 3 w <= 102 / 1000000 -> qdist q (qmul q (turn w t)) <= eps * Rabs t.
Proof.
  intros Nq L. apply Rabs_def2 in Nq. rewrite <- (qmul_one q) at 1. rewrite qdist_mul_l. pose proof (turn_small w t) as T. pose proof (rnorm_pos 3 w). pose proof (Rabs_pos t).
  assert (rnorm 3 w * Rabs t <= 102 / 1000000 * Rabs t) by (apply Rmult_le_compat_r; auto).
  assert (qnorm q * qdist qone (turn w t) <= 1000001 / 1000000 * (51 / 1000000 * Rabs t)) by (apply Rmult_le_compat; auto using qnorm_pos, qdist_pos; lra).
  unfold eps. lra.
Qed.

(*@ C62_step *)
(** C62: a ClosedForm update in f32, with sin and cos accurate to d, of a filter whose attitude q has norm 1 within 1e-6
    and whose gyrometer accepts the measurement and reports the corrected rate w, succeeds, and the new attitude is
    of norm 1 within 1e-6 again and within 7e-6 + 2e-6 |w| t + 5 d of q (turn w t); for rates below 1.02 EPSILON, which the
    filter may ignore, plus EPSILON t *)
Lemma l_ar_step32 :
  forall (lm : Libm) (ck : bool) (s : AR (A := F32 lm)) (g' : Sensor (A := F32 lm)) (q : quat) (w : nat -> R) (gx gy gz : T (Arith := F32 lm)) (d B : R),
  ar_hist ck s Live -> ar_method s = ClosedForm -> is_finite (ar_ts s : f32) = true -> let t := B2R (ar_ts s : f32) in
  quat_f (ar_attitude s) q -> Rabs (qnorm q - 1) < / 1000000 ->
  libm_accurate lm d B -> 0 <= d <= / 100 -> 1 <= B <= 1000 ->
  sensor_update Gyr gx gy gz (ar_gyr s) = (g', Ok tt) -> reports g' w -> rnorm 3 w <= bpow radix2 60 -> rnorm 3 w * Rabs t <= B ->
  let e := (7 + 2 * (rnorm 3 w * Rabs t)) / 1000000 + 5 * d in
  exists s' r, ar_update ck gx gy gz s = (s', Ok tt) /\ quat_f (ar_attitude s') r /\ Rabs (qnorm r - 1) < / 1000000 /\
    (102 / 100 * eps < rnorm 3 w -> qdist r (qmul q (turn w t)) <= e) /\
    qdist r (qmul q (turn w t)) <= e + eps * Rabs t.
Proof.
  intros lm ck s g' q w gx gy gz d B H M Ft t Hq Nq LM Hd HB Su Rp N60 NB e.
  destruct (step_core lm ck s g' q w gx gy gz d B (hist_inv _ _ _ H) M Ft Hq Nq LM Hd HB Su Rp N60 NB) as (s' & r & E & _ & _ & Hr & Nr & C).
  exists s', r. split; [exact E|]. split; [exact Hr|]. split; [exact Nr|]. fold t in C. pose proof (Rabs_pos t) as T0. pose proof (rnorm_pos 3 w) as N0.
  assert (E0 : 0 <= e). { unfold e. assert (0 <= rnorm 3 w * Rabs t) by (apply Rmult_le_pos; auto). lra. }
  assert (P0 : 0 <= eps * Rabs t) by (apply Rmult_le_pos; [unfold eps; lra|auto]).
  destruct C as [[-> L]|L].
  - split; [intros Q; exfalso; unfold eps in Q; lra|]. pose proof (unchanged_bound q w t Nq L). lra.
  - split; [intros _; exact L|]. unfold step_bound in L. fold e in L. lra.
Qed.

Lemma turns_dist t p q ws : qdist (turns t p ws) (turns t q ws) = qdist p q.
Proof.
  revert p q. induction ws as [|w ws IH]; intros p q; [reflexivity|]. unfold turns in *. cbn [fold_left]. rewrite IH, qdist_mul_r, turn_norm. ring.
Qed.

Lemma update_sensor lm ck (s s1 : AR (A := F32 lm)) gx gy gz : ar_inv s Live -> ar_update ck gx gy gz s = (s1, Ok tt) ->
  sensor_update Gyr gx gy gz (ar_gyr s) = (ar_gyr s1, Ok tt).
Proof.
  intros IV E. destruct (live_facts s IV) as (c & raw & cor & f & Hs & Hc & Hf). destruct IV as (HR & I & AI & _).
  set (rw := raw3 (A := F32 lm) gx gy gz).
  pose proof (ar_update_wp (A := F32 lm) ck s c raw cor f rw Hs I AI Hf) as W.
  change (rw 0%nat) with gx in W; change (rw 1%nat) with gy in W; change (rw 2%nat) with gz in W. cbv zeta in W. unfold wp in W.
  rewrite E in W. destruct W as (_ & EG & Se & _).
  pose proof (l_update (F32 lm) _ Gyr (ar_gyr s) c rw HR Hc) as LU.
  change (rw 0%nat) with gx in LU; change (rw 1%nat) with gy in LU; change (rw 2%nat) with gz in LU.
  destruct (sensor_update Gyr gx gy gz (ar_gyr s)) as [g o]. cbn [fst] in EG. destruct LU as (LU & _). destruct (LU Se) as [-> _]. rewrite EG. reflexivity.
Qed.

(*@ C62_track *)
(** C62: and the errors of successive updates only add up, for every number of updates: after a run of successful
    updates at the reported rates w1, w2, ..., the attitude is within the initial error plus the sum of
    7e-6 + 2e-6 |w_k| t + 5 d + EPSILON t of the attitude turned exactly *)
Lemma l_ar_track32 :
  forall (lm : Libm) (ck : bool) (s s' : AR (A := F32 lm)) (q p : quat) (ws : list (nat -> R)) (d B : R),
  ar_hist ck s Live -> ar_method s = ClosedForm -> is_finite (ar_ts s : f32) = true -> let t := B2R (ar_ts s : f32) in
  quat_f (ar_attitude s) q -> Rabs (qnorm q - 1) < / 1000000 ->
  libm_accurate lm d B -> 0 <= d <= / 100 -> 1 <= B <= 1000 ->
  ar_run ck s ws s' -> Forall (fun w => rnorm 3 w <= bpow radix2 60 /\ rnorm 3 w * Rabs t <= B) ws ->
  exists r, quat_f (ar_attitude s') r /\ Rabs (qnorm r - 1) < / 1000000 /\
    qdist r (turns t p ws) <= qdist q p +
      sum_map (fun w => (7 + 2 * (rnorm 3 w * Rabs t)) / 1000000 + 5 * d + eps * Rabs t) ws.
Proof.
  intros lm ck s s' q p ws d B H M Ft t Hq Nq LM Hd HB R F. pose proof (hist_inv _ _ _ H) as IV. clear H.
  subst t. revert q p Hq Nq IV M Ft F. induction R as [s|s gx gy gz w s1 ws s' E Rp R IH]; intros q p Hq Nq IV M Ft F.
  - exists q. split; [exact Hq|]. split; [exact Nq|]. cbn [sum_map turns fold_left]. lra.
  - inversion F as [|w0 ws0 [N60 NB] F']. subst.
    destruct (step_core lm ck s _ q w gx gy gz d B IV M Ft Hq Nq LM Hd HB (update_sensor lm ck s s1 gx gy gz IV E) Rp N60 NB)
      as (s2 & r & E2 & _ & (SS1 & SS2 & SS3 & SS4) & Hr & Nr & C).
    rewrite E in E2. injection E2 as <-.
    assert (IV1 : ar_inv s1 Live). { pose proof (update_live ck gx gy gz s IV) as [U _]. rewrite E in U. apply U. discriminate. }
    set (t := B2R (ar_ts s : f32)) in *.
    assert (Et : B2R (ar_ts s1 : f32) = t) by (unfold t; rewrite SS1; reflexivity).
    destruct (IH r (qmul p (turn w t)) Hr Nr IV1 ltac:(congruence) ltac:(rewrite SS1; exact Ft)) as (r' & Hr' & Nr' & D').
    { rewrite Et. exact F'. }
    rewrite Et in D'. exists r'. split; [exact Hr'|]. split; [exact Nr'|]. cbn [sum_map]. change (turns t p (w :: ws)) with (turns t (qmul p (turn w t)) ws).
    eapply Rle_trans; [exact D'|].
    assert (S : qdist r (qmul p (turn w t)) <= qdist q p + ((7 + 2 * (rnorm 3 w * Rabs t)) / 1000000 + 5 * d + eps * Rabs t)).
    { eapply Rle_trans; [apply (qdist_tri _ (qmul q (turn w t)))|]. rewrite qdist_mul_r, turn_norm, Rmult_1_r.
      pose proof (Rabs_pos t) as T0. pose proof (rnorm_pos 3 w) as N0.
      assert (0 <= rnorm 3 w * Rabs t) by (apply Rmult_le_pos; auto).
      assert (P0 : 0 <= eps * Rabs t) by (apply Rmult_le_pos; [unfold eps; lra|auto]).
      destruct C as [[-> L]|L]; [pose proof (unchanged_bound q w t Nq L)|unfold step_bound in L]; lra. }
    lra.
Qed.

(*@ C62_dead_zone *)
(** C62, violation: rates below 0.97 EPSILON, 97 microradians per second or 20 degrees per hour, are never
    seen: whatever the method and however long it lasts, the attitude does not change.  The Earth turns at 73
    microradians per second. *)
Lemma l_ar_dead :
  forall (lm : Libm) (ck : bool) (s s' : AR (A := F32 lm)) (ws : list (nat -> R)),
  ar_hist ck s Live -> ar_run ck s ws s' -> Forall (fun w => rnorm 3 w <= 97 / 100 * eps) ws -> ar_attitude s' = ar_attitude s.
Proof.
  intros lm ck s s' ws H R F. pose proof (hist_inv _ _ _ H) as IV. clear H.
  revert IV F. induction R as [s|s gx gy gz w s1 ws s' E Rp R IH]; intros IV F; [reflexivity|].
  inversion F as [|w0 ws0 NL F']. subst.
  assert (IV1 : ar_inv s1 Live). { pose proof (update_live ck gx gy gz s IV) as [U _]. rewrite E in U. apply U. discriminate. }
  rewrite IH by auto. clear IH R F F' IV1.
  pose proof (update_sensor lm ck s s1 gx gy gz IV E) as Su.
  destruct (live_facts s IV) as (c & raw & cor & f & Hs & Hc & Hf). destruct IV as (HR & I & AI & _).
  set (rw := raw3 (A := F32 lm) gx gy gz).
  pose proof (update_wp (A := F32 lm) Gyr (ar_gyr s) c raw cor rw Hs I) as U. unfold wp in U.
  change (rw 0%nat) with gx in U; change (rw 1%nat) with gy in U; change (rw 2%nat) with gz in U. rewrite Su in U. destruct U as (S1 & S2 & S3 & Hg' & I').
  pose proof (ar_update_wp (A := F32 lm) ck s c raw cor f rw Hs I AI Hf) as W.
  change (rw 0%nat) with gx in W; change (rw 1%nat) with gy in W; change (rw 2%nat) with gz in W. cbv zeta in W. unfold wp in W. rewrite E in W.
  destruct W as (_ & _ & _ & W). set (fw := corrected (A := F32 lm) Gyr c rw 3) in *.
  assert (EW : forall i, (i < 3)%nat -> is_finite (fw i : f32) = true /\ B2R (fw i : f32) = w i).
  { intros i Hi. destruct (Rp i Hi) as (x & Ex & Fx & Bx). rewrite (get_is (A := F32 lm) Gyr _ c rw fw i Hg' I' Hi) in Ex.
    assert (X : Ok (E := AhrsError) (fw i : f32) = Ok x) by exact Ex. injection X as ->. auto. }
  assert (NE : rnorm 3 (fun i => B2R (fw i : f32)) = rnorm 3 w) by (apply rnorm_ext; intros i Hi; apply EW, Hi).
  assert (B60 : 1 <= bpow radix2 60) by (change 1 with (bpow radix2 0); apply bpow_le; lia).
  unfold eps in NL.
  destruct (rate_cases lm fw (fun i Hi => proj1 (EW i Hi)) ltac:(rewrite NE; lra)) as [[RB _]|(_ & L & _)]; [|rewrite NE in L; lra].
  rewrite <- (gt_b lm) in RB. rewrite RB in W. exact W.
Qed.

(** ** a libm that is accurate: sin and cos to 24 binary places *)
Definition near (y : R) : f32 := binary_normalize prec emax _ _ mode_NE (ZnearestE (y * bpow radix2 24)) (-24) false.
Lemma near_ok y : Rabs y <= 1 -> is_finite (near y) = true /\ Rabs (B2R (near y) - y) <= 2 / 10000000.
Proof.
  intros H. set (m := ZnearestE (y * bpow radix2 24)).
  assert (E : Rabs (F2R (Float radix2 m (-24)) - y) <= / 2 * bpow radix2 (-24)).
  { unfold F2R. cbn [Fnum Fexp]. replace (IZR m * bpow radix2 (-24) - y) with ((IZR m - y * bpow radix2 24) * bpow radix2 (-24)).
    - rewrite Rabs_mult, (Rabs_pos_eq (bpow radix2 (-24))) by apply bpow_ge_0. apply Rmult_le_compat_r; [apply bpow_ge_0|].
      unfold m. rewrite Rabs_minus_sym. apply Znearest_half.
    - rewrite Rmult_minus_distr_r, Rmult_assoc, <- bpow_plus. cbn [Z.add Z.opp Z.pos_sub]. cbn. ring. }
  rewrite u_val in E. set (x := F2R (Float radix2 m (-24))) in *.
  assert (X2 : Rabs x <= 2). { apply Rabs_le_inv in E. apply Rabs_le_inv in H. apply Rabs_le. unfold u in *. lra. }
  pose proof (binary_normalize_correct prec emax _ _ mode_NE m (-24) false) as C. cbn [round_mode] in C. fold x in C.
  rewrite rnd32_lt in C by (apply Rle_trans with 2; [exact X2|apply Rle_trans with (bpow radix2 1); [cbn; lra|apply bpow_le; lia]]).
  destruct C as (C1 & C2 & _). split; [exact C2|]. unfold near. fold m. rewrite C1.
  destruct (rnd32_err x) as (e & h & He & Hh & ->). pose proof eta_1 as E0.
  replace (x * (1 + e) + h - y) with ((x - y) + (x * e + h)) by ring. eapply Rle_trans; [apply Rabs_triang|].
  assert (Rabs (x * e + h) <= 2 * u + eta).
  { eapply Rle_trans; [apply Rabs_triang|]. rewrite Rabs_mult. assert (Rabs x * Rabs e <= 2 * u) by (apply Rmult_le_compat; auto using Rabs_pos). lra. }
  unfold u in *. lra.
Qed.
Definition near_libm : Libm :=
  mkLibm (fun x => near (sin (B2R x))) (fun x => near (cos (B2R x))) (fun x => x) (fun x => x) (fun x _ => x) (fun x _ => x) (fun x => x).
Lemma near_accurate B : libm_accurate near_libm (2 / 10000000) B.
Proof.
  intros x Fx _. cbn [near_libm lm_sin lm_cos]. pose proof (SIN_bound (B2R x)). pose proof (COS_bound (B2R x)).
  split; apply near_ok; apply Rabs_le; lra.
Qed.

Lemma obs_z {E} (r : res E f32) n : obs r = Ok (sf n) -> r = Ok (z32 n).
Proof. destruct r as [x|e|]; cbn; try discriminate. intros H. injection H as H. f_equal. apply B2SF_inj. exact H. Qed.
Lemma started_sensor lm : let A := F32 lm in
  let p := sensor_update (A := A) Gyr (z32 0) (z32 0) (z32 1) (ar_gyr (started_state lm (z32 1) (z32 0) (z32 0) (z32 0) (z32 1) ClosedForm 1)) in
  snd p = Ok tt /\ forall i, (i < 3)%nat -> sensor_get Gyr i (fst p) = Ok (z32 (nth i [0; 0; 1]%Z 0%Z)).
Proof.
  intros A p. split; [vm_compute; reflexivity|]. intros i Hi. apply obs_z. do 3 (destruct i as [|i]; [vm_compute; reflexivity|]). lia.
Qed.
Lemma started_quat lm : quat_f (lm := lm) (ar_attitude (started_state lm (z32 1) (z32 0) (z32 0) (z32 0) (z32 1) ClosedForm 1)) qone.
Proof.
  assert (H : ar_hist true (started_state lm (z32 1) (z32 0) (z32 0) (z32 0) (z32 1) ClosedForm 1) Live) by (apply started; repeat split).
  destruct (hist_inv _ _ _ H) as (_ & _ & _ & f & Hf).
  exists f. split; [exact Hf|]. intros i Hi. pose proof (vi_get _ _ _ Hf i Hi) as G.
  assert (E : obs (v_get (ar_attitude (started_state lm (z32 1) (z32 0) (z32 0) (z32 0) (z32 1) ClosedForm 1)) i) = Ok (sf (nth i [1; 0; 0; 0]%Z 0%Z))).
  { clear G. do 4 (destruct i as [|i]; [vm_compute; reflexivity|]). lia. }
  apply obs_z in E. rewrite G in E. assert (X : Ok (E := LinalgError) (f i : f32) = Ok (z32 (nth i [1; 0; 0; 0]%Z 0%Z))) by exact E. injection X as ->.
  do 4 (destruct i as [|i]; [apply z32_R; cbn; lia|]). lia.
Qed.

Lemma example_run :
  forall ck : bool, exists s s' : AR (A := F32 near_libm),
  ar_hist ck s Live /\ ar_method s = ClosedForm /\ is_finite (ar_ts s : f32) = true /\ B2R (ar_ts s : f32) = 1 /\
  quat_f (ar_attitude s) qone /\ libm_accurate near_libm (2 / 10000000) 1000 /\
  ar_run ck s [triple 0 0 1] s' /\ rnorm 3 (triple 0 0 1) = 1.
Proof.
  intros ck. set (s := started_state near_libm (z32 1) (z32 0) (z32 0) (z32 0) (z32 1) ClosedForm 1).
  assert (H : ar_hist ck s Live) by (apply started; repeat split).
  assert (N1 : rnorm 3 (triple 0 0 1) = 1). { unfold rnorm, rdot. cbn. transitivity (sqrt 1); [f_equal; ring|apply sqrt_1]. }
  destruct (started_sensor near_libm) as [E G]. cbv zeta in E, G. fold s in E, G.
  destruct (sensor_update Gyr _ _ _ (ar_gyr s)) as [g' o] eqn:Su. cbn [fst snd] in E, G. subst o.
  assert (R : reports g' (triple 0 0 1)).
  { intros i Hi. exists (z32 (nth i [0; 0; 1]%Z 0%Z)). split; [apply G, Hi|].
    do 3 (destruct i as [|i]; [apply z32_R; cbn; lia|]). lia. }
  assert (T1 : is_finite (ar_ts s : f32) = true /\ B2R (ar_ts s : f32) = 1).
  { assert (ET : ar_ts s = z32 1) by reflexivity. rewrite ET. apply z32_R. lia. }
  assert (NO : qnorm qone = 1) by (apply unit_norm; unfold unitq, qnorm2, qone; cbn; ring).
  assert (B60 : 1 <= bpow radix2 60) by (change 1 with (bpow radix2 0); apply bpow_le; lia).
  assert (Q1 : Rabs (qnorm qone - 1) < / 1000000) by (rewrite NO; replace (1 - 1) with 0 by ring; rewrite Rabs_R0; lra).
  assert (X1 : rnorm 3 (triple 0 0 1) * Rabs (B2R (ar_ts s : f32)) <= 1000) by (rewrite (proj2 T1), N1, Rabs_R1; lra).
  destruct (step_core near_libm ck s g' qone (triple 0 0 1) (z32 0) (z32 0) (z32 1) (2 / 10000000) 1000 (hist_inv _ _ _ H) eq_refl (proj1 T1) (started_quat _)
    Q1 (near_accurate 1000) ltac:(lra) ltac:(lra) Su R ltac:(rewrite N1; exact B60) X1) as (s' & r & EU & EG & _).
  exists s, s'. split; [exact H|]. split; [reflexivity|]. split; [apply T1|]. split; [apply T1|]. split; [apply started_quat|]. split; [apply near_accurate|].
  split; [|exact N1]. econstructor; [exact EU|rewrite EG; exact R|constructor].
Qed.

(*@ example *)
(** one radian per second about z for one second, with sin and cos rounded to 24 binary places *)
Example C62_example :
  forall ck : bool, exists s s' : AR (A := F32 near_libm),
  ar_hist ck s Live /\ ar_method s = ClosedForm /\ is_finite (ar_ts s : f32) = true /\ B2R (ar_ts s : f32) = 1 /\
  quat_f (ar_attitude s) qone /\ libm_accurate near_libm (2 / 10000000) 1000 /\
  ar_run ck s [triple 0 0 1] s' /\ rnorm 3 (triple 0 0 1) = 1.
Proof. exact example_run. Qed.
