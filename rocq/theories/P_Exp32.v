(** C75: the exponential of a quaternion with a real part, in f32. *)
(*@+*)
From Coq Require Import List Arith ZArith Reals Lia Bool Lra SpecFloat.
From Flocq Require Import Core BinarySingleNaN.
From Verif Require Import M_Base M_Arith M_Utils M_Vector M_Matrix M_Quaternion M_F32
  S_Spec S_Linalg S_Norm S_Quat S_F32 S_Track S_Exp32 P_Inst P_InstF P_F32Ar.
Import ListNotations.
Local Open Scope R_scope.
(*@-*)
From Coq Require Import Psatz.
From Verif Require Import P_Hoare P_Cont P_Loops P_Access P_Pointwise P_Trans P_Float P_Product S_Compare
  P_Compare P_Dot P_Norm P_FErr P_Norm32 P_Quat P_FAcc P_F32Mul P_F32Rot P_QPred P_QExp P_F32Ar P_Lup32 P_Inv32 P_Cplx32 P_Euler32.

(** both forms up to the test that decides on the factor e^w *)
Lemma exp_core :
  forall (lm : Libm) (v : Vec (T (Arith := F32 lm))) (q : quat) (f : nat -> T (Arith := F32 lm)) (d B : R), vec_is (A := F32 lm) v 4 f ->
  (forall i, (i < 4)%nat -> is_finite (f i : f32) = true /\ B2R (f i : f32) = qf q i) ->
  2 / 10000 <= vnorm q <= B -> B <= 1000 -> libm_accurate lm d (2 * B) -> 0 <= d <= / 100 ->
  let e := 101 / 100 * (d + 7 * u * vnorm q) + 11 / 10000000 in let r := qexp (Quat 0 (Qx q) (Qy q) (Qz q)) in
  exists v1 v2 h, vec_is (A := F32 lm) v1 4 h /\ vec_is (A := F32 lm) v2 4 h /\
    q_exp_new v = (let? pure := q_is_pure v in if pure then Ok v1 else exec (v_mul_by_scalar_in_place (fpow (Arith := F32 lm) E_ (f 0%nat))) v1) /\
    q_exp v = (let! pure := reads q_is_pure in if pure then sret tt else v_mul_by_scalar_in_place (fpow (Arith := F32 lm) E_ (f 0%nat))) v2 /\
    forall i, (i < 4)%nat -> is_finite (h i : f32) = true /\ Rabs (B2R (h i : f32) - qf r i) <= e /\ Rabs (qf r i) <= 1.
Proof.
  intros lm v q f d B Hf Ff HN HB LA Hd. set (N := vnorm q) in *.
  assert (U : u = 1 / 16777216) by reflexivity. pose proof eta_40 as [E0 E1].
  pose proof (Ff 0%nat ltac:(lia)) as [F0 f00]. pose proof (Ff 1%nat ltac:(lia)) as [F1 f01]. pose proof (Ff 2%nat ltac:(lia)) as [F2 f02]. pose proof (Ff 3%nat ltac:(lia)) as [F3 f03].
  cbn [qf quad] in f00, f01, f02, f03.
  destruct (l_is_real (F32 lm) _ v f Hf) as ((br & Er & Hr) & (bp & Ep & Hp) & _).
  assert (br = false) as ->.
  { destruct br; [|reflexivity]. exfalso. destruct Hr as [Hr _]. destruct (Hr eq_refl) as (W1 & W2 & W3).
    apply within0 in W1; [|exact F1]. apply within0 in W2; [|exact F2]. apply within0 in W3; [|exact F3]. rewrite f01 in W1. rewrite f02 in W2. rewrite f03 in W3.
    pose proof (sqrt3_small _ _ _ (102 / 1000000) ltac:(lra) W1 W2 W3) as K. fold (vnorm q) in K. fold N in K. lra. }
  destruct (q_get_vector_part_ok (A := F32 lm) v f Hf) as (qv & Eq & Hqv). set (fv := triple (f 1%nat) (f 2%nat) (f 3%nat)) in *.
  assert (FV : forall i, (i < 3)%nat -> is_finite (fv i : f32) = true) by (apply below3; auto).
  assert (EN : rnorm 3 (fun i => B2R (fv i : f32)) = N) by (unfold N; rewrite <- vnorm_rnorm; apply rnorm_ext; apply below3; cbn; auto).
  assert (B60 : 1000 <= bpow radix2 60) by (apply Rle_trans with (bpow radix2 10); [cbn; lra|apply bpow_le; lia]).
  destruct (norm_err lm 3 (fun i => fv i : f32) ltac:(lia) FV) as [Fn En]; [rewrite EN; lra|]. cbv zeta in En. rewrite EN in En.
  set (n := Bsqrt mode_NE (fsum (A := F32 lm) 3 (fun i => Bmult mode_NE (fv i : f32) (fv i)))) in *.
  assert (L : 19 / 100000 <= B2R n) by (apply Rabs_le_inv in En; rewrite U in En; lra).
  assert (Ev : v_calculate_norm qv = Ok (n : T (Arith := F32 lm))) by (rewrite (v_norm_is (A := F32 lm) qv 3 fv Hqv); f_equal; apply (flush_keep lm n Fn); lra).
  destruct (l_normalize32 lm qv 3 fv Hqv) as (qv1 & g & E2 & Hg & _ & Kg); [rewrite EN; unfold eps; lra|]. rewrite EN in Kg.
  destruct (LA n Fn) as ((Fs & Es) & (Fc & Ec)); [apply Rabs_le_inv in En; rewrite U in En; apply Rabs_le; lra|].
  set (sn := lm_sin lm n) in *. set (cn := lm_cos lm n) in *.
  assert (D1 : Rabs (B2R sn - sin N) <= d + 7 * u * N).
  { replace (B2R sn - sin N) with ((B2R sn - sin (B2R n)) + (sin (B2R n) - sin N)) by ring. eapply Rle_trans; [apply Rabs_triang|]. pose proof (sin_lip (B2R n) N). lra. }
  assert (D2 : Rabs (B2R cn - cos N) <= d + 7 * u * N).
  { replace (B2R cn - cos N) with ((B2R cn - cos (B2R n)) + (cos (B2R n) - cos N)) by ring. eapply Rle_trans; [apply Rabs_triang|]. pose proof (cos_lip (B2R n) N). lra. }
  assert (FG : forall i, (i < 3)%nat -> is_finite (g i : f32) = true) by (intros i Hi; apply (valid_finite lm); eapply vec_is_valid; eauto).
  assert (N0 : 0 < N) by lra.
  assert (UB : forall i, (i < 3)%nat -> Rabs (B2R (fv i : f32) / N) <= 1).
  { intros i Hi. pose proof (rnorm_bound 3 (fun i => B2R (fv i : f32)) i Hi) as K. cbv beta in K. rewrite EN in K. unfold Rdiv. rewrite Rabs_mult, (Rabs_pos_eq (/ N)) by (left; apply Rinv_0_lt_compat; lra).
    apply Rmult_le_reg_r with N; [lra|]. rewrite Rmult_assoc, Rinv_l by lra. lra. }
  assert (S1 : Rabs (sin N) <= 1) by (apply Rabs_le; pose proof (SIN_bound N); lra).
  assert (B127 : 10000 <= bpow radix2 127) by (apply Rle_trans with (bpow radix2 14); [cbn; lra|apply bpow_le; lia]).
  assert (SB : Rabs (B2R sn) <= 102 / 100) by (apply Rabs_le_inv in D1, S1; rewrite U in D1; apply Rabs_le; lra).
  assert (M : forall i, (i < 3)%nat -> is_finite (Bmult mode_NE (g i : f32) sn) = true /\
     Rabs (B2R (Bmult mode_NE (g i : f32) sn) - sin N * (B2R (fv i : f32) / N)) <= 101 / 100 * (d + 7 * u * N) + 11 / 10000000).
  { intros i Hi. specialize (Kg i Hi). specialize (UB i Hi). set (x := B2R (fv i : f32) / N) in *. set (y := B2R (g i : f32)) in *.
    assert (YB : Rabs y <= 101 / 100) by (apply Rabs_le_inv in Kg, UB; apply Rabs_le; lra).
    assert (PB : Rabs (y * B2R sn) <= 104 / 100) by (rewrite Rabs_mult; pose proof (Rabs_pos y); pose proof (Rabs_pos (B2R sn)); nra).
    destruct (mult_ok (g i : f32) sn (FG i Hi) Fs) as [K1 K2]; [fold y; lra|]. split; [exact K1|]. rewrite K2. fold y.
    pose proof (rnd_near _ _ PB) as K3. replace (rnd32 (y * B2R sn) - sin N * x) with ((rnd32 (y * B2R sn) - y * B2R sn) + (y * (B2R sn - sin N) + sin N * (y - x))) by ring.
    eapply Rle_trans; [apply Rabs_triang|]. assert (K4 : Rabs (y * (B2R sn - sin N) + sin N * (y - x)) <= 101 / 100 * (d + 7 * u * N) + / 1000000).
    { eapply Rle_trans; [apply Rabs_triang|]. rewrite !Rabs_mult. apply Rplus_le_compat; [apply Rmult_le_compat; auto using Rabs_pos|]. replace (/ 1000000) with (1 * / 1000000) by ring. apply Rmult_le_compat; auto using Rabs_pos. }
    assert (u * (104 / 100) + eta <= / 10000000) by (rewrite U; cbn [pow] in E1; lra). lra. }
  pose proof (v_mul_by_scalar_in_place_pw (A := F32 lm) qv1 3 g Hg (sn : T (Arith := F32 lm))) as PW. apply pointwise_v_ok in PW; [|intros i Hi; apply (valid_finite lm), M, Hi].
  destruct PW as (qv2 & E3 & Hv2). destruct (v_duplicate_ok (A := F32 lm) v _ _ Hf) as (dd & Ed & Hdd).
  destruct (q_fillq_ok (A := F32 lm) dd f (cn : T (Arith := F32 lm)) (Bmult mode_NE (g 0%nat : f32) sn) (Bmult mode_NE (g 1%nat : f32) sn) (Bmult mode_NE (g 2%nat : f32) sn) Hdd) as (v' & E4 & Hv');
    [apply (valid_finite lm), Fc|apply (valid_finite lm), M; lia|apply (valid_finite lm), M; lia|apply (valid_finite lm), M; lia|].
  destruct (q_fillq_ok (A := F32 lm) v f (cn : T (Arith := F32 lm)) (Bmult mode_NE (g 0%nat : f32) sn) (Bmult mode_NE (g 1%nat : f32) sn) (Bmult mode_NE (g 2%nat : f32) sn) Hf) as (v'' & E5 & Hv'');
    [apply (valid_finite lm), Fc|apply (valid_finite lm), M; lia|apply (valid_finite lm), M; lia|apply (valid_finite lm), M; lia|].
  exists v', v''. eexists. split; [exact Hv'|]. split; [exact Hv''|]. split; [|split].
  - unfold q_exp_new. rewrite Ed. cbn [rbind]. rewrite Er. cbn [rbind]. rewrite (vi_get _ _ _ Hf) by lia. cbn [rbind]. rewrite Eq. cbn [rbind]. rewrite Ev. cbn [rbind]. unfold exec at 1. rewrite E2. cbn [rbind].
    unfold exec at 1. change (fsin (Arith := F32 lm) n) with sn. rewrite E3. cbn [rbind]. rewrite !(vi_get _ _ _ Hv2) by lia. cbn [rbind]. unfold exec at 1. change (fcos (Arith := F32 lm) n) with cn.
    change (fmul (Arith := F32 lm)) with (Bmult (prec := prec) (emax := emax) mode_NE). rewrite E4. reflexivity.
  - unfold q_exp. unfold sbind at 1. unfold reads at 1. rewrite Er. unfold sbind at 1. unfold reads at 1. rewrite (vi_get _ _ _ Hf) by lia. unfold sbind at 1. unfold reads at 1. rewrite Eq.
    unfold sbind at 1. unfold lift at 1. rewrite Ev. unfold sbind at 1. unfold lift at 1. unfold exec at 1. rewrite E2. unfold sbind at 1. unfold lift at 1. unfold exec at 1. change (fsin (Arith := F32 lm) n) with sn. rewrite E3.
    unfold sbind at 1. unfold lift at 1. rewrite (vi_get _ _ _ Hv2) by lia. unfold sbind at 1. unfold lift at 1. rewrite (vi_get _ _ _ Hv2) by lia. unfold sbind at 1. unfold lift at 1. rewrite (vi_get _ _ _ Hv2) by lia.
    change (fcos (Arith := F32 lm) n) with cn. change (fmul (Arith := F32 lm)) with (Bmult (prec := prec) (emax := emax) mode_NE). unfold sbind at 1. rewrite E5. reflexivity.
  - assert (EE : qexp (Quat 0 (Qx q) (Qy q) (Qz q)) = Quat (cos N) (sin N * (Qx q / N)) (sin N * (Qy q / N)) (sin N * (Qz q / N))).
    { unfold qexp. change (vnorm (Quat 0 (Qx q) (Qy q) (Qz q))) with N. cbn [Qw Qx Qy Qz]. rewrite exp_0. unfold qscale. cbn. f_equal; ring. }
    rewrite EE. assert (PB : forall x, Rabs x <= 1 -> Rabs (sin N * x) <= 1) by (intros x Hx; rewrite Rabs_mult; pose proof (Rabs_pos x); pose proof (Rabs_pos (sin N)); nra).
    assert (C1 : Rabs (cos N) <= 1) by (apply Rabs_le; pose proof (COS_bound N); lra).
    apply below4; cbn [quad qf Qw Qx Qy Qz].
    + split; [exact Fc|]. split; [eapply Rle_trans; [exact D2|]; rewrite U; lra|exact C1].
    + destruct (M 0%nat ltac:(lia)) as [K0 K]. pose proof (UB 0%nat ltac:(lia)) as K1. cbn [fv triple] in K, K1. rewrite f01 in K, K1. split; [exact K0|]. split; [exact K|apply PB, K1].
    + destruct (M 1%nat ltac:(lia)) as [K0 K]. pose proof (UB 1%nat ltac:(lia)) as K1. cbn [fv triple] in K, K1. rewrite f02 in K, K1. split; [exact K0|]. split; [exact K|apply PB, K1].
    + destruct (M 2%nat ltac:(lia)) as [K0 K]. pose proof (UB 2%nat ltac:(lia)) as K1. cbn [fv triple] in K, K1. rewrite f03 in K, K1. split; [exact K0|]. split; [exact K|apply PB, K1].
Qed.

Lemma exp_40 w : Rabs w <= 40 -> / 10 ^ 20 <= exp w <= 10 ^ 20.
Proof.
  intros H. apply Rabs_le_inv in H. pose proof exp_le_3 as E3. pose proof (exp_pos 1) as E0.
  assert (P : forall n, exp (INR n) <= 3 ^ n).
  { induction n as [|n IH]; [cbn; rewrite exp_0; lra|]. rewrite S_INR, exp_plus. cbn [pow]. rewrite Rmult_comm. apply Rmult_le_compat; auto; left; apply exp_pos. }
  assert (B : exp 40 <= 10 ^ 20). { replace 40 with (INR 40) by (simpl; lra). eapply Rle_trans; [apply P|]. change 3 with (IZR 3). change 10 with (IZR 10). rewrite !pow_IZR. apply IZR_le. vm_compute. discriminate. }
  assert (M : forall x y, x <= y -> exp x <= exp y) by (intros x y Hxy; destruct (Rle_lt_or_eq_dec _ _ Hxy) as [L| ->]; [left; apply exp_increasing, L|lra]).
  split; [|eapply Rle_trans; [apply M|exact B]; lra].
  apply Rle_trans with (exp (- (40))); [rewrite exp_Ropp; apply Rinv_le; [apply exp_pos|exact B]|apply M; lra].
Qed.

Lemma mul_factor (h P : f32) (g W e d : R) : is_finite h = true -> is_finite P = true -> / 10 ^ 20 <= W <= 10 ^ 20 -> Rabs (B2R P - W) <= d * W -> 0 <= d <= / 100 ->
  Rabs (B2R h - g) <= e -> Rabs g <= 1 -> 0 <= e <= / 50 ->
  is_finite (Bmult mode_NE h P) = true /\ Rabs (B2R (Bmult mode_NE h P) - W * g) <= W * (101 / 100 * e + d + 2 * u).
Proof.
  intros Fh FP HW HP Hd Hh Hg He. assert (W0 : 0 < W) by (assert (0 < / 10 ^ 20) by (apply Rinv_0_lt_compat, pow_lt; lra); lra).
  assert (PB : Rabs (B2R P) <= 101 / 100 * W). { replace (B2R P) with ((B2R P - W) + W) by ring. eapply Rle_trans; [apply Rabs_triang|]. rewrite (Rabs_pos_eq W) by lra. nra. }
  assert (HB : Rabs (B2R h) <= 102 / 100). { replace (B2R h) with ((B2R h - g) + g) by ring. eapply Rle_trans; [apply Rabs_triang|]. lra. }
  assert (M : Rabs (B2R h * B2R P) <= 104 / 100 * W). { rewrite Rabs_mult. apply Rle_trans with (102 / 100 * (101 / 100 * W)); [apply Rmult_le_compat; auto using Rabs_pos|lra]. }
  destruct (mult_ok h P Fh FP) as [F E].
  { eapply Rle_trans; [exact M|]. apply Rle_trans with (bpow radix2 80); [|apply bpow_le; lia]. apply Rle_trans with (2 * 10 ^ 20); [lra|].
    change (bpow radix2 80) with (IZR (2 ^ 80)). change 10 with (IZR 10). rewrite pow_IZR, <- mult_IZR. apply IZR_le. vm_compute. discriminate. }
  split; [exact F|]. rewrite E. pose proof (rnd_near _ _ M) as N. set (p := B2R h * B2R P) in *.
  assert (D : Rabs (p - W * g) <= 101 / 100 * W * e + d * W).
  { replace (p - W * g) with (B2R P * (B2R h - g) + g * (B2R P - W)) by (unfold p; ring). eapply Rle_trans; [apply Rabs_triang|]. rewrite !Rabs_mult.
    apply Rplus_le_compat; [apply Rmult_le_compat; auto using Rabs_pos|]. apply Rle_trans with (1 * (d * W)); [apply Rmult_le_compat; auto using Rabs_pos|lra]. }
  assert (Z : eta <= u / 100 * W).
  { pose proof eta_40 as [_ E40]. apply Rle_trans with (u / 100 * / 10 ^ 20); [|apply Rmult_le_compat_l; [unfold u|]; lra]. eapply Rle_trans; [exact E40|]. unfold u. simpl. lra. }
  replace (rnd32 p - W * g) with ((rnd32 p - p) + (p - W * g)) by ring. eapply Rle_trans; [apply Rabs_triang|]. unfold u in *. lra.
Qed.

(** scaling the result of [exp_core] *)
Lemma scaled32 lm (v1 : Vec (T (Arith := F32 lm))) h (r : quat) (P : f32) W e d : vec_is (A := F32 lm) v1 4 h -> is_finite P = true -> / 10 ^ 20 <= W <= 10 ^ 20 -> Rabs (B2R P - W) <= d * W -> 0 <= d <= / 100 -> 0 <= e <= / 50 ->
  (forall i, (i < 4)%nat -> is_finite (h i : f32) = true /\ Rabs (B2R (h i : f32) - qf r i) <= e /\ Rabs (qf r i) <= 1) ->
  exists v' s, v_mul_by_scalar_in_place (A := F32 lm) P v1 = (v', Ok tt) /\ quat_f v' s /\ qdist s (qscale W r) <= 2 * (W * (101 / 100 * e + d + 2 * u)).
Proof.
  intros H1 FP HW HP Hd He Hh.
  assert (M : forall i, (i < 4)%nat -> is_finite (Bmult mode_NE (h i : f32) P) = true /\ Rabs (B2R (Bmult mode_NE (h i : f32) P) - W * qf r i) <= W * (101 / 100 * e + d + 2 * u)).
  { intros i Hi. destruct (Hh i Hi) as (A1 & A2 & A3). apply mul_factor; auto. }
  pose proof (v_mul_by_scalar_in_place_pw (A := F32 lm) v1 4 h H1 (P : T (Arith := F32 lm))) as PW. apply pointwise_v_ok in PW; [|intros i Hi; apply (valid_finite lm), M, Hi].
  destruct PW as (v' & E & Hv'). exists v', (Quat (B2R (Bmult mode_NE (h 0%nat : f32) P)) (B2R (Bmult mode_NE (h 1%nat : f32) P)) (B2R (Bmult mode_NE (h 2%nat : f32) P)) (B2R (Bmult mode_NE (h 3%nat : f32) P))).
  split; [exact E|]. split; [eexists; split; [exact Hv'|]; apply below4; reflexivity|].
  apply qdist_comp; cbn [Qw Qx Qy Qz qscale]; [exact (proj2 (M 0%nat ltac:(lia)))|exact (proj2 (M 1%nat ltac:(lia)))|exact (proj2 (M 2%nat ltac:(lia)))|exact (proj2 (M 3%nat ltac:(lia)))].
Qed.
Lemma qexp_split q : qexp q = qscale (exp (Qw q)) (qexp (Quat 0 (Qx q) (Qy q) (Qz q))).
Proof. unfold qexp. change (vnorm (Quat 0 (Qx q) (Qy q) (Qz q))) with (vnorm q). cbn [Qw Qx Qy Qz]. rewrite exp_0. unfold qscale. cbn. f_equal; ring. Qed.

(*@ C75_exp_general *)
(** C75: [exp_new] of an f32 quaternion with real part w between 1.03e-4 and W (at most 40) in size is the quaternion exponential up to
    e^w ((3 + |v|) 1e-6 + 5 d), where d is the error of sin and cos up to 2 B and of pow(E, x) up to W *)
Lemma l_exp32_general :
  forall (lm : Libm) (v : Vec (T (Arith := F32 lm))) (q : quat) (d B W : R), quat_f v q -> 103 / 1000000 <= Rabs (Qw q) <= W -> W <= 40 ->
  2 / 10000 <= vnorm q <= B -> B <= 1000 -> libm_accurate lm d (2 * B) -> pow_e lm d W -> 0 <= d <= / 100 ->
  exists v' r, q_exp_new v = Ok v' /\ quat_f v' r /\ qdist r (qexp q) <= exp (Qw q) * ((3 + vnorm q) / 1000000 + 5 * d).
Proof.
  intros lm v q d B W Hq Hw HW HN HB LA LP Hd. destruct (quat_f_inv lm v q Hq) as (f & Hf & Ff).
  destruct (exp_core lm v q f d B Hf Ff HN HB LA Hd) as (v1 & v2 & h & H1 & _ & -> & _ & Hh). pose proof (Ff 0%nat ltac:(lia)) as [F0 f00]. cbn [qf quad] in f00.
  destruct (l_is_real (F32 lm) _ v f Hf) as (_ & (bp & Ep & Hp) & _). rewrite Ep. cbn [rbind].
  assert (bp = false) as ->. { destruct bp; [|reflexivity]. exfalso. destruct Hp as [Hp _]. specialize (Hp eq_refl). apply within0 in Hp; [|exact F0]. rewrite f00 in Hp. lra. }
  destruct (LP (f 0%nat) F0 ltac:(rewrite f00; lra)) as [FP EP]. rewrite f00 in EP.
  assert (U : u = 1 / 16777216) by reflexivity.
  destruct (scaled32 lm v1 h _ _ (exp (Qw q)) (101 / 100 * (d + 7 * u * vnorm q) + 11 / 10000000) d H1 FP (exp_40 _ (Rle_trans _ _ _ (proj2 Hw) HW)) EP Hd ltac:(rewrite U; lra) Hh) as (v' & s & E & Hs & D).
  exists v', s. unfold exec. change (fpow (Arith := F32 lm) E_ (f 0%nat)) with (lm_pow lm (E_ (A := F32 lm)) (f 0%nat) : T (Arith := F32 lm)). rewrite E. split; [reflexivity|]. split; [exact Hs|].
  rewrite (qexp_split q). eapply Rle_trans; [exact D|]. pose proof (exp_pos (Qw q)) as X.
  replace (2 * (exp (Qw q) * (101 / 100 * (101 / 100 * (d + 7 * u * vnorm q) + 11 / 10000000) + d + 2 * u))) with (exp (Qw q) * (2 * (101 / 100 * (101 / 100 * (d + 7 * u * vnorm q) + 11 / 10000000) + d + 2 * u))) by ring.
  apply Rmult_le_compat_l; [lra|]. rewrite U. lra.
Qed.

(*@ C75_exp_in_place *)
(** C75: the exponential in place obeys the same bound when the cosine of |v| is not small, for every real part up to W in size, small ones included *)
Lemma l_exp32_in_place :
  forall (lm : Libm) (v : Vec (T (Arith := F32 lm))) (q : quat) (d B W : R), quat_f v q -> Rabs (Qw q) <= W -> W <= 40 ->
  2 / 10000 <= vnorm q <= B -> B <= 1000 -> libm_accurate lm d (2 * B) -> pow_e lm d W -> 0 <= d <= / 100 ->
  2 / 10000 + 2 * d + vnorm q / 1000000 <= Rabs (cos (vnorm q)) ->
  exists v' r, q_exp v = (v', Ok tt) /\ quat_f v' r /\ qdist r (qexp q) <= exp (Qw q) * ((3 + vnorm q) / 1000000 + 5 * d).
Proof.
  intros lm v q d B W Hq Hw HW HN HB LA LP Hd Hc. destruct (quat_f_inv lm v q Hq) as (f & Hf & Ff).
  destruct (exp_core lm v q f d B Hf Ff HN HB LA Hd) as (v1 & v2 & h & _ & H2 & _ & -> & Hh). pose proof (Ff 0%nat ltac:(lia)) as [F0 f00]. cbn [qf quad] in f00.
  assert (U : u = 1 / 16777216) by reflexivity.
  destruct (l_is_real (F32 lm) _ v2 h H2) as (_ & (bp & Ep & Hp) & _). unfold sbind at 1. unfold reads at 1. rewrite Ep.
  assert (bp = false) as ->.
  { destruct bp; [|reflexivity]. exfalso. destruct Hp as [Hp _]. specialize (Hp eq_refl). destruct (Hh 0%nat ltac:(lia)) as (A1 & A2 & _). apply within0 in Hp; [|exact A1].
    replace (qf (qexp (Quat 0 (Qx q) (Qy q) (Qz q))) 0%nat) with (cos (vnorm q)) in A2.
    2:{ unfold qexp. change (vnorm (Quat 0 (Qx q) (Qy q) (Qz q))) with (vnorm q). cbn. rewrite exp_0. ring. }
    rewrite Rabs_minus_sym in A2. assert (K : Rabs (cos (vnorm q)) <= Rabs (cos (vnorm q) - B2R (h 0%nat : f32)) + Rabs (B2R (h 0%nat : f32))).
    { replace (cos (vnorm q)) with ((cos (vnorm q) - B2R (h 0%nat : f32)) + B2R (h 0%nat : f32)) at 1 by ring. apply Rabs_triang. }
    rewrite U in A2. lra. }
  destruct (LP (f 0%nat) F0 ltac:(rewrite f00; lra)) as [FP EP]. rewrite f00 in EP.
  destruct (scaled32 lm v2 h _ _ (exp (Qw q)) (101 / 100 * (d + 7 * u * vnorm q) + 11 / 10000000) d H2 FP (exp_40 _ (Rle_trans _ _ _ Hw HW)) EP Hd ltac:(rewrite U; lra) Hh) as (v' & s & E & Hs & D).
  exists v', s. change (fpow (Arith := F32 lm) E_ (f 0%nat)) with (lm_pow lm (E_ (A := F32 lm)) (f 0%nat) : T (Arith := F32 lm)). rewrite E. split; [reflexivity|]. split; [exact Hs|].
  rewrite (qexp_split q). eapply Rle_trans; [exact D|]. pose proof (exp_pos (Qw q)) as X.
  replace (2 * (exp (Qw q) * (101 / 100 * (101 / 100 * (d + 7 * u * vnorm q) + 11 / 10000000) + d + 2 * u))) with (exp (Qw q) * (2 * (101 / 100 * (101 / 100 * (d + 7 * u * vnorm q) + 11 / 10000000) + d + 2 * u))) by ring.
  apply Rmult_le_compat_l; [lra|]. rewrite U. lra.
Qed.

(*@ C75_exp_in_place_lost *)
(** C75, violation for a whole class: when the cosine of |v| is within about 9e-5 of 0 the exponential in place is the one of the
    vector part alone: the real part is ignored, whatever it is *)
Lemma l_exp32_lost :
  forall (lm : Libm) (v : Vec (T (Arith := F32 lm))) (q : quat) (d B : R), quat_f v q ->
  2 / 10000 <= vnorm q <= B -> B <= 1000 -> libm_accurate lm d (2 * B) -> 0 <= d ->
  Rabs (cos (vnorm q)) + 2 * d + vnorm q / 1000000 <= 9 / 100000 ->
  exists v' r, q_exp v = (v', Ok tt) /\ quat_f v' r /\ qdist r (qexp (Quat 0 (Qx q) (Qy q) (Qz q))) <= (3 + vnorm q) / 1000000 + 3 * d.
Proof.
  intros lm v q d B Hq HN HB LA Hd Hc. destruct (quat_f_inv lm v q Hq) as (f & Hf & Ff). pose proof (Rabs_pos (cos (vnorm q))) as C0.
  destruct (exp_core lm v q f d B Hf Ff HN HB LA ltac:(lra)) as (v1 & v2 & h & _ & H2 & _ & -> & Hh).
  assert (U : u = 1 / 16777216) by reflexivity.
  destruct (l_is_real (F32 lm) _ v2 h H2) as (_ & (bp & Ep & Hp) & _). unfold sbind at 1. unfold reads at 1. rewrite Ep.
  assert (bp = true) as ->.
  { apply Hp. destruct (Hh 0%nat ltac:(lia)) as (A1 & A2 & _). apply within0; [exact A1|].
    replace (qf (qexp (Quat 0 (Qx q) (Qy q) (Qz q))) 0%nat) with (cos (vnorm q)) in A2.
    2:{ unfold qexp. change (vnorm (Quat 0 (Qx q) (Qy q) (Qz q))) with (vnorm q). cbn. rewrite exp_0. ring. }
    replace (B2R (h 0%nat : f32)) with ((B2R (h 0%nat : f32) - cos (vnorm q)) + cos (vnorm q)) by ring. eapply Rle_trans; [apply Rabs_triang|]. rewrite U in A2. lra. }
  exists v2, (Quat (B2R (h 0%nat : f32)) (B2R (h 1%nat : f32)) (B2R (h 2%nat : f32)) (B2R (h 3%nat : f32))). split; [reflexivity|]. split; [eexists; split; [exact H2|]; apply below4; reflexivity|].
  eapply Rle_trans; [apply qdist_comp with (e := 101 / 100 * (d + 7 * u * vnorm q) + 11 / 10000000)|rewrite U; lra]; cbn [Qw Qx Qy Qz];
    [exact (proj1 (proj2 (Hh 0%nat ltac:(lia))))|exact (proj1 (proj2 (Hh 1%nat ltac:(lia))))|exact (proj1 (proj2 (Hh 2%nat ltac:(lia))))|exact (proj1 (proj2 (Hh 3%nat ltac:(lia))))].
Qed.

Definition pow_libm : Libm :=
  mkLibm (fun x => near (sin (B2R x))) (fun x => near (cos (B2R x))) (fun x => x) (fun x => x) (fun x _ => x) (fun _ x => near (exp (B2R x))) (fun x => x).
Lemma pow_libm_ok B : libm_accurate pow_libm (1 / 1000000) B /\ pow_e pow_libm (1 / 1000000) 1.
Proof.
  split.
  - intros x Fx _. cbn [pow_libm lm_sin lm_cos]. pose proof (SIN_bound (B2R x)). pose proof (COS_bound (B2R x)).
    split; (split; [apply near3_ok; apply Rabs_le; lra|]); (eapply Rle_trans; [apply near3_ok; apply Rabs_le; lra|]); lra.
  - intros x Fx H. cbn [pow_libm lm_pow]. apply Rabs_le_inv in H. pose proof exp_le_3 as E3.
    assert (L : exp (B2R x) <= 3). { destruct (Req_dec (B2R x) 1) as [->|N]; [exact E3|]. apply Rle_trans with (exp 1); [left; apply exp_increasing; lra|exact E3]. }
    assert (G : 1 / 3 <= exp (B2R x)).
    { apply Rle_trans with (exp (- (1))). { rewrite exp_Ropp. unfold Rdiv. rewrite Rmult_1_l. apply Rinv_le; [apply exp_pos|exact E3]. }
      destruct (Req_dec (B2R x) (- (1))) as [->|N]; [lra|]. left. apply exp_increasing. lra. }
    destruct (near3_ok (exp (B2R x))) as [F D]; [rewrite Rabs_pos_eq; lra|]. split; [exact F|]. lra.
Qed.
Lemma ex_exp32_0 : let lm := pow_libm in exists (v : Vec (T (Arith := F32 lm))) (q : quat), quat_f v q /\ q = Quat 1 0 1 0 /\
  103 / 1000000 <= Rabs (Qw q) <= 1 /\ 2 / 10000 <= vnorm q <= 1 /\ libm_accurate lm (1 / 1000000) (2 * 1) /\ pow_e lm (1 / 1000000) 1 /\
  2 / 10000 + 2 * (1 / 1000000) + vnorm q / 1000000 <= Rabs (cos (vnorm q)).
Proof.
  cbv zeta. exists (mk_vec (A := F32 pow_libm) (map z32 [1; 0; 1; 0]%Z)), (Quat 1 0 1 0). split; [apply (fquat_z pow_libm 1 0 1 0); lia|]. split; [reflexivity|].
  assert (E : vnorm (Quat 1 0 1 0) = 1) by (unfold vnorm; cbn; replace (0 * 0 + 1 * 1 + 0 * 0) with 1 by ring; apply sqrt_1). rewrite E. cbn [Qw].
  rewrite (Rabs_pos_eq 1) by lra. split; [lra|]. split; [lra|]. split; [apply pow_libm_ok|]. split; [apply (pow_libm_ok 1)|].
  assert (C : / 2 <= cos 1). { rewrite <- (Rinv_involutive 2) by lra. replace (/ / 2) with 2 by field. replace 1 with (2 * / 2) by field. rewrite cos_2a_sin. pose proof (Rabs_sin_le (/ 2)) as Q. rewrite (Rabs_pos_eq (/ 2)) in Q by lra. apply Rabs_le_inv in Q. nra. }
  rewrite Rabs_pos_eq by lra. lra.
Qed.
Lemma ex_exp32 : exists lm : Libm, exists (v : Vec (T (Arith := F32 lm))) (q : quat), quat_f v q /\ q = Quat 1 0 1 0 /\
  103 / 1000000 <= Rabs (Qw q) <= 1 /\ 2 / 10000 <= vnorm q <= 1 /\ libm_accurate lm (1 / 1000000) (2 * 1) /\ pow_e lm (1 / 1000000) 1 /\
  2 / 10000 + 2 * (1 / 1000000) + vnorm q / 1000000 <= Rabs (cos (vnorm q)).
Proof. exact (ex_intro _ pow_libm ex_exp32_0). Qed.
(*@ example *)
(** C75 hypotheses: 1 + j, for a libm within 1e-6 *)
Example C75_general_example : exists lm : Libm, exists (v : Vec (T (Arith := F32 lm))) (q : quat), quat_f v q /\ q = Quat 1 0 1 0 /\
  103 / 1000000 <= Rabs (Qw q) <= 1 /\ 2 / 10000 <= vnorm q <= 1 /\ libm_accurate lm (1 / 1000000) (2 * 1) /\ pow_e lm (1 / 1000000) 1 /\
  2 / 10000 + 2 * (1 / 1000000) + vnorm q / 1000000 <= Rabs (cos (vnorm q)).
Proof. exact ex_exp32. Qed.

(*@ C75_exp_in_place_refuted *)
(** ... so there are a libm accurate to 1e-6 and an f32 quaternion, 1 + (PI/2) i up to 5e-7, whose exponential in place succeeds
    and is off by more than 9/10 *)
Lemma l_exp32_lost_w :
  exists (lm : Libm) (v v' : Vec (T (Arith := F32 lm))) (q r : quat), libm_accurate lm (1 / 1000000) 6 /\ pow_e lm (1 / 1000000) 1 /\
  quat_f v q /\ Qw q = 1 /\ Rabs (Qx q - PI / 2) <= 5 / 10000000 /\ Qy q = 0 /\ Qz q = 0 /\
  q_exp v = (v', Ok tt) /\ quat_f v' r /\ 9 / 10 <= qdist r (qexp q).
Proof.
  pose proof PI_4 as P4. pose proof PI2_1 as P1. destruct (near_ok4 (PI / 2)) as [Fn En]; [rewrite Rabs_pos_eq; lra|]. set (n := near (PI / 2)) in *. set (x := B2R n) in *.
  assert (Hq : quat_f (lm := pow_libm) (mk_vec (A := F32 pow_libm) [z32 1; n; z32 0; z32 0]) (Quat 1 x 0 0)).
  { eexists. split; [apply (fvec_is pow_libm [z32 1; n; z32 0; z32 0]); [cbn; lia|repeat constructor; exact Fn]|].
    apply below4; cbn [nth qf quad Qw Qx Qy Qz]; [apply z32_R; lia|reflexivity|apply z32_R; lia|apply z32_R; lia]. }
  pose proof (Rabs_le_inv _ _ En) as En'.
  assert (V : vnorm (Quat 1 x 0 0) = x) by (unfold vnorm; cbn [Qx Qy Qz]; replace (x * x + 0 * 0 + 0 * 0) with (x * x) by ring; apply sqrt_square; lra).
  assert (C : Rabs (cos x) <= 5 / 10000000).
  { replace x with (PI / 2 - (PI / 2 - x)) by ring. rewrite cos_shift. eapply Rle_trans; [apply Rabs_sin_le|]. rewrite Rabs_minus_sym. exact En. }
  destruct (pow_libm_ok 6) as [LA LP].
  destruct (l_exp32_lost pow_libm _ (Quat 1 x 0 0) (1 / 1000000) 3 Hq) as (v' & r & E & Hr & D).
  - rewrite V. lra.
  - lra.
  - replace (2 * 3) with 6 by ring. exact LA.
  - lra.
  - rewrite V. lra.
  - exists pow_libm. eexists. exists v', (Quat 1 x 0 0), r. split; [exact LA|]. split; [exact LP|]. split; [exact Hq|]. cbn [Qw Qx Qy Qz]. split; [reflexivity|]. split; [exact En|]. split; [reflexivity|]. split; [reflexivity|]. split; [exact E|]. split; [exact Hr|].
    rewrite V in D. cbn [Qx Qy Qz] in D. set (p := qexp (Quat 0 x 0 0)) in *.
    assert (Np : qnorm p = 1).
    { unfold p, qexp. replace (vnorm (Quat 0 x 0 0)) with x by (rewrite <- V at 1; reflexivity). cbn [Qw Qx Qy Qz]. rewrite exp_0, qnorm_scale, Rabs_R1, Rmult_1_l. unfold qnorm, qnorm2. cbn [Qw Qx Qy Qz].
      replace (cos x * cos x + sin x * (x / x) * (sin x * (x / x)) + sin x * (0 / x) * (sin x * (0 / x)) + sin x * (0 / x) * (sin x * (0 / x))) with 1; [apply sqrt_1|].
      pose proof (sin2_cos2 x) as Q. unfold Rsqr in Q. replace (x / x) with 1 by (field; lra). unfold Rdiv. lra. }
    rewrite (qexp_split (Quat 1 x 0 0)). cbn [Qw Qx Qy Qz]. fold p. pose proof (qdist_norm (qscale (exp 1) p) r) as K1. pose proof (qdist_norm r p) as K2. rewrite qnorm_scale, Np, Rabs_pos_eq in K1 by (left; apply exp_pos). rewrite Np in K2.
    pose proof (exp_ineq1 1 ltac:(lra)) as E1. rewrite (qdist_sym _ r) in K1. lra.
Qed.
