(** Relative rounding errors, one binary32 operation at a time. *)
From Coq Require Import ZArith Reals Lia Lra Bool Psatz Arith.
From Flocq Require Import Core BinarySingleNaN.
From Verif Require Import M_Base M_Arith M_F32 S_Norm P_InstF P_Float P_Norm P_FErr P_FAcc.
Local Open Scope R_scope.

(** slightly more than half a unit in the last place *)
Definition ulp1 : R := 6 / 100000000.
Definition mid (M : R) : Prop := / 1000000000000 <= M <= 1000000000000.
(** [x] approximates [X], of magnitude at most [M], up to [e M] *)
Definition app (x : f32) (X M e : R) : Prop := is_finite x = true /\ Rabs X <= M /\ Rabs (B2R x - X) <= e * M.

Lemma eta_mid M : mid M -> eta <= / 1000000000000 * ulp1 * M.
Proof.
  intros [H _]. apply Rle_trans with (bpow radix2 (-110)); [apply bpow_le; lia|].
  apply Rle_trans with (/ 1000000000000 * ulp1 * / 1000000000000).
  - change (-110)%Z with (-60 + -50)%Z. rewrite bpow_plus. 
    assert (bpow radix2 (-60) <= / 1000000000000000000) by (cbn; lra).
    assert (bpow radix2 (-50) <= / 1000000000000000) by (cbn; lra).
    pose proof (bpow_ge_0 radix2 (-60)). pose proof (bpow_ge_0 radix2 (-50)).
    apply Rle_trans with (/ 1000000000000000000 * / 1000000000000000); [apply Rmult_le_compat; auto|unfold ulp1; lra].
  - apply Rmult_le_compat_l; [unfold ulp1; lra|exact H].
Qed.
Lemma rnd_app q X M e : mid M -> 0 <= e <= / 1000 -> Rabs X <= M -> Rabs (q - X) <= e * M -> Rabs (rnd32 q - X) <= (e + ulp1) * M.
Proof.
  intros HM He HX H. pose proof (eta_mid M HM) as E. destruct HM as [M1 M2]. assert (0 <= M) by lra.
  eapply Rle_trans; [apply (rnd_acc q X M (e * M) H HX); apply Rmult_le_pos; lra|].
  assert ((e * (1 + u) + u + / 1000000000000 * ulp1) * M <= (e + ulp1) * M); [|lra].
  apply Rmult_le_compat_r; auto. unfold ulp1, u. lra.
Qed.
Lemma app_big x X M e k : mid M -> e <= / 1000 -> 0 <= k <= 1000 -> app x X M e -> Rabs (B2R x) <= k * M -> Rabs (B2R x) <= huge.
Proof.
  intros [_ HM] He Hk (_ & HX & H) B. apply Rle_trans with (bpow radix2 60); [|apply bpow_le; lia].
  assert (bpow radix2 60 = 1152921504606846976) as -> by (cbn; lra). nra.
Qed.
Lemma mid_big M q : mid M -> Rabs q <= 1000 * M -> Rabs q <= bpow radix2 127.
Proof.
  intros [_ HM] H. apply Rle_trans with (bpow radix2 60); [|apply bpow_le; lia].
  assert (bpow radix2 60 = 1152921504606846976) as -> by (cbn; lra). lra.
Qed.
Lemma app_weak x X M e e' : 0 <= M -> app x X M e -> e <= e' -> app x X M e'.
Proof. intros HM (F & HX & H) L. split; [auto|]. split; [auto|]. eapply Rle_trans; [exact H|]. apply Rmult_le_compat_r; auto. Qed.
Lemma app_exact (x : f32) M : is_finite x = true -> Rabs (B2R x) <= M -> app x (B2R x) M 0.
Proof. intros F H. split; [auto|]. split; [auto|]. rewrite Rminus_diag_eq, Rabs_R0 by auto. lra. Qed.
Lemma app_abs x X M e : app x X M e -> Rabs (B2R x - X) <= e * M. Proof. intros H; apply H. Qed.

Lemma near_le q X M e : 0 <= M -> 0 <= e <= / 1000 -> Rabs X <= M -> Rabs (q - X) <= e * M -> Rabs q <= 2 * M.
Proof.
  intros HM He HX H. replace q with ((q - X) + X) by ring. eapply Rle_trans; [apply Rabs_triang|].
  assert (e * M <= / 1000 * M) by (apply Rmult_le_compat_r; lra). lra.
Qed.

Section Ops.
  Implicit Types x y : f32.
  Lemma app_add x y X Y M N K e1 e2 e : app x X M e1 -> app y Y N e2 -> mid K -> Rabs (X + Y) <= K ->
    e1 * M + e2 * N <= e * K -> 0 <= e <= / 1000 -> app (Bplus mode_NE x y) (X + Y) K (e + ulp1).
  Proof.
    intros (Fx & HX & Ex) (Fy & HY & Ey) HK HS He Be.
    assert (D : Rabs (B2R x + B2R y - (X + Y)) <= e * K).
    { replace (B2R x + B2R y - (X + Y)) with ((B2R x - X) + (B2R y - Y)) by ring. eapply Rle_trans; [apply Rabs_triang|]. lra. }
    assert (K0 : 0 <= K) by (destruct HK; lra).
    destruct (plus_ok x y Fx Fy) as [F E].
    { apply (mid_big K); [exact HK|]. pose proof (near_le _ _ _ _ K0 Be HS D). lra. }
    split; [exact F|]. split; [exact HS|]. rewrite E. apply rnd_app; auto.
  Qed.
  Lemma app_sub x y X Y M N K e1 e2 e : app x X M e1 -> app y Y N e2 -> mid K -> Rabs (X - Y) <= K ->
    e1 * M + e2 * N <= e * K -> 0 <= e <= / 1000 -> app (Bminus mode_NE x y) (X - Y) K (e + ulp1).
  Proof.
    intros (Fx & HX & Ex) (Fy & HY & Ey) HK HS He Be.
    assert (D : Rabs (B2R x - B2R y - (X - Y)) <= e * K).
    { replace (B2R x - B2R y - (X - Y)) with ((B2R x - X) - (B2R y - Y)) by ring. unfold Rminus at 1. eapply Rle_trans; [apply Rabs_triang|].
      rewrite Rabs_Ropp. lra. }
    assert (K0 : 0 <= K) by (destruct HK; lra).
    destruct (minus_ok x y Fx Fy) as [F E].
    { apply (mid_big K); [exact HK|]. pose proof (near_le _ _ _ _ K0 Be HS D). lra. }
    split; [exact F|]. split; [exact HS|]. rewrite E. apply rnd_app; auto.
  Qed.
  Lemma app_mul x y X Y M N e1 e2 e : app x X M e1 -> app y Y N e2 -> mid (M * N) -> 0 <= e1 -> 0 <= e2 ->
    e1 + e2 + e1 * e2 <= e -> e <= / 1000 -> app (Bmult mode_NE x y) (X * Y) (M * N) (e + ulp1).
  Proof.
    intros (Fx & HX & Ex) (Fy & HY & Ey) HK P1 P2 He Be.
    assert (M0 : 0 <= M) by (eapply Rle_trans; [apply Rabs_pos|exact HX]).
    assert (N0 : 0 <= N) by (eapply Rle_trans; [apply Rabs_pos|exact HY]).
    assert (MN : 0 <= M * N) by (apply Rmult_le_pos; auto).
    assert (HS : Rabs (X * Y) <= M * N) by (rewrite Rabs_mult; apply Rmult_le_compat; auto using Rabs_pos).
    assert (D : Rabs (B2R x * B2R y - X * Y) <= e * (M * N)).
    { replace (B2R x * B2R y - X * Y) with ((B2R x - X) * Y + X * (B2R y - Y) + (B2R x - X) * (B2R y - Y)) by ring.
      eapply Rle_trans; [apply Rabs_triang|]. eapply Rle_trans; [apply Rplus_le_compat_r, Rabs_triang|]. rewrite !Rabs_mult.
      assert (Rabs (B2R x - X) * Rabs Y <= e1 * M * N) by (apply Rmult_le_compat; auto using Rabs_pos).
      assert (Rabs X * Rabs (B2R y - Y) <= M * (e2 * N)) by (apply Rmult_le_compat; auto using Rabs_pos).
      assert (Rabs (B2R x - X) * Rabs (B2R y - Y) <= e1 * M * (e2 * N)) by (apply Rmult_le_compat; auto using Rabs_pos).
      assert ((e1 + e2 + e1 * e2) * (M * N) <= e * (M * N)) by (apply Rmult_le_compat_r; auto). lra. }
    assert (E0 : 0 <= e) by nra.
    destruct (mult_ok x y Fx Fy) as [F E].
    { apply (mid_big (M * N)); [exact HK|]. pose proof (near_le _ _ _ _ MN (conj E0 Be) HS D). lra. }
    split; [exact F|]. split; [exact HS|]. rewrite E. apply rnd_app; auto.
  Qed.
  Lemma app_pos x X e : 0 < X -> 0 <= e <= / 1000 -> app x X X e -> (1 - e) * X <= B2R x /\ 0 < B2R x.
  Proof. intros HX He (_ & _ & H). apply Rabs_le_inv in H. nra. Qed.
  Lemma app_div x y X Y M e1 e2 e : app x X M e1 -> app y Y Y e2 -> 0 < Y -> mid (M / Y) -> 0 <= e1 -> 0 <= e2 <= / 1000 ->
    (e1 + e2) * (1 + 2 * e2) <= e -> e <= / 1000 -> app (Bdiv mode_NE x y) (X / Y) (M / Y) (e + ulp1).
  Proof.
    intros Ax Ay HY HK P1 P2 He Be. destruct (app_pos y Y e2 HY P2 Ay) as [L0 L1].
    destruct Ax as (Fx & HX & Ex), Ay as (Fy & _ & Ey).
    assert (M0 : 0 <= M) by (eapply Rle_trans; [apply Rabs_pos|exact HX]).
    assert (IY : 0 < / Y) by (apply Rinv_0_lt_compat; auto).
    assert (MN : 0 <= M / Y) by (unfold Rdiv; apply Rmult_le_pos; lra).
    assert (HS : Rabs (X / Y) <= M / Y).
    { unfold Rdiv. rewrite Rabs_mult, (Rabs_pos_eq (/ Y)) by lra. apply Rmult_le_compat_r; lra. }
    assert (D : Rabs (B2R x / B2R y - X / Y) <= e * (M / Y)).
    { replace (B2R x / B2R y - X / Y) with (((B2R x - X) - X / Y * (B2R y - Y)) / B2R y) by (field; lra).
      unfold Rdiv at 1. rewrite Rabs_mult, (Rabs_pos_eq (/ B2R y)) by (left; apply Rinv_0_lt_compat; auto).
      assert (NU : Rabs ((B2R x - X) - X / Y * (B2R y - Y)) <= (e1 + e2) * M).
      { unfold Rminus at 1. eapply Rle_trans; [apply Rabs_triang|]. rewrite Rabs_Ropp, Rabs_mult.
        assert (Rabs (X / Y) * Rabs (B2R y - Y) <= M / Y * (e2 * Y)) by (apply Rmult_le_compat; auto using Rabs_pos).
        replace (M / Y * (e2 * Y)) with (e2 * M) in * by (field; lra). lra. }
      assert (IV : / B2R y <= (1 + 2 * e2) * / Y).
      { apply Rmult_le_reg_l with (B2R y); [exact L1|]. rewrite Rinv_r by lra.
        apply Rle_trans with ((1 - e2) * Y * ((1 + 2 * e2) * / Y)).
        - replace ((1 - e2) * Y * ((1 + 2 * e2) * / Y)) with ((1 - e2) * (1 + 2 * e2)) by (field; lra). nra.
        - apply Rmult_le_compat_r; [|exact L0]. apply Rmult_le_pos; lra. }
      eapply Rle_trans; [apply Rmult_le_compat; [apply Rabs_pos|left; apply Rinv_0_lt_compat; auto|exact NU|exact IV]|].
      replace ((e1 + e2) * M * ((1 + 2 * e2) * / Y)) with ((e1 + e2) * (1 + 2 * e2) * (M / Y)) by (unfold Rdiv; ring).
      apply Rmult_le_compat_r; auto. }
    assert (E0 : 0 <= e) by nra.
    destruct (div_ok x y Fx) as [F E]; [lra| |].
    { apply (mid_big (M / Y)); [exact HK|]. pose proof (near_le _ _ _ _ MN (conj E0 Be) HS D). lra. }
    split; [exact F|]. split; [exact HS|]. rewrite E. apply rnd_app; auto.
  Qed.
  Lemma app_sqrt x X e1 : app x X X e1 -> 0 < X -> mid (sqrt X) -> 0 <= e1 <= / 1000 ->
    app (Bsqrt mode_NE x) (sqrt X) (sqrt X) (51 / 100 * e1 + ulp1).
  Proof.
    intros Ax HX HK He. destruct (app_pos x X e1 HX He Ax) as [L0 L1]. destruct Ax as (Fx & _ & Ex).
    assert (PX : 0 < sqrt X) by (apply sqrt_lt_R0; auto). assert (SX : sqrt X * sqrt X = X) by (apply sqrt_sqrt; lra).
    assert (Px : 0 < sqrt (B2R x)) by (apply sqrt_lt_R0; auto). assert (Sx : sqrt (B2R x) * sqrt (B2R x) = B2R x) by (apply sqrt_sqrt; lra).
    assert (HS : Rabs (sqrt X) <= sqrt X) by (rewrite Rabs_pos_eq; lra).
    destruct (sqrt_ok x Fx L1) as [F E]. split; [exact F|]. split; [exact HS|]. rewrite E. apply rnd_app; auto; [lra|].
    set (a := sqrt (B2R x)) in *. set (b := sqrt X) in *.
    assert (LB : 99 / 100 * b <= a). { apply Rnot_lt_le. intros LT. assert (a * a < 99 / 100 * b * (99 / 100 * b)) by nra. nra. }
    assert (SUM : (a + b) * Rabs (a - b) <= e1 * (b * b)).
    { rewrite <- (Rabs_pos_eq (a + b)) by lra. rewrite <- Rabs_mult. replace ((a + b) * (a - b)) with (a * a - b * b) by ring. rewrite Sx, SX. exact Ex. }
    pose proof (Rabs_pos (a - b)) as P. apply Rmult_le_reg_l with (a + b); [lra|].
    eapply Rle_trans; [exact SUM|].
    apply Rle_trans with (199 / 100 * b * (51 / 100 * e1 * b)); [nra|]. apply Rmult_le_compat_r; [|lra]. apply Rmult_le_pos; [lra|]. lra.
  Qed.
  Lemma app_neg x X M e : app x X M e -> app (Bopp x) (- X) M e.
  Proof.
    intros (F & HX & E). split; [rewrite is_finite_Bopp; exact F|]. split; [rewrite Rabs_Ropp; exact HX|].
    rewrite B2R_Bopp. replace (- B2R x - - X) with (- (B2R x - X)) by ring. rewrite Rabs_Ropp. exact E.
  Qed.
End Ops.
