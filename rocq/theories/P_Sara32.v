(** C80: from an f32 rotation matrix to a quaternion with [sarabandi]. *)
(*@+*)
From Coq Require Import List Arith ZArith Reals Lia Bool Lra SpecFloat.
From Flocq Require Import Core BinarySingleNaN.
From Verif Require Import M_Base M_Arith M_Utils M_Vector M_Matrix M_Quaternion M_F32
  S_Spec S_Linalg S_Norm S_Quat S_F32 P_Inst P_InstF.
Import ListNotations.
Local Open Scope R_scope.
(*@-*)
From Coq Require Import Psatz.
From Verif Require Import P_Hoare P_Cont P_Loops P_Access P_Pointwise P_Trans P_Float P_Product P_Norm P_Diag P_Dot P_FErr P_FAcc P_F32App P_F32Mul P_F32Rot P_Quat P_Rot P_Dcm P_Norm32 P_F32Ar P_ArFirst P_Chia P_Qr32 P_Euler32 P_Inv32.

(** ** roots *)
Lemma root_rel Q V a b : 0 <= Q -> 0 <= V -> 0 <= a <= 1 -> 0 <= b -> Rabs (Q - V) <= a * V + b * b ->
  Rabs (sqrt Q - sqrt V) <= a * sqrt V + b.
Proof.
  intros HQ HV Ha Hb H. apply Rabs_le_inv in H. pose proof (sqrt_pos Q) as PQ. pose proof (sqrt_pos V) as PV. pose proof (sqrt_sqrt Q HQ) as EQ. pose proof (sqrt_sqrt V HV) as EV.
  set (s := sqrt V) in *. set (q := sqrt Q) in *. clearbody s q. rewrite <- EQ, <- EV in H. clear EQ EV HQ HV.
  assert (0 <= a * s) by (apply Rmult_le_pos; lra). assert (S2 : 0 <= s * s) by (apply Rmult_le_pos; lra). assert (0 <= a * (s * s)) by (apply Rmult_le_pos; lra).
  apply Rabs_le. split.
  - destruct (Rle_dec ((1 - a) * s - b) 0) as [L|L]; [lra|]. assert ((1 - a) * s - b <= q); [|lra].
    apply Rsqr_incr_0_var; [|exact PQ]. unfold Rsqr.
    assert (0 <= b * ((1 - a) * s - b)) by (apply Rmult_le_pos; lra). assert (0 <= (1 - a) * (a * (s * s))) by (apply Rmult_le_pos; lra).
    replace (((1 - a) * s - b) * ((1 - a) * s - b)) with ((s * s - a * (s * s)) - (1 - a) * (a * (s * s)) - 2 * (b * ((1 - a) * s - b)) - b * b) by ring. lra.
  - assert (q <= (1 + a) * s + b); [|lra]. apply Rsqr_incr_0_var; [|lra]. unfold Rsqr.
    assert (0 <= a * s * (a * s)) by (apply Rmult_le_pos; lra). assert (0 <= b * s) by (apply Rmult_le_pos; lra). assert (0 <= b * (a * s)) by (apply Rmult_le_pos; lra).
    replace (((1 + a) * s + b) * ((1 + a) * s + b)) with (s * s + 2 * (a * (s * s)) + a * s * (a * s) + 2 * (b * s) + 2 * (b * (a * s)) + b * b) by ring. lra.
Qed.
Lemma root_lin a b m : 0 <= a -> 0 <= b -> 0 < m -> m <= sqrt a + sqrt b -> Rabs (sqrt a - sqrt b) <= Rabs (a - b) / m.
Proof.
  intros Ha Hb Hm H. assert (E : Rabs (a - b) = Rabs (sqrt a - sqrt b) * (sqrt a + sqrt b)).
  { rewrite <- (Rabs_pos_eq (sqrt a + sqrt b)) by lra. rewrite <- Rabs_mult. f_equal. rewrite <- (sqrt_sqrt a Ha) at 1. rewrite <- (sqrt_sqrt b Hb) at 1. ring. }
  rewrite E. apply Rmult_le_reg_r with m; [exact Hm|]. unfold Rdiv. rewrite Rmult_assoc, Rinv_l, Rmult_1_r by lra. apply Rmult_le_compat_l; [apply Rabs_pos|exact H].
Qed.
Lemma sqrt_ok0 (x : f32) : is_finite x = true -> 0 <= B2R x -> is_finite (Bsqrt mode_NE x) = true /\ B2R (Bsqrt mode_NE x) = rnd32 (sqrt (B2R x)).
Proof.
  intros Fx Hx. destruct (Rle_lt_or_eq_dec _ _ Hx) as [L|L]; [apply sqrt_ok; auto|].
  destruct x as [s| | |s m e Hb]; try discriminate.
  - cbn. rewrite sqrt_0. split; [reflexivity|]. symmetry. apply round_0, valid_rnd_N.
  - exfalso. pose proof (F2R_neq_0 radix2 (Float radix2 (cond_Zopp s (Z.pos m)) e)) as N. apply N; [destruct s; discriminate|]. symmetry. exact L.
Qed.
Lemma rnd_nonneg x : 0 <= x -> 0 <= rnd32 x.
Proof. intros H. replace 0 with (rnd32 0) by apply round_0, valid_rnd_N. apply round_le; [apply fexp_correct; reflexivity|apply valid_rnd_N|lra]. Qed.

(** ** sums of two *)
Lemma plus_near (x y : f32) X Y ex ey : is_finite x = true -> is_finite y = true -> Rabs (B2R x - X) <= ex -> Rabs (B2R y - Y) <= ey ->
  Rabs X <= 4 -> Rabs Y <= 4 -> ex <= / 10 -> ey <= / 10 ->
  is_finite (Bplus mode_NE x y) = true /\ Rabs (B2R (Bplus mode_NE x y) - (X + Y)) <= ex + ey + 5 / 10000000.
Proof.
  intros Fx Fy Hx Hy BX BY Bx By. pose proof eta_tiny as ET. apply Rabs_le_inv in Hx, Hy, BX, BY.
  assert (B : Rabs (B2R x + B2R y) <= 82 / 10) by (apply Rabs_le; lra).
  destruct (plus_ok x y Fx Fy) as [F E]; [apply small_127; lra|]. split; [exact F|]. rewrite E.
  pose proof (rnd_abs _ _ B) as R1. apply Rabs_le_inv in R1. unfold u in R1. apply Rabs_le. lra.
Qed.
Lemma minus_near (x y : f32) X Y ex ey : is_finite x = true -> is_finite y = true -> Rabs (B2R x - X) <= ex -> Rabs (B2R y - Y) <= ey ->
  Rabs X <= 4 -> Rabs Y <= 4 -> ex <= / 10 -> ey <= / 10 ->
  is_finite (Bminus mode_NE x y) = true /\ Rabs (B2R (Bminus mode_NE x y) - (X - Y)) <= ex + ey + 5 / 10000000.
Proof.
  intros Fx Fy Hx Hy BX BY Bx By. pose proof eta_tiny as ET. apply Rabs_le_inv in Hx, Hy, BX, BY.
  assert (B : Rabs (B2R x - B2R y) <= 82 / 10) by (apply Rabs_le; lra).
  destruct (minus_ok x y Fx Fy) as [F E]; [apply small_127; lra|]. split; [exact F|]. rewrite E.
  pose proof (rnd_abs _ _ B) as R1. apply Rabs_le_inv in R1. unfold u in R1. apply Rabs_le. lra.
Qed.
Lemma sqr_near (x : f32) : is_finite x = true -> Rabs (B2R x) <= 3 ->
  is_finite (Bmult mode_NE x x) = true /\ 0 <= B2R (Bmult mode_NE x x) /\ Rabs (B2R (Bmult mode_NE x x) - B2R x * B2R x) <= u * (B2R x * B2R x) + eta /\ 0 <= B2R x * B2R x <= 9.
Proof.
  intros F B. apply Rabs_le_inv in B. assert (N : 0 <= B2R x * B2R x <= 9) by nra.
  destruct (mult_ok x x F F) as [F2 E2]; [apply small_127; rewrite Rabs_pos_eq; lra|]. split; [exact F2|]. rewrite E2.
  split; [apply rnd_nonneg; lra|]. split; [|exact N]. apply rnd_near. rewrite Rabs_pos_eq; lra.
Qed.

(** the sum of three squares *)
Lemma squares_near (a b c : f32) : is_finite a = true -> is_finite b = true -> is_finite c = true ->
  Rabs (B2R a) <= 3 -> Rabs (B2R b) <= 3 -> Rabs (B2R c) <= 3 ->
  let s := Bplus mode_NE (Bplus mode_NE (Bmult mode_NE a a) (Bmult mode_NE b b)) (Bmult mode_NE c c) in
  let S := B2R a * B2R a + B2R b * B2R b + B2R c * B2R c in
  is_finite s = true /\ 0 <= B2R s /\ Rabs (B2R s - S) <= 19 / 100000000 * S + 10 * eta /\ 0 <= S <= 27.
Proof.
  intros Fa Fb Fc Ba Bb Bc. cbv zeta. pose proof eta_40 as [E0 E1].
  destruct (sqr_near a Fa Ba) as (F1 & P1 & D1 & N1). destruct (sqr_near b Fb Bb) as (F2 & P2 & D2 & N2). destruct (sqr_near c Fc Bc) as (F3 & P3 & D3 & N3).
  set (x := Bmult mode_NE a a) in *. set (y := Bmult mode_NE b b) in *. set (z := Bmult mode_NE c c) in *. clearbody x y z.
  set (A := B2R a * B2R a) in *. set (B := B2R b * B2R b) in *. set (C := B2R c * B2R c) in *. clearbody A B C. pose proof eta_tiny as ET.
  apply Rabs_le_inv in D1, D2, D3. assert (U : u = 1 / 16777216) by reflexivity. rewrite U in D1, D2, D3.
  destruct (plus_ok x y F1 F2) as [F4 E4]; [apply small_127; rewrite Rabs_pos_eq; lra|].
  pose proof (rnd_near (B2R x + B2R y) (B2R x + B2R y) ltac:(rewrite Rabs_pos_eq; lra)) as D4. pose proof (rnd_nonneg (B2R x + B2R y) ltac:(lra)) as P4. rewrite <- E4 in D4, P4.
  set (w := Bplus mode_NE x y) in *. clearbody w. clear E4. apply Rabs_le_inv in D4. rewrite U in D4.
  destruct (plus_ok w z F4 F3) as [F5 E5]; [apply small_127; rewrite Rabs_pos_eq; lra|].
  pose proof (rnd_near (B2R w + B2R z) (B2R w + B2R z) ltac:(rewrite Rabs_pos_eq; lra)) as D5. pose proof (rnd_nonneg (B2R w + B2R z) ltac:(lra)) as P5. rewrite <- E5 in D5, P5.
  apply Rabs_le_inv in D5. rewrite U in D5. split; [exact F5|]. split; [exact P5|]. split; [|lra]. apply Rabs_le. lra.
Qed.

(** ** one component *)
Lemma sara_comp lm (d th n1 n2 n3 : T (Arith := F32 lm)) (t v1 v2 v3 e : R) :
  is_finite (d : f32) = true -> is_finite (th : f32) = true -> is_finite (n1 : f32) = true -> is_finite (n2 : f32) = true -> is_finite (n3 : f32) = true ->
  0 <= e <= / 100 -> Rabs (B2R (th : f32)) <= / 2 -> t * t <= 1 ->
  Rabs (B2R (d : f32) - (4 * (t * t) - 1)) <= 3 * e + / 1000000 ->
  Rabs (B2R (n1 : f32) - v1) <= 2 * e + 5 / 10000000 -> Rabs (B2R (n2 : f32) - v2) <= 2 * e + 5 / 10000000 -> Rabs (B2R (n3 : f32) - v3) <= 2 * e + 5 / 10000000 ->
  v1 * v1 + v2 * v2 + v3 * v3 = 16 * (t * t) * (1 - t * t) ->
  let k := sarabandi_component (A := F32 lm) d th n1 n2 n3 in
  is_finite (k : f32) = true /\ 0 <= B2R (k : f32) /\ Rabs (B2R (k : f32) - Rabs t) <= 2 * e + 2 / 1000000.
Proof.
  intros Fd Ft F1 F2 F3 He Bt Ht Hd H1 H2 H3 Ev. cbv zeta. pose proof eta_40 as [E0 E1]. pose proof eta_tiny as ET. assert (U : u = 1 / 16777216) by reflexivity.
  assert (Hh : B2R (fhalf (A := F32 lm) : f32) = / 2) by (cbn; unfold F2R; cbn; lra).
  assert (O1 : B2R (f1 (A := F32 lm) : f32) = 1) by apply B2R_f1. assert (O3 : B2R (f3 (A := F32 lm) : f32) = 3) by (cbn; unfold F2R; cbn; lra).
  assert (T0 : 0 <= t * t) by (apply Rle_0_sqr). apply Rabs_le_inv in Bt.
  assert (FIN : forall r : f32, is_finite r = true -> 0 <= B2R r <= 3 -> Rabs (B2R r - 2 * Rabs t) <= 35 / 10 * e + 2 / 1000000 ->
     is_finite (Bmult mode_NE (fhalf (A := F32 lm) : f32) r) = true /\ 0 <= B2R (Bmult mode_NE (fhalf (A := F32 lm) : f32) r) /\
     Rabs (B2R (Bmult mode_NE (fhalf (A := F32 lm) : f32) r) - Rabs t) <= 2 * e + 2 / 1000000).
  { intros r Fr Br Hr. destruct (half_err (fhalf (A := F32 lm)) r _ _ eq_refl Fr ltac:(rewrite Hh, Rabs_pos_eq; lra) Br Hr) as [Fk Hk].
    split; [exact Fk|]. rewrite Hh in Hk. replace (/ 2 * (2 * Rabs t)) with (Rabs t) in Hk by field. split; [|lra].
    destruct (mult_ok (fhalf (A := F32 lm)) r eq_refl Fr) as [_ E]; [apply small_127; rewrite Hh; rewrite Rabs_pos_eq; lra|]. rewrite E, Hh. apply rnd_nonneg. lra. }
  unfold sarabandi_component. rewrite gt_b, Bltb_ok by auto. destruct (Rlt_bool_spec (B2R (th : f32)) (B2R (d : f32))) as [L|L].
  - (* the root of 1 + d *)
    destruct (plus_near (f1 (A := F32 lm)) d 1 (4 * (t * t) - 1) 0 (3 * e + / 1000000)) as [Fp Hp]; auto; try (rewrite ?O1, ?Rminus_diag_eq, ?Rabs_R0 by reflexivity; lra); try (apply Rabs_le; lra); try lra.
    change (fadd (Arith := F32 lm) (f1 (A := F32 lm)) d) with (Bplus mode_NE (f1 (A := F32 lm) : f32) d).
    destruct (plus_ok (f1 (A := F32 lm)) d eq_refl Fd) as [_ Ep]; [apply small_127; rewrite O1; apply Rabs_le_inv in Hd; apply Rabs_le; lra|].
    rewrite O1 in Ep. pose proof (rnd_abs (1 + B2R (d : f32)) 5 ltac:(apply Rabs_le_inv in Hd; apply Rabs_le; lra)) as D. rewrite <- Ep in D. apply Rabs_le_inv in D. rewrite U in D.
    set (p := Bplus mode_NE (f1 (A := F32 lm) : f32) d) in *. clearbody p. clear Ep.
    destruct (sqrt_ok0 p Fp ltac:(lra)) as [Fr Er]. change (fsqrt (Arith := F32 lm) p) with (Bsqrt mode_NE p).
    assert (S1 : 69 / 100 <= sqrt (B2R p)). { apply Rsqr_incr_0_var; [|apply sqrt_pos]. unfold Rsqr. rewrite sqrt_sqrt by lra. lra. }
    assert (HP : Rabs (B2R p - 4 * (t * t)) <= 3 * e + 15 / 10000000). { replace (4 * (t * t)) with (1 + (4 * (t * t) - 1)) by ring. lra. }
    assert (S2 : sqrt (4 * (t * t)) = 2 * Rabs t).
    { replace (4 * (t * t)) with (Rsqr (2 * t)) by (unfold Rsqr; ring). rewrite sqrt_Rsqr_abs, Rabs_mult, (Rabs_pos_eq 2) by lra. reflexivity. }
    apply Rabs_le_inv in HP.
    assert (S3 : 66 / 100 <= sqrt (4 * (t * t))). { apply Rsqr_incr_0_var; [|apply sqrt_pos]. unfold Rsqr. rewrite sqrt_sqrt by lra. lra. }
    pose proof (root_lin (B2R p) (4 * (t * t)) (135 / 100) ltac:(lra) ltac:(lra) ltac:(lra) ltac:(lra)) as RL.
    assert (A1 : Rabs (B2R p - 4 * (t * t)) / (135 / 100) <= (3 * e + 15 / 10000000) / (135 / 100)). { apply Rmult_le_compat_r; [lra|]. apply Rabs_le. lra. }
    assert (S4 : sqrt (B2R p) <= 21 / 10). { apply Rsqr_incr_0_var; [|lra]. unfold Rsqr. rewrite sqrt_sqrt by lra. lra. }
    pose proof (rnd_abs (sqrt (B2R p)) (21 / 10) ltac:(rewrite Rabs_pos_eq; lra)) as R1. rewrite <- Er, U in R1. rewrite S2 in RL.
    apply (FIN (Bsqrt mode_NE p)); [exact Fr| |].
    + split; [rewrite Er; apply rnd_nonneg, sqrt_pos|]. apply Rabs_le_inv in R1. lra.
    + apply Rabs_le_inv in R1, RL. apply Rabs_le. lra.
  - (* the quotient *)
    assert (SQ : forall v a, v * v <= 16 * (t * t) * (1 - t * t) -> Rabs (a - v) <= 2 * e + 5 / 10000000 -> Rabs a <= 3).
    { intros v a Hv Ha. assert (V2 : v * v <= 4). { assert (0 <= (1 - 2 * (t * t)) * (1 - 2 * (t * t))) by apply Rle_0_sqr. nra. }
      assert (- 2 <= v <= 2) by (split; nra). apply Rabs_le_inv in Ha. apply Rabs_le. lra. }
    pose proof (Rle_0_sqr v1) as Q1. pose proof (Rle_0_sqr v2) as Q2. pose proof (Rle_0_sqr v3) as Q3. unfold Rsqr in Q1, Q2, Q3.
    destruct (squares_near n1 n2 n3 F1 F2 F3 (SQ v1 _ ltac:(lra) H1) (SQ v2 _ ltac:(lra) H2) (SQ v3 _ ltac:(lra) H3)) as (Fs & Ps & Ds & Ns). clear SQ.
    change (fadd (Arith := F32 lm) (fadd (Arith := F32 lm) (fmul (Arith := F32 lm) n1 n1) (fmul (Arith := F32 lm) n2 n2)) (fmul (Arith := F32 lm) n3 n3))
      with (Bplus mode_NE (Bplus mode_NE (Bmult mode_NE (n1 : f32) n1) (Bmult mode_NE (n2 : f32) n2)) (Bmult mode_NE (n3 : f32) n3)).
    set (s := Bplus mode_NE (Bplus mode_NE (Bmult mode_NE (n1 : f32) n1) (Bmult mode_NE (n2 : f32) n2)) (Bmult mode_NE (n3 : f32) n3)) in *.
    change (fsub (Arith := F32 lm) (f3 (A := F32 lm)) d) with (Bminus mode_NE (f3 (A := F32 lm) : f32) d).
    destruct (minus_near (f3 (A := F32 lm)) d 3 (4 * (t * t) - 1) 0 (3 * e + / 1000000)) as [Fq Hq]; auto; try (rewrite ?O3, ?Rminus_diag_eq, ?Rabs_R0 by reflexivity; lra); try (apply Rabs_le; lra); try lra.
    destruct (minus_ok (f3 (A := F32 lm)) d eq_refl Fd) as [_ Eq]; [apply small_127; rewrite O3; apply Rabs_le_inv in Hd; apply Rabs_le; lra|].
    rewrite O3 in Eq. pose proof (rnd_abs (3 - B2R (d : f32)) 5 ltac:(apply Rabs_le_inv in Hd; apply Rabs_le; lra)) as D. rewrite <- Eq in D. apply Rabs_le_inv in D. rewrite U in D.
    set (q := Bminus mode_NE (f3 (A := F32 lm) : f32) d) in *. clearbody q s. clear Eq.
    set (n := fun i : nat => B2R (triple (n1 : f32) n2 n3 i)). set (v := triple v1 v2 v3).
    set (N := rnorm 3 n). assert (EN : N * N = B2R (n1 : f32) * B2R (n1 : f32) + B2R (n2 : f32) * B2R (n2 : f32) + B2R (n3 : f32) * B2R (n3 : f32)).
    { unfold N. rewrite rnorm_sqr. unfold rdot, n. cbn [Rsum triple]. ring. }
    assert (PN : 0 <= N) by apply rnorm_pos. rewrite <- EN in Ds, Ns.
    assert (DN : Rabs (N - rnorm 3 v) <= 4 * e + / 1000000).
    { eapply Rle_trans; [apply vdist_norm|]. unfold vdist. replace (4 * e + / 1000000) with (2 * (2 * e + 5 / 10000000)) by lra. apply rnorm_cell; [lia|lra|].
      intros i Hi. destruct i as [|[|[|]]]; [exact H1|exact H2|exact H3|lia]. }
    set (s2 := 1 - t * t). assert (P2 : 0 <= s2) by (unfold s2; lra). set (Dd := 4 * s2).
    assert (EV : rnorm 3 v = 2 * Rabs t * sqrt Dd).
    { assert (ER : rdot 3 v v = Rsqr (2 * t) * Dd).
      { transitivity (v1 * v1 + v2 * v2 + v3 * v3); [unfold rdot, v; cbn [Rsum triple]; ring|rewrite Ev; unfold Dd, s2, Rsqr; ring]. }
      unfold rnorm. rewrite ER.
      rewrite sqrt_mult by (try apply Rle_0_sqr; unfold Dd; lra). rewrite sqrt_Rsqr_abs, Rabs_mult, (Rabs_pos_eq 2) by lra. reflexivity. }
    assert (HQ : Rabs (B2R q - Dd) <= 3 * e + 15 / 10000000). { replace Dd with (3 - (4 * (t * t) - 1)) by (unfold Dd, s2; ring). lra. }
    assert (BQ : 249 / 100 <= B2R q <= 5) by (pose proof (Rabs_le_inv _ _ Hd); lra).
    assert (BD : 244 / 100 <= Dd <= 4). { split; [apply Rabs_le_inv in HQ; lra|unfold Dd, s2; lra]. }
    assert (SQ1 : 157 / 100 <= sqrt (B2R q)). { apply Rsqr_incr_0_var; [|apply sqrt_pos]. unfold Rsqr. rewrite sqrt_sqrt by lra. lra. }
    assert (SD1 : 156 / 100 <= sqrt Dd). { apply Rsqr_incr_0_var; [|apply sqrt_pos]. unfold Rsqr. rewrite sqrt_sqrt by lra. lra. }
    pose proof (root_lin (B2R q) Dd (313 / 100) ltac:(lra) ltac:(lra) ltac:(lra) ltac:(lra)) as RL.
    assert (A1 : Rabs (B2R q - Dd) / (313 / 100) <= (3 * e + 15 / 10000000) / (313 / 100)) by (apply Rmult_le_compat_r; lra).
    assert (BT : 2 * Rabs t <= 125 / 100).
    { apply Rsqr_incr_0_var; [|lra]. unfold Rsqr. replace (2 * Rabs t * (2 * Rabs t)) with (4 * (Rabs t * Rabs t)) by ring. rewrite <- Rabs_mult, Rabs_pos_eq by lra.
      unfold Dd, s2 in BD. lra. }
    (* N / sqrt q against 2 |t| *)
    set (V := N / sqrt (B2R q)).
    assert (HV : Rabs (V - 2 * Rabs t) <= 335 / 100 * e + 11 / 10000000).
    { assert (EVV : V - 2 * Rabs t = ((N - rnorm 3 v) + 2 * Rabs t * (sqrt Dd - sqrt (B2R q))) / sqrt (B2R q)).
      { unfold V. rewrite EV. field. lra. }
      rewrite EVV. unfold Rdiv at 1. rewrite Rabs_mult, (Rabs_pos_eq (/ sqrt (B2R q))) by (left; apply Rinv_0_lt_compat; lra).
      apply Rmult_le_reg_r with (sqrt (B2R q)); [lra|]. rewrite Rmult_assoc, Rinv_l, Rmult_1_r by lra.
      eapply Rle_trans; [apply Rabs_triang|]. rewrite Rabs_mult, (Rabs_pos_eq (2 * Rabs t)) by (pose proof (Rabs_pos t); lra). rewrite (Rabs_minus_sym (sqrt Dd)).
      assert (2 * Rabs t * Rabs (sqrt (B2R q) - sqrt Dd) <= 125 / 100 * ((3 * e + 15 / 10000000) / (313 / 100))) by (apply Rmult_le_compat; [pose proof (Rabs_pos t); lra|apply Rabs_pos|exact BT|lra]).
      assert ((335 / 100 * e + 11 / 10000000) * (157 / 100) <= (335 / 100 * e + 11 / 10000000) * sqrt (B2R q)) by (apply Rmult_le_compat_l; lra). lra. }
    assert (PV : 0 <= V) by (unfold V; apply Rmult_le_pos; [exact PN|left; apply Rinv_0_lt_compat; lra]).
    assert (V2 : V * V = N * N / B2R q). { unfold V. rewrite <- (sqrt_sqrt (B2R q)) at 3 by lra. field. lra. }
    assert (BV : V <= 14 / 10) by (apply Rabs_le_inv in HV; lra).
    assert (BS : 0 <= B2R s / B2R q <= 12). { split; [apply Rmult_le_pos; [lra|left; apply Rinv_0_lt_compat; lra]|]. apply Rmult_le_reg_r with (B2R q); [lra|]. unfold Rdiv. rewrite Rmult_assoc, Rinv_l by lra. apply Rabs_le_inv in Ds. lra. }
    destruct (div_ok s q Fs ltac:(lra)) as [Fz Ez]; [apply small_127; rewrite Rabs_pos_eq; lra|].
    change (fdiv (Arith := F32 lm) s q) with (Bdiv mode_NE s q).
    pose proof (rnd_near (B2R s / B2R q) (B2R s / B2R q) ltac:(rewrite Rabs_pos_eq; lra)) as Dz. rewrite <- Ez in Dz. pose proof (rnd_nonneg (B2R s / B2R q) ltac:(lra)) as Pz. rewrite <- Ez in Pz.
    set (z := Bdiv mode_NE s q) in *. clearbody z. clear Ez.
    assert (Dsq : Rabs (B2R s / B2R q - V * V) <= 19 / 100000000 * (V * V) + 10 * eta).
    { assert (Pq : 0 < / B2R q <= 1) by (split; [apply Rinv_0_lt_compat; lra|rewrite <- Rinv_1; apply Rinv_le_contravar; lra]).
      replace (B2R s / B2R q - V * V) with ((B2R s - N * N) * / B2R q) by (rewrite V2; field; lra). rewrite V2.
      rewrite Rabs_mult, (Rabs_pos_eq (/ B2R q)) by lra.
      apply Rle_trans with ((19 / 100000000 * (N * N) + 10 * eta) * / B2R q); [apply Rmult_le_compat_r; [lra|exact Ds]|].
      replace ((19 / 100000000 * (N * N) + 10 * eta) * / B2R q) with (19 / 100000000 * (N * N / B2R q) + 10 * eta * / B2R q) by (field; lra).
      assert (10 * eta * / B2R q <= 10 * eta * 1) by (apply Rmult_le_compat_l; lra). lra. }
    assert (VV : 0 <= V * V <= 2) by (split; [apply Rmult_le_pos; lra|apply Rle_trans with (14 / 10 * (14 / 10)); [apply Rmult_le_compat; lra|lra]]).
    assert (DQ : Rabs (B2R z - V * V) <= 26 / 100000000 * (V * V) + / 1000000000 * / 1000000000).
    { apply Rabs_le_inv in Dz, Dsq. rewrite U in Dz. apply Rabs_le.
      assert (20 * eta <= / 1000000000 * / 1000000000). { assert (/ 10 ^ 40 <= / 1000000000 * / 1000000000 / 20) by lra. lra. }
      lra. }
    destruct (sqrt_ok0 z Fz Pz) as [Fr Er]. change (fsqrt (Arith := F32 lm) z) with (Bsqrt mode_NE z).
    pose proof (root_rel (B2R z) (V * V) (26 / 100000000) (/ 1000000000) Pz ltac:(lra) ltac:(lra) ltac:(lra) DQ) as RR.
    rewrite sqrt_square in RR by exact PV. apply Rabs_le_inv in RR.
    pose proof (sqrt_pos (B2R z)) as P3.
    pose proof (rnd_abs (sqrt (B2R z)) 2 ltac:(rewrite Rabs_pos_eq; lra)) as R1. rewrite <- Er, U in R1. apply Rabs_le_inv in R1, HV.
    apply (FIN (Bsqrt mode_NE z)); [exact Fr| |].
    + split; [rewrite Er; apply rnd_nonneg, sqrt_pos|]. lra.
    + apply Rabs_le. lra.
Qed.

(** ** the whole conversion *)
Lemma dir3 q : unitq q ->
  (rotmat q 0 1 + rotmat q 1 0 = 4 * (Qx q * Qy q) /\ rotmat q 2 0 + rotmat q 0 2 = 4 * (Qx q * Qz q) /\ rotmat q 1 2 + rotmat q 2 1 = 4 * (Qy q * Qz q)).
Proof.
  intros U. pose proof (fun i j Hi Hj => rotmat_list q i j Hi Hj U) as R. destruct q as [w x y z]. unfold unitq, qnorm2 in U. cbn [Qw Qx Qy Qz] in *.
  rewrite !R by lia. cbn. repeat split; lra.
Qed.
Lemma opp_near (x : f32) X e : is_finite x = true -> Rabs (B2R x - X) <= e -> is_finite (Bopp x) = true /\ Rabs (B2R (Bopp x) - - X) <= e.
Proof. intros F H. split; [rewrite is_finite_Bopp; exact F|]. rewrite B2R_Bopp. replace (- B2R x - - X) with (- (B2R x - X)) by ring. rewrite Rabs_Ropp. exact H. Qed.

(*@ C80_sarabandi *)
(** C80 (f32, every libm): for every unit quaternion q, every f32 matrix within e <= 1/100 of its rotation matrix in every
    cell, and no threshold or one of at most 1/2 in size, [sarabandi] succeeds, and the components of its result are
    not negative and within 2 e + 2e-6 of the absolute values of those of q *)
Lemma l_sara32 :
  forall (lm : Libm) (dcm : Mat (T (Arith := F32 lm))) (qv : Vec (T (Arith := F32 lm))) (th : option (T (Arith := F32 lm))) (a : nat -> nat -> R) (s : nat -> R) (q : quat) (e : R),
  mat_f dcm 3 3 a -> vec_f qv 4 s -> unitq q ->
  match th with None => True | Some h => is_finite (h : f32) = true /\ Rabs (B2R (h : f32)) <= / 2 end ->
  (forall i j, (i < 3)%nat -> (j < 3)%nat -> Rabs (a i j - rotmat q i j) <= e) -> e <= / 100 ->
  exists v r, q_sarabandi dcm th qv = (v, Ok tt) /\ quat_f v r /\
    (0 <= Qw r /\ 0 <= Qx r /\ 0 <= Qy r /\ 0 <= Qz r) /\
    Rabs (Qw r - Rabs (Qw q)) <= 2 * e + 2 / 1000000 /\ Rabs (Qx r - Rabs (Qx q)) <= 2 * e + 2 / 1000000 /\
    Rabs (Qy r - Rabs (Qy q)) <= 2 * e + 2 / 1000000 /\ Rabs (Qz r - Rabs (Qz q)) <= 2 * e + 2 / 1000000.
Proof.
  intros lm dcm qv th a s q e (F & Hd & Ea) (fs & Hv & _) U Hth He Be.
  assert (E0 : 0 <= e) by (eapply Rle_trans; [apply Rabs_pos|apply (He 0%nat 0%nat); lia]).
  assert (FF : forall i j, (i < 3)%nat -> (j < 3)%nat -> is_finite (F i j : f32) = true) by (intros i j Hi Hj; apply (valid_finite lm); eapply mat_is_valid; eauto).
  assert (HE : forall i j, (i < 3)%nat -> (j < 3)%nat -> Rabs (B2R (F i j : f32) - rotmat q i j) <= e) by (intros i j Hi Hj; rewrite Ea by auto; auto).
  destruct (rot_cells q U) as ((R0 & R1 & R2) & S0 & S1 & S2). destruct (dir3 q U) as (S3 & S4 & S5). pose proof (fun i j => rot_abs q i j U) as RA.
  assert (U1 : Qw q * Qw q + Qx q * Qx q + Qy q * Qy q + Qz q * Qz q = 1) by exact U.
  assert (SQ : forall x, 0 <= x * x) by (intros; apply Rle_0_sqr). pose proof (SQ (Qw q)) as W2. pose proof (SQ (Qx q)) as X2. pose proof (SQ (Qy q)) as Y2. pose proof (SQ (Qz q)) as Z2. clear SQ.
  set (h := match th with Some e => e | None => f0 (A := F32 lm) end).
  assert (Hh : is_finite (h : f32) = true /\ Rabs (B2R (h : f32)) <= / 2).
  { unfold h. destruct th; [exact Hth|]. split; [reflexivity|]. cbn. rewrite Rabs_R0. lra. }
  destruct Hh as [Fh Bh].
  assert (PL : forall x y X Y, is_finite (x : f32) = true -> is_finite (y : f32) = true -> Rabs (B2R x - X) <= e -> Rabs (B2R y - Y) <= e -> Rabs X <= 1 -> Rabs Y <= 1 ->
     is_finite (Bplus mode_NE x y) = true /\ Rabs (B2R (Bplus mode_NE x y) - (X + Y)) <= 2 * e + 5 / 10000000).
  { intros x y X Y F1 F2 H1 H2 B1 B2. destruct (plus_near x y X Y e e F1 F2 H1 H2) as [G1 G2]; try lra. split; [exact G1|lra]. }
  assert (MI : forall x y X Y, is_finite (x : f32) = true -> is_finite (y : f32) = true -> Rabs (B2R x - X) <= e -> Rabs (B2R y - Y) <= e -> Rabs X <= 1 -> Rabs Y <= 1 ->
     is_finite (Bminus mode_NE x y) = true /\ Rabs (B2R (Bminus mode_NE x y) - (X - Y)) <= 2 * e + 5 / 10000000).
  { intros x y X Y F1 F2 H1 H2 B1 B2. destruct (minus_near x y X Y e e F1 F2 H1 H2) as [G1 G2]; try lra. split; [exact G1|lra]. }
  assert (NG : forall i j, (i < 3)%nat -> (j < 3)%nat -> is_finite (Bopp (F i j : f32)) = true /\ Rabs (B2R (Bopp (F i j : f32)) - - rotmat q i j) <= e).
  { intros i j Hi Hj. apply opp_near; auto. }
  assert (RN : forall i j, (i < 3)%nat -> (j < 3)%nat -> Rabs (- rotmat q i j) <= 1) by (intros; rewrite Rabs_Ropp; auto).
  (* the four traces *)
  assert (TP : forall x y z X Y Z, is_finite (x : f32) = true -> Rabs (B2R x - (X + Y)) <= 2 * e + 5 / 10000000 -> is_finite (z : f32) = true -> Rabs (B2R z - Z) <= e -> Rabs X <= 1 -> Rabs Y <= 1 -> Rabs Z <= 1 -> y = 0 ->
     is_finite (Bplus mode_NE x z) = true /\ Rabs (B2R (Bplus mode_NE x z) - (X + Y + Z)) <= 3 * e + / 1000000 + y).
  { intros x y z X Y Z F1 H1 F2 H2 B1 B2 B3 ->. apply Rabs_le_inv in B1, B2. destruct (plus_near x z (X + Y) Z _ _ F1 F2 H1 H2) as [G1 G2]; try lra; [apply Rabs_le; lra|]. split; [exact G1|lra]. }
  assert (TM : forall x y z X Y Z, is_finite (x : f32) = true -> Rabs (B2R x - (X + Y)) <= 2 * e + 5 / 10000000 -> is_finite (z : f32) = true -> Rabs (B2R z - Z) <= e -> Rabs X <= 1 -> Rabs Y <= 1 -> Rabs Z <= 1 -> y = 0 ->
     is_finite (Bminus mode_NE x z) = true /\ Rabs (B2R (Bminus mode_NE x z) - (X + Y - Z)) <= 3 * e + / 1000000 + y).
  { intros x y z X Y Z F1 H1 F2 H2 B1 B2 B3 ->. apply Rabs_le_inv in B1, B2. destruct (minus_near x z (X + Y) Z _ _ F1 F2 H1 H2) as [G1 G2]; try lra; [apply Rabs_le; lra|]. split; [exact G1|lra]. }
  unfold q_sarabandi.
  rewrite guard_bind by (unfold reads; rewrite (q_guard_ok _ _ Hv); reflexivity). cbv zeta. fold h.
  do 9 (erewrite sbind_ok by (apply lift_ok; apply (mi_get _ _ _ _ Hd); lia)).
  (* pairs *)
  destruct (MI (F 2 1)%nat (F 1 2)%nat _ _ ltac:(apply FF; lia) ltac:(apply FF; lia) ltac:(apply HE; lia) ltac:(apply HE; lia) ltac:(apply RA; lia) ltac:(apply RA; lia)) as [FA HA].
  destruct (MI (F 0 2)%nat (F 2 0)%nat _ _ ltac:(apply FF; lia) ltac:(apply FF; lia) ltac:(apply HE; lia) ltac:(apply HE; lia) ltac:(apply RA; lia) ltac:(apply RA; lia)) as [FB HB].
  destruct (MI (F 1 0)%nat (F 0 1)%nat _ _ ltac:(apply FF; lia) ltac:(apply FF; lia) ltac:(apply HE; lia) ltac:(apply HE; lia) ltac:(apply RA; lia) ltac:(apply RA; lia)) as [FC HC].
  destruct (PL (F 0 1)%nat (F 1 0)%nat _ _ ltac:(apply FF; lia) ltac:(apply FF; lia) ltac:(apply HE; lia) ltac:(apply HE; lia) ltac:(apply RA; lia) ltac:(apply RA; lia)) as [FD HD].
  destruct (PL (F 2 0)%nat (F 0 2)%nat _ _ ltac:(apply FF; lia) ltac:(apply FF; lia) ltac:(apply HE; lia) ltac:(apply HE; lia) ltac:(apply RA; lia) ltac:(apply RA; lia)) as [FE HEE].
  destruct (PL (F 1 2)%nat (F 2 1)%nat _ _ ltac:(apply FF; lia) ltac:(apply FF; lia) ltac:(apply HE; lia) ltac:(apply HE; lia) ltac:(apply RA; lia) ltac:(apply RA; lia)) as [FG HG].
  rewrite S0 in HA. rewrite S1 in HB. rewrite S2 in HC. rewrite S3 in HD. rewrite S4 in HEE. rewrite S5 in HG.
  (* traces *)
  destruct (PL (F 0 0)%nat (F 1 1)%nat _ _ ltac:(apply FF; lia) ltac:(apply FF; lia) ltac:(apply HE; lia) ltac:(apply HE; lia) ltac:(apply RA; lia) ltac:(apply RA; lia)) as [F1 H1].
  destruct (TP _ 0 (F 2 2)%nat _ _ _ F1 H1 ltac:(apply FF; lia) ltac:(apply HE; lia) ltac:(apply RA; lia) ltac:(apply RA; lia) ltac:(apply RA; lia) eq_refl) as [FW HW].
  destruct (MI (F 0 0)%nat (F 1 1)%nat _ _ ltac:(apply FF; lia) ltac:(apply FF; lia) ltac:(apply HE; lia) ltac:(apply HE; lia) ltac:(apply RA; lia) ltac:(apply RA; lia)) as [F2 H2].
  destruct (TM _ 0 (F 2 2)%nat (rotmat q 0 0) (- rotmat q 1 1) _ F2 ltac:(exact H2) ltac:(apply FF; lia) ltac:(apply HE; lia) ltac:(apply RA; lia) ltac:(apply RN; lia) ltac:(apply RA; lia) eq_refl) as [FX HX].
  destruct (PL (Bopp (F 0 0)%nat) (F 1 1)%nat _ _ ltac:(apply NG; lia) ltac:(apply FF; lia) ltac:(apply NG; lia) ltac:(apply HE; lia) ltac:(apply RN; lia) ltac:(apply RA; lia)) as [F3 H3].
  destruct (TM _ 0 (F 2 2)%nat _ _ _ F3 H3 ltac:(apply FF; lia) ltac:(apply HE; lia) ltac:(apply RN; lia) ltac:(apply RA; lia) ltac:(apply RA; lia) eq_refl) as [FY HY].
  destruct (MI (Bopp (F 0 0)%nat) (F 1 1)%nat _ _ ltac:(apply NG; lia) ltac:(apply FF; lia) ltac:(apply NG; lia) ltac:(apply HE; lia) ltac:(apply RN; lia) ltac:(apply RA; lia)) as [F4 H4].
  destruct (TP _ 0 (F 2 2)%nat (- rotmat q 0 0) (- rotmat q 1 1) _ F4 ltac:(exact H4) ltac:(apply FF; lia) ltac:(apply HE; lia) ltac:(apply RN; lia) ltac:(apply RN; lia) ltac:(apply RA; lia) eq_refl) as [FZ HZ].
  rewrite Rplus_0_r in HW, HX, HY, HZ.
  replace (rotmat q 0 0 + rotmat q 1 1 + rotmat q 2 2) with (4 * (Qw q * Qw q) - 1) in HW by lra.
  replace (rotmat q 0 0 + - rotmat q 1 1 - rotmat q 2 2) with (4 * (Qx q * Qx q) - 1) in HX by lra.
  replace (- rotmat q 0 0 + rotmat q 1 1 - rotmat q 2 2) with (4 * (Qy q * Qy q) - 1) in HY by lra.
  replace (- rotmat q 0 0 + - rotmat q 1 1 + rotmat q 2 2) with (4 * (Qz q * Qz q) - 1) in HZ by lra.
  assert (K : forall A B C D, A * A + B * B + C * C + D * D = 1 -> 4 * (A * B) * (4 * (A * B)) + 4 * (A * C) * (4 * (A * C)) + 4 * (A * D) * (4 * (A * D)) = 16 * (A * A) * (1 - A * A)).
  { intros A B C D E. replace (1 - A * A) with (B * B + C * C + D * D) by lra. ring. }
  pose proof (sara_comp lm _ h _ _ _ (Qw q) _ _ _ e FW Fh FA FB FC ltac:(lra) Bh ltac:(lra) HW HA HB HC (K (Qw q) (Qx q) (Qy q) (Qz q) U1)) as KW.
  pose proof (sara_comp lm _ h _ _ _ (Qx q) _ _ _ e FX Fh FA FD FE ltac:(lra) Bh ltac:(lra) HX HA HD HEE ltac:(rewrite <- (K (Qx q) (Qw q) (Qy q) (Qz q)) by lra; ring)) as KX.
  pose proof (sara_comp lm _ h _ _ _ (Qy q) _ _ _ e FY Fh FB FD FG ltac:(lra) Bh ltac:(lra) HY HB HD HG ltac:(rewrite <- (K (Qy q) (Qw q) (Qx q) (Qz q)) by lra; ring)) as KY.
  pose proof (sara_comp lm _ h _ _ _ (Qz q) _ _ _ e FZ Fh FC FE FG ltac:(lra) Bh ltac:(lra) HZ HC HEE HG ltac:(rewrite <- (K (Qz q) (Qw q) (Qx q) (Qy q)) by lra; ring)) as KZ.
  cbv zeta in KW, KX, KY, KZ.
  match type of KW with is_finite ?k = true /\ _ => set (kw := k) in * end.
  match type of KX with is_finite ?k = true /\ _ => set (kx := k) in * end.
  match type of KY with is_finite ?k = true /\ _ => set (ky := k) in * end.
  match type of KZ with is_finite ?k = true /\ _ => set (kz := k) in * end.
  destruct (set4_ok (A := F32 lm) qv _ kw kx ky kz Hv) as (v' & E & H'); try (apply (valid_finite lm); tauto).
  exists v', (Quat (B2R kw) (B2R kx) (B2R ky) (B2R kz)). split; [exact E|]. split.
  { exists (quad kw kx ky kz). split; [exact H'|]. intros i Hi. destruct i as [|[|[|[|i]]]]; [reflexivity|reflexivity|reflexivity|reflexivity|lia]. }
  cbn [Qw Qx Qy Qz]. tauto.
Qed.

Lemma qdist_ge f p q : In f [Qw; Qx; Qy; Qz] -> Rabs (f p - f q) <= qdist p q.
Proof.
  intros H. unfold qdist, qnorm. rewrite <- sqrt_Rsqr_abs. apply sqrt_le_1_alt. unfold Rsqr, qnorm2, qsub.
  pose proof (Rle_0_sqr (Qw p - Qw q)). pose proof (Rle_0_sqr (Qx p - Qx q)). pose proof (Rle_0_sqr (Qy p - Qy q)). pose proof (Rle_0_sqr (Qz p - Qz q)). unfold Rsqr in *.
  destruct H as [<-|[<-|[<-|[<-|[]]]]]; cbn; lra.
Qed.

(*@ C80_first_orthant *)
(** C80: so when no component of q is negative the result is within 4 e + 4e-6 of q, whatever the rotation angle *)
Lemma l_sara32_pos :
  forall (lm : Libm) (dcm : Mat (T (Arith := F32 lm))) (qv : Vec (T (Arith := F32 lm))) (a : nat -> nat -> R) (s : nat -> R) (q : quat) (e : R),
  mat_f dcm 3 3 a -> vec_f qv 4 s -> unitq q -> 0 <= Qw q -> 0 <= Qx q -> 0 <= Qy q -> 0 <= Qz q ->
  (forall i j, (i < 3)%nat -> (j < 3)%nat -> Rabs (a i j - rotmat q i j) <= e) -> e <= / 100 ->
  exists v r, q_sarabandi dcm None qv = (v, Ok tt) /\ quat_f v r /\ qdist r q <= 4 * e + 4 / 1000000.
Proof.
  intros lm dcm qv a s q e Hd Hv U W X Y Z He Be.
  destruct (l_sara32 lm dcm qv None a s q e Hd Hv U I He Be) as (v & r & E & Hr & _ & Dw & Dx & Dy & Dz).
  rewrite (Rabs_pos_eq _ W) in Dw. rewrite (Rabs_pos_eq _ X) in Dx. rewrite (Rabs_pos_eq _ Y) in Dy. rewrite (Rabs_pos_eq _ Z) in Dz.
  exists v, r. split; [exact E|]. split; [exact Hr|]. replace (4 * e + 4 / 1000000) with (2 * (2 * e + 2 / 1000000)) by lra. apply qdist_comp; assumption.
Qed.

(*@ C80_round_trip *)
(** C80: a unit f32 quaternion sent through [convert_to_dcm] and [sarabandi] comes back with the absolute values of
    its components, within 1.4e-5 *)
Lemma l_sara32_trip :
  forall (lm : Libm) (v qv : Vec (T (Arith := F32 lm))) (q : quat) (s : nat -> R),
  quat_f v q -> Rabs (qnorm q - 1) <= / 1000000 -> vec_f qv 4 s ->
  exists dcm v' r, q_convert_to_dcm v = Ok dcm /\ q_sarabandi dcm None qv = (v', Ok tt) /\ quat_f v' r /\
    (forall f, In f [Qw; Qx; Qy; Qz] -> Rabs (f r - Rabs (f (qunit q))) <= 14 / 1000000).
Proof.
  intros lm v qv q s Hv HN Hq. destruct (l_dcm32 lm v q _ Hv HN ltac:(lra)) as (m & a & Em & Hm & _ & B).
  assert (U : unitq (qunit q)) by (apply qunit_unit; apply Rabs_le_inv in HN; lra).
  destruct (l_sara32 lm m qv None a s (qunit q) (6 / 1000000) Hm Hq U I) as (v' & r & E & Hr & _ & Dw & Dx & Dy & Dz); [|lra|].
  { intros i j Hi Hj. eapply Rle_trans; [apply B; auto|lra]. }
  exists m, v', r. split; [exact Em|]. split; [exact E|]. split; [exact Hr|]. intros f Hf.
  destruct Hf as [<-|[<-|[<-|[<-|[]]]]]; (eapply Rle_trans; [eassumption|lra]).
Qed.

(*@ C80_signs *)
(** C80, violation: when one component of q is at least m and another at most - m, the result is neither near q nor near
    - q, so it is another rotation *)
Lemma l_sara32_signs :
  forall (lm : Libm) (dcm : Mat (T (Arith := F32 lm))) (qv : Vec (T (Arith := F32 lm))) (th : option (T (Arith := F32 lm))) (a : nat -> nat -> R) (s : nat -> R) (q : quat) (e m : R)
    (f g : quat -> R),
  mat_f dcm 3 3 a -> vec_f qv 4 s -> unitq q ->
  match th with None => True | Some h => is_finite (h : f32) = true /\ Rabs (B2R (h : f32)) <= / 2 end ->
  (forall i j, (i < 3)%nat -> (j < 3)%nat -> Rabs (a i j - rotmat q i j) <= e) -> e <= / 100 ->
  In f [Qw; Qx; Qy; Qz] -> In g [Qw; Qx; Qy; Qz] -> 0 <= m -> m <= f q -> g q <= - m ->
  exists v r, q_sarabandi dcm th qv = (v, Ok tt) /\ quat_f v r /\
    2 * m - (2 * e + 2 / 1000000) <= qdist r q /\ 2 * m - (2 * e + 2 / 1000000) <= qdist r (qneg q).
Proof.
  intros lm dcm qv th a s q e m f g Hd Hv U Hth He Be Hf Hg Hm Lf Lg.
  destruct (l_sara32 lm dcm qv th a s q e Hd Hv U Hth He Be) as (v & r & E & Hr & _ & Dw & Dx & Dy & Dz).
  exists v, r. split; [exact E|]. split; [exact Hr|].
  assert (D : forall k, In k [Qw; Qx; Qy; Qz] -> Rabs (k r - Rabs (k q)) <= 2 * e + 2 / 1000000) by (intros k [<-|[<-|[<-|[<-|[]]]]]; assumption).
  assert (N : f (qneg q) = - f q) by (destruct Hf as [<-|[<-|[<-|[<-|[]]]]]; cbn; ring).
  pose proof (D f Hf) as Df. pose proof (D g Hg) as Dg. rewrite (Rabs_pos_eq (f q)) in Df by lra. rewrite (Rabs_left1 (g q)) in Dg by lra. apply Rabs_le_inv in Df, Dg.
  split.
  - eapply Rle_trans; [|apply (qdist_ge g r q Hg)]. eapply Rle_trans; [|apply Rle_abs]. lra.
  - eapply Rle_trans; [|apply (qdist_ge f r _ Hf)]. rewrite N. eapply Rle_trans; [|apply Rle_abs]. lra.
Qed.

Definition mixed : list f32 := [lit32 1 2; Bopp (lit32 1 2); lit32 1 2; lit32 1 2].
Lemma mixed_quat lm : quat_f (lm := lm) (mk_vec (A := F32 lm) mixed) (Quat (/ 2) (- / 2) (/ 2) (/ 2)).
Proof.
  destruct half_R as [F E]. exists (fun i => nth i mixed (B754_zero false)). split.
  - apply (fvec_is lm mixed); [cbn; lia|]. assert (FB : is_finite (Bopp (lit32 1 2)) = true) by (rewrite is_finite_Bopp; exact F). repeat constructor; assumption.
  - intros i Hi. destruct i as [|[|[|[|i]]]]; [exact E|change (B2R (Bopp (lit32 1 2)) = - / 2); rewrite B2R_Bopp, E; reflexivity|exact E|exact E|lia].
Qed.
Lemma mixed_unit : unitq (Quat (/ 2) (- / 2) (/ 2) (/ 2)).
Proof. unfold unitq, qnorm2. cbn. lra. Qed.

(*@ C80_negative_refuted *)
(** C80, violation, every libm: the unit quaternion (1/2, -1/2, 1/2, 1/2) comes back from its own matrix as another rotation *)
Lemma l_sara32_w :
  forall (lm : Libm), exists (v v' : Vec (T (Arith := F32 lm))) (dcm : Mat (T (Arith := F32 lm))) (q r : quat),
  quat_f v q /\ unitq q /\ q_convert_to_dcm v = Ok dcm /\ q_sarabandi dcm None v = (v', Ok tt) /\ quat_f v' r /\
  99 / 100 <= qdist r q /\ 99 / 100 <= qdist r (qneg q).
Proof.
  intros lm. pose proof (mixed_quat lm) as Q. pose proof mixed_unit as U. set (q := Quat (/ 2) (- / 2) (/ 2) (/ 2)) in *.
  assert (HN : qnorm q = 1) by (unfold qnorm; rewrite U; apply sqrt_1).
  assert (HU : qunit q = q) by (unfold qunit; rewrite HN, Rinv_1; unfold qscale, q; cbn; f_equal; ring).
  destruct (l_dcm32 lm _ q 0 Q ltac:(rewrite HN, Rminus_diag_eq, Rabs_R0 by reflexivity; lra) ltac:(lra)) as (m & a & Em & Hm & _ & B). rewrite HU in B.
  destruct (l_sara32_signs lm m (mk_vec (A := F32 lm) mixed) None a _ q (/ 1000000) (/ 2) Qw Qx Hm Q U I) as (v' & r & E & Hr & D1 & D2); try (cbn; tauto || lra).
  { intros i j Hi Hj. eapply Rle_trans; [apply B; auto|lra]. }
  exists (mk_vec (A := F32 lm) mixed), v', m, q, r. split; [exact Q|]. split; [exact U|]. split; [exact Em|]. split; [exact E|]. split; [exact Hr|]. lra.
Qed.

Lemma ex_sara :
  unitq (Quat (3 / 5) 0 (4 / 5) 0) /\ unitq (Quat 0 1 0 0) /\ unitq (Quat (/ 2) (- / 2) (/ 2) (/ 2)) /\
  (forall lm, quat_f (lm := lm) (mk_vec (A := F32 lm) mixed) (Quat (/ 2) (- / 2) (/ 2) (/ 2))).
Proof. split; [unfold unitq, qnorm2; cbn; lra|]. split; [unfold unitq, qnorm2; cbn; lra|]. split; [exact mixed_unit|exact mixed_quat]. Qed.
(*@ example *)
Example C80_example :
  unitq (Quat (3 / 5) 0 (4 / 5) 0) /\ unitq (Quat 0 1 0 0) /\ unitq (Quat (/ 2) (- / 2) (/ 2) (/ 2)) /\
  (forall lm, quat_f (lm := lm) (mk_vec (A := F32 lm) mixed) (Quat (/ 2) (- / 2) (/ 2) (/ 2))).
Proof. exact ex_sara. Qed.
