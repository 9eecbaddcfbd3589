(** C72: from an f32 rotation matrix to a quaternion with [chiaverini]. *)
(*@+*)
From Coq Require Import List Arith ZArith Reals Lia Bool Lra SpecFloat.
From Flocq Require Import Core BinarySingleNaN.
From Verif Require Import M_Base M_Arith M_Utils M_Vector M_Matrix M_Quaternion M_F32
  S_Spec S_Linalg S_Norm S_Quat S_F32 P_Inst P_InstF.
Import ListNotations.
Local Open Scope R_scope.
(*@-*)
From Coq Require Import Psatz.
From Verif Require Import P_Hoare P_Cont P_Loops P_Access P_Pointwise P_Trans P_Float P_Product P_Norm P_Diag P_Dot P_FErr P_FAcc P_F32App P_F32Mul P_F32Rot P_Quat P_Rot P_Dcm P_Norm32 P_F32Ar P_ArFirst.

Lemma sqrt_root a b : 0 <= a -> 0 <= b -> Rabs (sqrt a - sqrt b) <= sqrt (Rabs (a - b)).
Proof.
  assert (W : forall a b, 0 <= b -> b <= a -> sqrt a - sqrt b <= sqrt (a - b)).
  { intros x y Hy Hxy. pose proof (sqrt_pos x) as Px. pose proof (sqrt_pos y) as Py. pose proof (sqrt_pos (x - y)) as Pd.
    pose proof (sqrt_sqrt x ltac:(lra)) as Ex. pose proof (sqrt_sqrt y Hy) as Ey. pose proof (sqrt_sqrt (x - y) ltac:(lra)) as Ed.
    assert (L : sqrt y <= sqrt x) by (apply sqrt_le_1; lra). apply Rsqr_incr_0_var; [|exact Pd]. unfold Rsqr. nra. }
  intros Ha Hb. destruct (Rle_dec a b) as [L|L].
  - rewrite (Rabs_minus_sym (sqrt a)), (Rabs_minus_sym a). rewrite (Rabs_pos_eq (b - a)) by lra. rewrite Rabs_pos_eq; [apply W; lra|]. pose proof (sqrt_le_1 a b Ha Hb L). lra.
  - rewrite (Rabs_pos_eq (a - b)) by lra. rewrite Rabs_pos_eq; [apply W; lra|]. pose proof (sqrt_le_1 b a Hb Ha ltac:(lra)). lra.
Qed.
Lemma rnd_abs x M : Rabs x <= M -> Rabs (rnd32 x - x) <= u * M + eta.
Proof.
  intros H. destruct (rnd32_err x) as (e & h & He & Hh & ->). replace (x * (1 + e) + h - x) with (x * e + h) by ring.
  eapply Rle_trans; [apply Rabs_triang|]. rewrite Rabs_mult. apply Rplus_le_compat; [|exact Hh]. rewrite Rmult_comm. apply Rmult_le_compat; auto; apply Rabs_pos.
Qed.
Lemma eta_tiny : eta <= / 1000000000000000000.
Proof. pose proof eta_small. unfold u in *. lra. Qed.
Lemma small_127 x : Rabs x <= 1000 -> Rabs x <= bpow radix2 127.
Proof. intros H. eapply Rle_trans; [exact H|]. apply Rle_trans with (bpow radix2 10); [cbn; lra|apply bpow_le; lia]. Qed.

(** ** the pieces of a component *)
Lemma clip32 lm (x lo hi : f32) : is_finite x = true -> is_finite lo = true -> is_finite hi = true ->
  is_finite (clip (A := F32 lm) x lo hi) = true /\ B2R (clip (A := F32 lm) x lo hi : f32) = rclip (B2R x) (B2R lo) (B2R hi).
Proof.
  intros Fx Fl Fh. unfold clip, rclip. rewrite !gt_b, !Bltb_ok by auto.
  destruct (Rlt_bool (B2R x) (B2R lo)); [auto|]. destruct (Rlt_bool (B2R hi) (B2R x)); auto.
Qed.
Lemma rclip_near x X lo hi : lo <= X <= hi -> Rabs (rclip x lo hi - X) <= Rabs (x - X) /\ lo <= rclip x lo hi <= hi.
Proof.
  intros H. unfold rclip. destruct (Rlt_bool_spec x lo).
  - split; [|lra]. rewrite (Rabs_minus_sym lo), (Rabs_minus_sym x), !Rabs_pos_eq by lra. lra.
  - destruct (Rlt_bool_spec hi x); [|split; lra]. split; [|lra]. rewrite !Rabs_pos_eq by lra. lra.
Qed.
Lemma root_err lm (x lo hi : f32) (X d : R) : is_finite x = true -> is_finite lo = true -> is_finite hi = true -> B2R lo = -1 -> B2R hi <= 3 ->
  -1 <= X <= B2R hi -> Rabs (B2R x - X) <= d ->
  let r := Bsqrt mode_NE (Bplus mode_NE (clip (A := F32 lm) x lo hi) (f1 (A := F32 lm))) in
  is_finite r = true /\ 0 <= B2R r <= 3 /\ Rabs (B2R r - sqrt (X + 1)) <= sqrt (d + 3 / 10000000) + 14 / 100000000.
Proof.
  intros Fx Fl Fh El Eh HX Hd. cbv zeta. destruct (clip32 lm x lo hi Fx Fl Fh) as [Fc Ec].
  destruct (rclip_near (B2R x) X (B2R lo) (B2R hi) ltac:(lra)) as [N1 N2]. rewrite <- Ec in N1, N2.
  set (c := clip (A := F32 lm) x lo hi : f32) in *. clearbody c. clear Ec.
  assert (E1 : B2R (f1 (A := F32 lm) : f32) = 1) by apply B2R_f1.
  destruct (plus_ok c (f1 (A := F32 lm))) as [Ft Et]; [exact Fc|reflexivity|apply small_127; rewrite E1; apply Rabs_le; lra|].
  rewrite E1 in Et. set (t := Bplus mode_NE c (f1 (A := F32 lm))) in *. clearbody t.
  assert (T0 : 0 <= B2R t).
  { rewrite Et. replace 0 with (rnd32 0) by apply round_0, valid_rnd_N. apply round_le; [apply fexp_correct; reflexivity|apply valid_rnd_N|lra]. }
  pose proof (rnd_abs (B2R c + 1) 4 ltac:(apply Rabs_le; lra)) as T1. rewrite <- Et in T1. pose proof eta_tiny as ET.
  assert (T2 : Rabs (B2R t - (X + 1)) <= d + 3 / 10000000).
  { replace (B2R t - (X + 1)) with ((B2R t - (B2R c + 1)) + (B2R c - X)) by ring. eapply Rle_trans; [apply Rabs_triang|]. unfold u in *. lra. }
  assert (T3 : B2R t <= 5) by (apply Rabs_le_inv in T1; unfold u in *; lra).
  assert (S3 : sqrt (B2R t) <= 9 / 4) by (apply Rsqr_incr_0_var; [|lra]; unfold Rsqr; rewrite sqrt_sqrt by lra; lra).
  assert (R : is_finite (Bsqrt mode_NE t) = true /\ B2R (Bsqrt mode_NE t) = rnd32 (sqrt (B2R t))).
  { destruct T0 as [T0|T0]; [apply sqrt_ok; auto|]. destruct t as [st|st| |st mt et Ht]; try discriminate.
    - split; [reflexivity|]. cbn [B2R Bsqrt]. rewrite sqrt_0. symmetry. apply round_0, valid_rnd_N.
    - exfalso. cbn [B2R] in T0. symmetry in T0. apply eq_0_F2R in T0. destruct st; discriminate. }
  destruct R as [Fr Er]. split; [exact Fr|]. rewrite Er. pose proof (sqrt_pos (B2R t)) as SP.
  pose proof (rnd_abs (sqrt (B2R t)) (9 / 4) ltac:(rewrite Rabs_pos_eq; lra)) as R1. split.
  - split; [|apply Rabs_le_inv in R1; unfold u in *; lra]. replace 0 with (rnd32 0) by apply round_0, valid_rnd_N. apply round_le; [apply fexp_correct; reflexivity|apply valid_rnd_N|lra].
  - replace (rnd32 (sqrt (B2R t)) - sqrt (X + 1)) with ((sqrt (B2R t) - sqrt (X + 1)) + (rnd32 (sqrt (B2R t)) - sqrt (B2R t))) by ring.
    eapply Rle_trans; [apply Rabs_triang|]. apply Rplus_le_compat.
    + eapply Rle_trans; [apply sqrt_root; lra|]. apply sqrt_le_1; [apply Rabs_pos| |exact T2]. pose proof (Rabs_pos (B2R t - (X + 1))). lra.
    + unfold u in *. lra.
Qed.
Lemma half_err (h r : f32) (D : R) (X : R) : is_finite h = true -> is_finite r = true -> Rabs (B2R h) <= / 2 -> 0 <= B2R r <= 3 ->
  Rabs (B2R r - X) <= D ->
  is_finite (Bmult mode_NE h r) = true /\ Rabs (B2R (Bmult mode_NE h r) - B2R h * X) <= / 2 * D + 9 / 100000000.
Proof.
  intros Fh Fr Hh Hr HX. assert (B : Rabs (B2R h * B2R r) <= 3 / 2).
  { rewrite Rabs_mult, (Rabs_pos_eq (B2R r)) by lra. pose proof (Rabs_pos (B2R h)). nra. }
  destruct (mult_ok h r Fh Fr) as [F E]; [apply small_127; lra|]. split; [exact F|]. rewrite E.
  pose proof (rnd_abs _ _ B) as R1. pose proof eta_tiny.
  replace (rnd32 (B2R h * B2R r) - B2R h * X) with ((rnd32 (B2R h * B2R r) - B2R h * B2R r) + B2R h * (B2R r - X)) by ring.
  eapply Rle_trans; [apply Rabs_triang|]. rewrite Rabs_mult.
  assert (Rabs (B2R h) * Rabs (B2R r - X) <= / 2 * D) by (apply Rmult_le_compat; auto; apply Rabs_pos). unfold u in *. lra.
Qed.
Lemma sign32 lm (x : f32) : is_finite x = true ->
  let s := Bmult mode_NE (fhalf (A := F32 lm)) (sign (A := F32 lm) x) in
  is_finite s = true /\ Rabs (B2R s) <= / 2 /\ (0 < B2R x -> B2R s = / 2) /\ (B2R x < 0 -> B2R s = - / 2).
Proof.
  intros Fx. cbv zeta. unfold sign. rewrite !gt_b. rewrite !Bltb_ok by (auto; reflexivity).
  assert (E0 : B2R (f0 (A := F32 lm) : f32) = 0) by reflexivity. rewrite !E0.
  assert (H1 : is_finite (Bmult mode_NE (fhalf (A := F32 lm) : f32) (f1 (A := F32 lm))) = true /\ B2R (Bmult mode_NE (fhalf (A := F32 lm) : f32) (f1 (A := F32 lm))) = / 2).
  { split; [reflexivity|]. cbn. unfold F2R. cbn. lra. }
  assert (H2 : is_finite (Bmult mode_NE (fhalf (A := F32 lm) : f32) (fm1 (A := F32 lm))) = true /\ B2R (Bmult mode_NE (fhalf (A := F32 lm) : f32) (fm1 (A := F32 lm))) = - / 2).
  { split; [reflexivity|]. cbn. unfold F2R. cbn. lra. }
  assert (H3 : is_finite (Bmult mode_NE (fhalf (A := F32 lm) : f32) (f0 (A := F32 lm))) = true /\ B2R (Bmult mode_NE (fhalf (A := F32 lm) : f32) (f0 (A := F32 lm))) = 0).
  { split; reflexivity. }
  destruct (Rlt_bool_spec 0 (B2R x)) as [P|P].
  - destruct H1 as [F E]. split; [exact F|]. split; [rewrite E; rewrite Rabs_pos_eq; lra|]. split; [intros _; exact E|lra].
  - destruct (Rlt_bool_spec (B2R x) 0) as [N|N].
    + destruct H2 as [F E]. split; [exact F|]. split; [rewrite E, Rabs_Ropp, Rabs_pos_eq; lra|]. split; [lra|intros _; exact E].
    + destruct H3 as [F E]. split; [exact F|]. split; [rewrite E, Rabs_R0; lra|]. split; lra.
Qed.

(** ** the cells of a rotation matrix *)
Lemma rot_cells q : unitq q ->
  (rotmat q 0 0 = 2 * (Qw q * Qw q + Qx q * Qx q) - 1 /\ rotmat q 1 1 = 2 * (Qw q * Qw q + Qy q * Qy q) - 1 /\ rotmat q 2 2 = 2 * (Qw q * Qw q + Qz q * Qz q) - 1) /\
  (rotmat q 2 1 - rotmat q 1 2 = 4 * (Qw q * Qx q) /\ rotmat q 0 2 - rotmat q 2 0 = 4 * (Qw q * Qy q) /\ rotmat q 1 0 - rotmat q 0 1 = 4 * (Qw q * Qz q)).
Proof.
  intros U. pose proof (fun i j Hi Hj => rotmat_list q i j Hi Hj U) as R. destruct q as [w x y z]. unfold unitq, qnorm2 in U. cbn [Qw Qx Qy Qz] in *.
  rewrite !R by lia. cbn. repeat split; lra.
Qed.

Lemma keep_pos v e h : / 1000000000 < v -> - u <= e <= u -> - eta <= h <= eta -> 0 < v * (1 + e) + h.
Proof.
  intros Hv He Hh. pose proof eta_tiny. assert (v * (1 / 2) <= v * (1 + e)) by (apply Rmult_le_compat_l; unfold u in *; lra). lra.
Qed.

(** ** one component of the vector part *)
Lemma comp_err lm (a b c p m : f32) (A B C P M w x e : R) :
  is_finite a = true -> is_finite b = true -> is_finite c = true -> is_finite p = true -> is_finite m = true ->
  Rabs (B2R a - A) <= e -> Rabs (B2R b - B) <= e -> Rabs (B2R c - C) <= e -> Rabs (B2R p - P) <= e -> Rabs (B2R m - M) <= e ->
  Rabs A <= 1 -> Rabs B <= 1 -> Rabs C <= 1 -> Rabs P <= 1 -> Rabs M <= 1 -> 0 <= e <= / 1000 ->
  A - B - C = 4 * (x * x) - 1 -> P - M = 4 * (w * x) -> 2 * (x * x) <= 1 -> / 10 <= w ->
  let k := fmul (Arith := F32 lm) (fmul (Arith := F32 lm) (fhalf (A := F32 lm)) (sign (A := F32 lm) (fsub (Arith := F32 lm) p m)))
    (fsqrt (Arith := F32 lm) (fadd (Arith := F32 lm) (clip (A := F32 lm) (fsub (Arith := F32 lm) (fsub (Arith := F32 lm) a b) c) (fm1 (A := F32 lm)) (f1 (A := F32 lm))) (f1 (A := F32 lm)))) in
  is_finite k = true /\ Rabs (B2R (k : f32) - x) <= / 2 * sqrt (3 * e + 7 / 10000000) + 10 * e + 2 / 10000000.
Proof.
  intros Fa Fb Fc Fp Fm Ha Hb Hc Hp Hm BA BB BC BP BM He EX EP HX Hw. cbv zeta.
  apply Rabs_le_inv in Ha, Hb, Hc, Hp, Hm, BA, BB, BC, BP, BM. pose proof eta_tiny as ET. pose proof eta_pos as EP0.
  (* the sign *)
  destruct (minus_ok p m Fp Fm) as [Fs Es]; [apply small_127, Rabs_le; lra|].
  pose proof (rnd32_err (B2R p - B2R m)) as (e1 & h1 & He1 & Hh1 & E1). rewrite E1 in Es. clear E1.
  set (sg := Bminus mode_NE p m) in *. change (fsub (Arith := F32 lm) p m) with sg. clearbody sg.
  destruct (sign32 lm sg Fs) as (Fh & Bh & Ph & Nh). set (h := Bmult mode_NE (fhalf (A := F32 lm)) (sign (A := F32 lm) sg)) in *.
  change (fmul (Arith := F32 lm) (fhalf (A := F32 lm)) (sign (A := F32 lm) sg)) with h. clearbody h.
  (* the root *)
  assert (XX : 0 <= x * x) by apply Rle_0_sqr.
  destruct (minus_ok a b Fa Fb) as [F1 G1]; [apply small_127, Rabs_le; lra|].
  pose proof (rnd_abs (B2R a - B2R b) (21 / 10) ltac:(apply Rabs_le; lra)) as R1. rewrite <- G1 in R1. clear G1.
  change (fsub (Arith := F32 lm) a b) with (Bminus mode_NE a b). set (ab := Bminus mode_NE a b) in *. clearbody ab. apply Rabs_le_inv in R1.
  destruct (minus_ok ab c F1 Fc) as [F2 G2]; [apply small_127, Rabs_le; unfold u in *; lra|].
  pose proof (rnd_abs (B2R ab - B2R c) 2 ltac:(apply Rabs_le; unfold u in *; lra)) as R2. rewrite <- G2 in R2. clear G2.
  change (fsub (Arith := F32 lm) ab c) with (Bminus mode_NE ab c). set (abc := Bminus mode_NE ab c) in *. clearbody abc. apply Rabs_le_inv in R2.
  assert (Fm1 : B2R (fm1 (A := F32 lm) : f32) = -1) by (cbn; unfold F2R; cbn; lra).
  assert (F11 : B2R (f1 (A := F32 lm) : f32) = 1) by apply B2R_f1.
  destruct (root_err lm abc (fm1 (A := F32 lm)) (f1 (A := F32 lm)) (4 * (x * x) - 1) (3 * e + 4 / 10000000)) as (Fr & Br & Rr);
    [exact F2|reflexivity|reflexivity|exact Fm1|lra|lra|apply Rabs_le; unfold u in *; lra|].
  set (r := Bsqrt mode_NE (Bplus mode_NE (clip (A := F32 lm) abc (fm1 (A := F32 lm)) (f1 (A := F32 lm))) (f1 (A := F32 lm)))) in *.
  change (fsqrt (Arith := F32 lm) (fadd (Arith := F32 lm) (clip (A := F32 lm) abc (fm1 (A := F32 lm)) (f1 (A := F32 lm))) (f1 (A := F32 lm)))) with r. clearbody r.
  replace (4 * (x * x) - 1 + 1) with ((2 * x) * (2 * x)) in Rr by ring. rewrite (sqrt_abs _ _ eq_refl), Rabs_mult, (Rabs_pos_eq 2) in Rr by lra.
  replace (3 * e + 4 / 10000000 + 3 / 10000000) with (3 * e + 7 / 10000000) in Rr by lra.
  destruct (half_err h r _ _ Fh Fr Bh Br Rr) as [Fk Hk]. change (fmul (Arith := F32 lm) h r) with (Bmult mode_NE h r). split; [exact Fk|].
  set (k := B2R (Bmult mode_NE h r)) in *. set (S := sqrt (3 * e + 7 / 10000000)) in *. clearbody k S.
  apply Rabs_le_inv in He1, Hh1.
  destruct (Rle_dec (4 * (w * Rabs x)) (2 * e + / 1000000000)) as [L|L].
  - assert (SX : Rabs x <= 5 * e + 3 / 1000000000).
    { assert (/ 10 * Rabs x <= w * Rabs x) by (apply Rmult_le_compat_r; [apply Rabs_pos|exact Hw]). lra. }
    pose proof (Rabs_pos x) as X0.
    assert (T : Rabs (B2R h * (2 * Rabs x)) <= Rabs x).
    { rewrite Rabs_mult, (Rabs_pos_eq (2 * Rabs x)) by lra. assert (Rabs (B2R h) * (2 * Rabs x) <= / 2 * (2 * Rabs x)) by (apply Rmult_le_compat_r; lra). lra. }
    replace (k - x) with ((k - B2R h * (2 * Rabs x)) + (B2R h * (2 * Rabs x) - x)) by ring. eapply Rle_trans; [apply Rabs_triang|].
    assert (Rabs (B2R h * (2 * Rabs x) - x) <= 2 * Rabs x) by (unfold Rminus; eapply Rle_trans; [apply Rabs_triang|]; rewrite Rabs_Ropp; lra). lra.
  - apply Rnot_le_lt in L. assert (V : B2R h * (2 * Rabs x) = x).
    { destruct (Rle_dec 0 x) as [Px|Nx].
      - rewrite (Rabs_pos_eq x) in * by lra. rewrite Ph; [field|]. rewrite Es. apply keep_pos; lra.
      - rewrite (Rabs_left x) in * by lra. rewrite Nh; [field|]. rewrite Es. pose proof (keep_pos (- (B2R p - B2R m)) e1 (- h1) ltac:(lra) He1 ltac:(lra)). lra. }
    rewrite V in Hk. lra.
Qed.

(** the real part *)
Lemma real_err lm (a b c : f32) (A B C w e : R) :
  is_finite a = true -> is_finite b = true -> is_finite c = true ->
  Rabs (B2R a - A) <= e -> Rabs (B2R b - B) <= e -> Rabs (B2R c - C) <= e ->
  Rabs A <= 1 -> Rabs B <= 1 -> Rabs C <= 1 -> 0 <= e <= / 1000 ->
  A + B + C = 4 * (w * w) - 1 -> 0 <= w <= 1 ->
  let k := fmul (Arith := F32 lm) (fhalf (A := F32 lm))
    (fsqrt (Arith := F32 lm) (fadd (Arith := F32 lm) (clip (A := F32 lm) (fsum (A := F32 lm) 3 (fun i => nth i [a; b; c] (f0 (A := F32 lm)))) (fm1 (A := F32 lm)) (f3 (A := F32 lm))) (f1 (A := F32 lm)))) in
  is_finite k = true /\ Rabs (B2R (k : f32) - w) <= / 2 * sqrt (3 * e + 7 / 10000000) + 10 * e + 2 / 10000000.
Proof.
  intros Fa Fb Fc Ha Hb Hc BA BB BC He EX Hw. cbv zeta. cbn [fsum nth].
  apply Rabs_le_inv in Ha, Hb, Hc, BA, BB, BC. pose proof eta_tiny as ET. pose proof eta_pos as EP0.
  change (fadd (Arith := F32 lm)) with (Bplus mode_NE : f32 -> f32 -> f32).
  assert (E0 : B2R (f0 (A := F32 lm) : f32) = 0) by reflexivity.
  destruct (plus_ok (f0 (A := F32 lm)) a) as [F0 G0]; [reflexivity|exact Fa|apply small_127, Rabs_le; rewrite E0; lra|]. rewrite E0, Rplus_0_l in G0.
  rewrite round_generic in G0; [|apply valid_rnd_N|apply generic_format_B2R].
  set (t0 := Bplus mode_NE (f0 (A := F32 lm)) a) in *. clearbody t0.
  destruct (plus_ok t0 b F0 Fb) as [F1 G1]; [apply small_127, Rabs_le; lra|].
  pose proof (rnd_abs (B2R t0 + B2R b) (21 / 10) ltac:(apply Rabs_le; lra)) as R1. rewrite <- G1 in R1. clear G1. apply Rabs_le_inv in R1.
  set (t1 := Bplus mode_NE t0 b) in *. clearbody t1.
  destruct (plus_ok t1 c F1 Fc) as [F2 G2]; [apply small_127, Rabs_le; unfold u in *; lra|].
  pose proof (rnd_abs (B2R t1 + B2R c) (31 / 10) ltac:(apply Rabs_le; unfold u in *; lra)) as R2. rewrite <- G2 in R2. clear G2. apply Rabs_le_inv in R2.
  set (t2 := Bplus mode_NE t1 c) in *. clearbody t2.
  assert (Fm1 : B2R (fm1 (A := F32 lm) : f32) = -1) by (cbn; unfold F2R; cbn; lra).
  assert (F3 : B2R (f3 (A := F32 lm) : f32) = 3) by (cbn; unfold F2R; cbn; lra).
  assert (WW : 0 <= w * w <= 1) by nra.
  destruct (root_err lm t2 (fm1 (A := F32 lm)) (f3 (A := F32 lm)) (4 * (w * w) - 1) (3 * e + 4 / 10000000)) as (Fr & Br & Rr);
    [exact F2|reflexivity|reflexivity|exact Fm1|lra|lra|apply Rabs_le; unfold u in *; lra|].
  set (r := Bsqrt mode_NE (Bplus mode_NE (clip (A := F32 lm) t2 (fm1 (A := F32 lm)) (f3 (A := F32 lm))) (f1 (A := F32 lm)))) in *.
  change (fsqrt (Arith := F32 lm) (Bplus mode_NE (clip (A := F32 lm) t2 (fm1 (A := F32 lm)) (f3 (A := F32 lm))) (f1 (A := F32 lm)))) with r. clearbody r.
  replace (4 * (w * w) - 1 + 1) with ((2 * w) * (2 * w)) in Rr by ring. rewrite (sqrt_abs _ _ eq_refl), (Rabs_pos_eq (2 * w)) in Rr by lra.
  replace (3 * e + 4 / 10000000 + 3 / 10000000) with (3 * e + 7 / 10000000) in Rr by lra.
  assert (Hh : B2R (fhalf (A := F32 lm) : f32) = / 2) by (cbn; unfold F2R; cbn; lra).
  destruct (half_err (fhalf (A := F32 lm)) r _ _ eq_refl Fr ltac:(rewrite Hh, Rabs_pos_eq; lra) Br Rr) as [Fk Hk]. change (fmul (Arith := F32 lm) (fhalf (A := F32 lm)) r) with (Bmult mode_NE (fhalf (A := F32 lm)) r). split; [exact Fk|].
  rewrite Hh in Hk. replace (/ 2 * (2 * w)) with w in Hk by field. lra.
Qed.
Lemma rot_abs q i j : unitq q -> (i < 3)%nat -> (j < 3)%nat -> Rabs (rotmat q i j) <= 1.
Proof.
  intros U Hi Hj. pose proof (rotmat_list q i j Hi Hj U) as R. destruct q as [w x y z]. unfold unitq, qnorm2 in U. cbn [Qw Qx Qy Qz] in *. rewrite R. clear R.
  assert (SQ : forall a b, 0 <= (a - b) * (a - b) /\ 0 <= (a + b) * (a + b)) by (intros; split; apply Rle_0_sqr).
  pose proof (SQ w x). pose proof (SQ w y). pose proof (SQ w z). pose proof (SQ x y). pose proof (SQ x z). pose proof (SQ y z). clear SQ.
  assert (P : forall a, 0 <= a * a) by (intros; apply Rle_0_sqr). pose proof (P w). pose proof (P x). pose proof (P y). pose proof (P z). clear P.
  apply Rabs_le. destruct i as [|[|[|i]]]; [| | |lia]; (destruct j as [|[|[|j]]]; [| | |lia]); cbn; lra.
Qed.

(*@ C72_chiaverini *)
(** C72: q is a unit quaternion with w >= 1/10 and no vector component beyond sqrt(1/2), and an f32 matrix is within e of
    its rotation matrix in every cell (e up to 5e-5): [chiaverini] succeeds, the result has norm 1 within 1e-6 and its
    distance from q is at most 2 sqrt(3 e + 7e-7) + 40 e + 3e-6 *)
Lemma l_chia32 :
  forall (lm : Libm) (dcm : Mat (T (Arith := F32 lm))) (qv : Vec (T (Arith := F32 lm))) (a : nat -> nat -> R) (s : nat -> R) (q : quat) (e : R),
  mat_f dcm 3 3 a -> vec_f qv 4 s -> unitq q -> / 10 <= Qw q ->
  2 * (Qx q * Qx q) <= 1 -> 2 * (Qy q * Qy q) <= 1 -> 2 * (Qz q * Qz q) <= 1 ->
  (forall i j, (i < 3)%nat -> (j < 3)%nat -> Rabs (a i j - rotmat q i j) <= e) -> e <= 5 / 100000 ->
  exists v r, q_chiaverini dcm qv = (v, Ok tt) /\ quat_f v r /\ Rabs (qnorm r - 1) < / 1000000 /\
    qdist r q <= 2 * sqrt (3 * e + 7 / 10000000) + 40 * e + 3 / 1000000.
Proof.
  intros lm dcm qv a s q e (F & Hd & Ea) (fs & Hv & _) U Hw Hx Hy Hz He Be.
  assert (E0 : 0 <= e) by (eapply Rle_trans; [apply Rabs_pos|apply (He 0%nat 0%nat); lia]).
  assert (FF : forall i j, (i < 3)%nat -> (j < 3)%nat -> is_finite (F i j : f32) = true) by (intros i j Hi Hj; apply (valid_finite lm); eapply mat_is_valid; eauto).
  assert (HE : forall i j, (i < 3)%nat -> (j < 3)%nat -> Rabs (B2R (F i j : f32) - rotmat q i j) <= e) by (intros i j Hi Hj; rewrite Ea by auto; auto).
  destruct (rot_cells q U) as ((R0 & R1 & R2) & S0 & S1 & S2). pose proof (fun i j => rot_abs q i j U) as RA.
  assert (U1 : Qw q * Qw q + Qx q * Qx q + Qy q * Qy q + Qz q * Qz q = 1) by exact U.
  assert (W1 : Qw q <= 1).
  { pose proof (Rle_0_sqr (Qx q)). pose proof (Rle_0_sqr (Qy q)). pose proof (Rle_0_sqr (Qz q)). unfold Rsqr in *. nra. }
  destruct (real_err lm (F 0 0)%nat (F 1 1)%nat (F 2 2)%nat (rotmat q 0 0) (rotmat q 1 1) (rotmat q 2 2) (Qw q) e) as [Fw Bw];
    try (apply FF; lia); try (apply HE; lia); try (apply RA; lia); try lra.
  destruct (comp_err lm (F 0 0)%nat (F 1 1)%nat (F 2 2)%nat (F 2 1)%nat (F 1 2)%nat (rotmat q 0 0) (rotmat q 1 1) (rotmat q 2 2) (rotmat q 2 1) (rotmat q 1 2) (Qw q) (Qx q) e) as [Fx Bx];
    try (apply FF; lia); try (apply HE; lia); try (apply RA; lia); try lra.
  destruct (comp_err lm (F 1 1)%nat (F 2 2)%nat (F 0 0)%nat (F 0 2)%nat (F 2 0)%nat (rotmat q 1 1) (rotmat q 2 2) (rotmat q 0 0) (rotmat q 0 2) (rotmat q 2 0) (Qw q) (Qy q) e) as [Fy By];
    try (apply FF; lia); try (apply HE; lia); try (apply RA; lia); try lra.
  destruct (comp_err lm (F 2 2)%nat (F 0 0)%nat (F 1 1)%nat (F 1 0)%nat (F 0 1)%nat (rotmat q 2 2) (rotmat q 0 0) (rotmat q 1 1) (rotmat q 1 0) (rotmat q 0 1) (Qw q) (Qz q) e) as [Fz Bz];
    try (apply FF; lia); try (apply HE; lia); try (apply RA; lia); try lra.
  unfold q_chiaverini.
  rewrite guard_bind by (unfold reads; rewrite (q_guard_ok _ _ Hv); reflexivity).
  erewrite sbind_ok by (apply lift_ok; apply (l_trace _ _ _ _ _ Hd)).
  do 9 (erewrite sbind_ok by (apply lift_ok; apply (mi_get _ _ _ _ Hd); lia)).
  cbv zeta. cbv zeta in Fw, Bw, Fx, Bx, Fy, By, Fz, Bz. cbn [fsum nth] in Fw, Bw |- *.
  match type of Fw with is_finite ?k = true => set (kw := k) in * end.
  match type of Fx with is_finite ?k = true => set (kx := k) in * end.
  match type of Fy with is_finite ?k = true => set (ky := k) in * end.
  match type of Fz with is_finite ?k = true => set (kz := k) in * end.
  destruct (set4_ok qv _ kw kx ky kz Hv) as (v' & E & H'); try (apply (valid_finite lm); assumption).
  erewrite sbind_ok by exact E. clearbody kw kx ky kz. clear E.
  set (S := sqrt (3 * e + 7 / 10000000)) in *.
  assert (HS : 0 <= S <= 13 / 1000).
  { split; [apply sqrt_pos|]. apply Rsqr_incr_0_var; [|lra]. unfold Rsqr, S. rewrite sqrt_sqrt by lra. lra. }
  assert (N1 : qnorm q = 1) by (unfold qnorm; rewrite U; apply sqrt_1).
  destruct (norm_near lm v' (quad kw kx ky kz) q (/ 2 * S + 10 * e + 2 / 10000000)) as (v2 & r & En & Hr & Nr & Dr); [exact H'|rewrite N1; lra|lra| |].
  { rewrite N1, Rmult_1_r. intros i Hi. destruct i as [|[|[|[|i]]]]; [exact Bw|exact Bx|exact By|exact Bz|lia]. }
  exists v2, r. split; [exact En|]. split; [exact Hr|]. split; [exact Nr|].
  replace (qunit q) with q in Dr by (unfold qunit; rewrite N1, Rinv_1; apply quat_eta; cbn; ring). lra.
Qed.

(*@ C72_round_trip *)
(** C72: so, for an f32 quaternion of norm 1 within 1e-6 whose direction satisfies the same conditions, the way to the
    rotation matrix and back ends within 0.01 of the direction *)
Lemma l_chia32_trip :
  forall (lm : Libm) (v qv : Vec (T (Arith := F32 lm))) (q : quat) (s : nat -> R),
  quat_f v q -> Rabs (qnorm q - 1) <= / 1000000 -> vec_f qv 4 s ->
  / 10 <= Qw (qunit q) -> 2 * (Qx (qunit q) * Qx (qunit q)) <= 1 -> 2 * (Qy (qunit q) * Qy (qunit q)) <= 1 -> 2 * (Qz (qunit q) * Qz (qunit q)) <= 1 ->
  exists dcm v' r, q_convert_to_dcm v = Ok dcm /\ q_chiaverini dcm qv = (v', Ok tt) /\ quat_f v' r /\ qdist r (qunit q) <= / 100.
Proof.
  intros lm v qv q s Hv HN Hs Hw Hx Hy Hz.
  destruct (l_dcm32 lm v q (/ 1000000) Hv HN ltac:(lra)) as (m & a & Em & Ha & _ & Da).
  assert (U : unitq (qunit q)) by (apply qunit_unit; apply Rabs_le_inv in HN; lra).
  destruct (l_chia32 lm m qv a s (qunit q) (6 / 1000000)) as (v' & r & E & Hr & _ & D); auto; [|lra|].
  { intros i j Hi Hj. eapply Rle_trans; [apply Da; auto|]. lra. }
  exists m, v', r. split; [exact Em|]. split; [exact E|]. split; [exact Hr|]. eapply Rle_trans; [exact D|].
  assert (sqrt (3 * (6 / 1000000) + 7 / 10000000) <= 45 / 10000).
  { apply Rsqr_incr_0_var; [|lra]. unfold Rsqr. rewrite sqrt_sqrt by lra. lra. }
  lra.
Qed.
From Verif Require Import P_Lup32.
Lemma lost_v lm : quat_f (lm := lm) (mk_vec (A := F32 lm) [z32 1; lit32 1 8192; z32 0; z32 0]) (Quat 1 (/ 8192) 0 0).
Proof.
  eexists. split; [apply (fvec_is lm); [cbn; lia|repeat constructor; reflexivity]|].
  cbn [length]. intros i Hi. destruct i as [|[|[|[|i]]]]; cbn [nth qf quad Qw Qx Qy Qz]; [apply (z32_R 1); lia| |reflexivity|reflexivity|lia].
  cbn. unfold F2R. cbn. lra.
Qed.
Lemma lost_unit : let q := Quat 1 (/ 8192) 0 0 in Rabs (qnorm q - 1) <= / 1000000 /\ / 10 <= Qw (qunit q) /\
  2 * (Qx (qunit q) * Qx (qunit q)) <= 1 /\ 2 * (Qy (qunit q) * Qy (qunit q)) <= 1 /\ 2 * (Qz (qunit q) * Qz (qunit q)) <= 1.
Proof.
  cbv zeta. unfold qunit, qscale. cbn [Qw Qx Qy Qz].
  assert (N : 1 <= qnorm (Quat 1 (/ 8192) 0 0) <= 1 + / 10000000).
  { unfold qnorm, qnorm2. cbn [Qw Qx Qy Qz]. split; (apply Rsqr_incr_0_var; [unfold Rsqr; rewrite sqrt_sqrt by lra; lra|try apply sqrt_pos; lra]). }
  set (n := qnorm _) in *. clearbody n. pose proof (Rinv_r n ltac:(lra)) as I. assert (0 < / n) by (apply Rinv_0_lt_compat; lra). set (k := / n) in *. clearbody k.
  assert (9 / 10 <= k <= 1) by nra. split; [apply Rabs_le; lra|]. split; [lra|]. repeat split; nra.
Qed.

(*@ C72_lost_refuted *)
(** C72, violation for every libm: the f32 attitude (1, 2^-13, 0, 0), a rotation by 2^-12 rad, comes back as the identity:
    the error of the round trip is of the order of the square root of the rounding error *)
Lemma l_chia32_lost :
  exists v : Vec f32, forall lm : Libm, quat_f (lm := lm) v (Quat 1 (/ 8192) 0 0) /\
  exists dcm v', q_convert_to_dcm (A := F32 lm) v = Ok dcm /\ q_chiaverini (A := F32 lm) dcm v = (v', Ok tt) /\ quat_f (lm := lm) v' (Quat 1 0 0 0).
Proof.
  exists (mk_vec (A := F32 lm_id) [z32 1; lit32 1 8192; z32 0; z32 0]). intros lm. split; [exact (lost_v lm)|].
  set (v := mk_vec (A := F32 lm) [z32 1; lit32 1 8192; z32 0; z32 0]).
  destruct lost_unit as (N & U1 & U2 & U3 & U4).
  destruct (l_chia32_trip lm v v _ _ (lost_v lm) N (lost_v lm) U1 U2 U3 U4) as (dcm & v' & r & E1 & E2 & Hr & _).
  exists dcm, v'. split; [exact E1|]. split; [exact E2|].
  assert (C : rmap (fun d => shown show_v (q_chiaverini (A := F32 lm) d v)) (q_convert_to_dcm (A := F32 lm) v) = Ok (4%nat, true, map sf [1; 0; 0; 0]%Z, Ok tt)) by (vm_compute; reflexivity).
  rewrite E1 in C. unfold rmap, shown in C. cbn [rbind] in C. rewrite E2 in C. cbn [fst snd] in C.
  apply (f_equal (fun r => match r with Ok (x, _) => x | _ => (O, false, []) end)) in C. cbv beta iota in C.
  destruct Hr as (f & Hf & _). exists f. split; [exact Hf|].
  intros i Hi. rewrite (show_nth lm v' 4 f _ Hf C) by exact Hi.
  destruct i as [|[|[|[|i]]]]; cbn [nth map qf quad Qw Qx Qy Qz]; [|reflexivity|reflexivity|reflexivity|lia].
  cbn. unfold F2R. cbn. lra.
Qed.

Lemma ex_chia :
  let A := F32 lm_id in let v := mk_vec (A := A) (map z32 [1; 0; 0; 0]%Z) in
  quat_f (lm := lm_id) v (Quat 1 0 0 0) /\ Rabs (qnorm (Quat 1 0 0 0) - 1) <= / 1000000 /\ / 10 <= Qw (qunit (Quat 1 0 0 0)) /\
  rmap (fun d => shown show_v (q_chiaverini d v)) (q_convert_to_dcm (mk_vec (A := A) [lit32 4 5; lit32 3 5; z32 0; z32 0])) = Ok (4%nat, true, [S754_finite false 13421773 (-24); S754_finite false 10066330 (-24); sf 0; sf 0], Ok tt).
Proof.
  cbv zeta. assert (N : qnorm (Quat 1 0 0 0) = 1) by (unfold qnorm, qnorm2; cbn [Qw Qx Qy Qz]; replace (_ + _) with 1 by ring; apply sqrt_1).
  split; [apply (fquat_z lm_id 1 0 0 0); lia|]. split; [rewrite N, Rminus_diag_eq, Rabs_R0 by reflexivity; lra|].
  split; [unfold qunit; rewrite N; cbn; lra|]. vm_compute. reflexivity.
Qed.

(*@ example *)
(** test: the hypotheses hold for the identity, and (4/5, 3/5, 0, 0) comes back within one unit in the last place *)
Example C72_example :
  let A := F32 lm_id in let v := mk_vec (A := A) (map z32 [1; 0; 0; 0]%Z) in
  quat_f (lm := lm_id) v (Quat 1 0 0 0) /\ Rabs (qnorm (Quat 1 0 0 0) - 1) <= / 1000000 /\ / 10 <= Qw (qunit (Quat 1 0 0 0)) /\
  rmap (fun d => shown show_v (q_chiaverini d v)) (q_convert_to_dcm (mk_vec (A := A) [lit32 4 5; lit32 3 5; z32 0; z32 0])) = Ok (4%nat, true, [S754_finite false 13421773 (-24); S754_finite false 10066330 (-24); sf 0; sf 0], Ok tt).
Proof. exact ex_chia. Qed.
