(** C74: f32 rotations that are certainly recognised. *)
(*@+*)
From Coq Require Import List Arith ZArith Reals Lia Bool Lra SpecFloat.
From Flocq Require Import Core BinarySingleNaN.
From Verif Require Import M_Base M_Arith M_Utils M_Vector M_Matrix M_F32 M_RX
  S_Spec S_Linalg S_Norm S_Quat S_Lu S_F32 S_Track S_Interp32 S_Decomp S_Pivot P_Inst P_InstF.
Import ListNotations.
Local Open Scope R_scope.
(*@-*)
From Coq Require Import Psatz.
From Verif Require Import S_Compare P_Compare P_Hoare P_Cont P_Loops P_Access P_Float P_FErr P_FAcc P_Inv32 P_Lup P_Product P_Lup32 P_Recog P_Log32 P_Pivot.

Section Gen.
  Context {A : Arith} {OK : ArithOk A}.
  Local Open Scope nat_scope.
  Implicit Types (f F : nat -> nat -> T) (pi : nat -> nat).
  Definition pick {X} (b : bool) (q r : X) : X * X := if b then (r, q) else (q, r).
  Lemma three_total m f p q r q' r' : mat_is m 3 3 f -> order3 f = (p, q, r) -> pick (cleared f p r 1 >? f q 0 / f p 0)%F q r = (q', r') ->
    (fabs (f p 0) <? EPSILON)%F = false -> (fabs (cleared f p q' 1) <? EPSILON)%F = false ->
    (forall i, i = q \/ i = r -> valid (f i 0 / f p 0)%F /\ forall j, j = 1 \/ j = 2 -> valid (cleared f p i j)) ->
    valid (cleared f p r' 1 / cleared f p q' 1)%F -> valid (cleared f p r' 2 - cleared f p q' 2 * (cleared f p r' 1 / cleared f p q' 1))%F ->
    exists lu pv F pi, lup m = Ok (lu, pv) /\ mat_is lu 3 3 F /\ idx_is pv 3 pi /\ F (pi 0) 0 = f p 0 /\ F (pi 1) 1 = cleared f p q' 1.
  Proof.
    intros Hm O EQ P0 P1 V V1 V2. pose proof (first3 f) as FO. rewrite O in FO. destruct FO as (Op & Oq & Or).
    assert (S0 : sw p 0 = p) by reflexivity.
    assert (G : forall F pi, runs 3 1 f F pi -> F (pi 0) 0 = f p 0 /\ F (pi 1) 0 = (f q 0 / f p 0)%F /\ F (pi 1) 1 = cleared f p q 1 /\ F (pi 1) 2 = cleared f p q 2 /\
       F (pi 2) 0 = (f r 0 / f p 0)%F /\ F (pi 2) 1 = cleared f p r 1 /\ F (pi 2) 2 = cleared f p r 2 /\ forall j, j < 3 -> F (pi 0) j = f p j).
    { intros F pi R. destruct (run1 3 f F pi R ltac:(lia)) as (Ei & K & EF). rewrite Op in *.
      conjs; try (intros j Hj); rewrite Ei, EF by lia; unfold elim; cbn [Nat.ltb Nat.leb Nat.eqb]; rewrite ?S0, ?Oq, ?Or; reflexivity. }
    assert (X : forall F pi, runs 3 1 f F pi -> let pi' := exch pi 1 (piv 3 F pi 1) in
       pi' 0 = pi 0 /\ F (pi' 1) 1 = cleared f p q' 1 /\ F (pi' 1) 2 = cleared f p q' 2 /\ F (pi' 2) 0 = (f r' 0 / f p 0)%F /\ F (pi' 1) 0 = (f q' 0 / f p 0)%F /\ F (pi' 2) 1 = cleared f p r' 1 /\ F (pi' 2) 2 = cleared f p r' 2).
    { intros F pi R. destruct (G F pi R) as (G00 & G10 & G11 & G12 & G20 & G21 & G22 & G0). unfold piv. cbn [Nat.sub Nat.add srch]. rewrite G21, G10.
      unfold pick in EQ. destruct (cleared f p r 1 >? f q 0 / f p 0)%F; injection EQ as <- <-; unfold exch; cbn [Nat.eqb]; conjs; auto. }
    pose proof (lup_run m 3 f Hm) as W. destruct (lup m) as [s|e|] eqn:EL; cbn [rwp] in W; [| |tauto].
    - destruct W as (F & pi & (Hs1 & Hs2 & _) & R). change (3 - 1) with 2 in R. destruct R as (F1 & pi1 & Pp & R & S1 & S2 & S3).
      destruct (X F1 pi1 R) as (X0 & X1 & _). destruct (G F1 pi1 R) as (G0 & _). exists (fst s), (snd s), F, pi. split; [destruct s; reflexivity|]. split; [exact Hs1|]. split; [exact Hs2|].
      split; rewrite S3 by lia; unfold elim; cbn [Nat.ltb Nat.leb Nat.eqb]; rewrite S1 by lia; [rewrite X0; exact G0|exact X1].
    - exfalso. destruct W as (k & F & pi & Hk & Pp & R & W). assert (k = 0 \/ k = 1) as [-> | ->] by lia.
      + destruct (step0 3 f F pi e R ltac:(lia) W) as [(-> & K)|(u & i & j & -> & Hi & Hj & K & B)]; rewrite Op in *; [congruence|].
        apply bad_Some_not in B. apply B. unfold elim. rewrite S0.
        destruct i as [|[|[|i]]]; try lia; cbn [Nat.ltb Nat.leb].
        * assert (Lp : p < 3) by (rewrite <- Op; pose proof (srch_range f (fun i => i) 0 2); unfold piv; cbn [Nat.sub Nat.add]; lia). eapply mat_is_valid; eauto.
        * rewrite Oq. destruct (V q (or_introl eq_refl)) as [Va Vb]. destruct j as [|[|[|j]]]; try lia; cbn [Nat.eqb]; [exact Va|apply (Vb 1); auto|apply (Vb 2); auto].
        * rewrite Or. destruct (V r (or_intror eq_refl)) as [Va Vb]. destruct j as [|[|[|j]]]; try lia; cbn [Nat.eqb]; [exact Va|apply (Vb 1); auto|apply (Vb 2); auto].
      + cbv zeta in W. destruct (X F pi R) as (X0 & X1 & X12 & X20 & X10 & X21 & X22). rewrite X1 in W. destruct W as [(_ & W)|(u & i & j & _ & Hi & Hj & _ & W)]; [congruence|].
        destruct (G F pi R) as (_ & _ & _ & _ & _ & _ & _ & G0).
        assert (Lp : p < 3) by (rewrite <- Op; pose proof (srch_range f (fun i => i) 0 2); unfold piv; cbn [Nat.sub Nat.add]; lia).
        assert (Q' : q' = q \/ q' = r) by (unfold pick in EQ; destruct (cleared f p r 1 >? f q 0 / f p 0)%F; injection EQ as <- <-; auto).
        assert (R' : r' = q \/ r' = r) by (unfold pick in EQ; destruct (cleared f p r 1 >? f q 0 / f p 0)%F; injection EQ as <- <-; auto).
        apply bad_Some_not in W. apply W. unfold elim. destruct i as [|[|[|i]]]; try lia; cbn [Nat.ltb Nat.leb].
        * change (valid (F (exch pi 1 (piv 3 F pi 1) 0) j)). rewrite X0, (G0 j Hj). eapply mat_is_valid; eauto.
        * destruct (V q' Q') as [Va Vb]. destruct j as [|[|[|j]]]; try lia; [rewrite X10; exact Va|rewrite X1; apply (Vb 1); auto|rewrite X12; apply (Vb 2); auto].
        * destruct (V r' R') as [Va Vb]. destruct j as [|[|[|j]]]; try lia; cbn [Nat.eqb]; [rewrite X20; exact Va|rewrite X21, X1; exact V1|rewrite X22, X12, X21, X1; exact V2].
  Qed.
End Gen.

Lemma clear32 (P X Y Z : f32) : is_finite P = true -> is_finite X = true -> is_finite Y = true -> is_finite Z = true ->
  / 2 <= Rabs (B2R P) -> Rabs (B2R X) <= 101 / 100 -> Rabs (B2R Y) <= 101 / 100 -> Rabs (B2R Z) <= 101 / 100 ->
  let M := Bdiv mode_NE X P in let C := Bminus mode_NE Z (Bmult mode_NE Y M) in
  is_finite M = true /\ Rabs (B2R M - B2R X / B2R P) <= 2 / 10000000 /\
  is_finite C = true /\ Rabs (B2R C - (B2R Z - B2R Y * (B2R X / B2R P))) <= 5 / 10000000 /\ Rabs (B2R C) <= 307 / 100.
Proof.
  intros FP FX FY FZ HP HX HY HZ M C. pose proof b127 as B7. pose proof eta_40 as E4. assert (U : u = 1 / 16777216) by (unfold u; lra).
  assert (Nz : B2R P <> 0) by (intros E; rewrite E, Rabs_R0 in HP; lra).
  assert (Q : Rabs (B2R X / B2R P) <= 202 / 100).
  { unfold Rdiv. rewrite Rabs_mult, Rabs_inv. assert (/ Rabs (B2R P) <= 2) by (replace 2 with (/ / 2) by lra; apply Rinv_le; [lra|exact HP]).
    pose proof (Rabs_pos (B2R X)). assert (0 <= / Rabs (B2R P)) by (left; apply Rinv_0_lt_compat; lra). nra. }
  destruct (div_ok X P FX Nz ltac:(lra)) as [F1 E1]. fold M in F1, E1. pose proof (rr _ _ Q) as R1. rewrite <- E1 in R1.
  set (x := B2R X / B2R P) in *. assert (R1' : Rabs (B2R M - x) <= 121 / 1000000000) by (rewrite U in R1; lra).
  assert (QM : Rabs (B2R M) <= 2021 / 1000) by (apply Rabs_le_inv in R1', Q; apply Rabs_le; split; lra).
  assert (QP : Rabs (B2R Y * B2R M) <= 2042 / 1000) by (rewrite Rabs_mult; pose proof (Rabs_pos (B2R Y)); pose proof (Rabs_pos (B2R M)); nra).
  destruct (mult_ok Y M FY F1 ltac:(lra)) as [F2 E2]. pose proof (rr _ _ QP) as R2. rewrite <- E2 in R2. set (W := Bmult mode_NE Y M) in *.
  assert (R2' : Rabs (B2R W - B2R Y * x) <= 245 / 1000000000).
  { replace (B2R W - B2R Y * x) with ((B2R W - B2R Y * B2R M) + B2R Y * (B2R M - x)) by ring. eapply Rle_trans; [apply Rabs_triang|]. rewrite (Rabs_mult (B2R Y)).
    pose proof (Rabs_pos (B2R Y)). pose proof (Rabs_pos (B2R M - x)). rewrite U in R2. assert (Rabs (B2R Y) * Rabs (B2R M - x) <= 101 / 100 * (121 / 1000000000)) by (apply Rmult_le_compat; lra). lra. }
  assert (QY : Rabs (B2R Y * x) <= 2041 / 1000) by (rewrite Rabs_mult; pose proof (Rabs_pos (B2R Y)); pose proof (Rabs_pos x); nra).
  assert (QD : Rabs (B2R Z - B2R W) <= 306 / 100) by (apply Rabs_le_inv in R2', QY, HZ; apply Rabs_le; split; lra).
  destruct (minus_ok Z W FZ F2 ltac:(lra)) as [F3 E3]. fold C in F3, E3. pose proof (rr _ _ QD) as R3. rewrite <- E3 in R3. rewrite U in R3.
  split; [exact F1|]. split; [lra|]. split; [exact F3|]. apply Rabs_le_inv in R3, R2', QD. split; apply Rabs_le; split; lra.
Qed.

Lemma leads_order lm (f : nat -> nat -> f32) (a : nat -> nat -> R) p q r : (forall i j, (i < 3)%nat -> (j < 3)%nat -> is_finite (f i j) = true) ->
  (forall i j, (i < 3)%nat -> (j < 3)%nat -> B2R (f i j) = a i j) -> leads3 a p q r -> order3 (A := F32 lm) f = (p, q, r).
Proof.
  intros FF Ea HL. assert (GT : forall i j, (i < 3)%nat -> (j < 3)%nat -> fltb (Arith := F32 lm) (f i 0%nat) (f j 0%nat) = Rlt_bool (a i 0%nat) (a j 0%nat)).
  { intros i j Hi Hj. change (Bltb (f i 0%nat) (f j 0%nat) = Rlt_bool (a i 0%nat) (a j 0%nat)). rewrite Bltb_ok by (apply FF; lia). rewrite !Ea by lia. reflexivity. }
  unfold order3, order2. rewrite (GT 0 1)%nat by lia. destruct HL as [((-> & -> & ->) & H1 & H2)|[((-> & -> & ->) & H1 & H2)|((-> & -> & ->) & H1 & H2)]].
  - rewrite (Rlt_bool_false _ _ H1). rewrite (GT 0 2)%nat, (Rlt_bool_false _ _ H2) by lia. reflexivity.
  - rewrite (Rlt_bool_true _ _ H1). rewrite (GT 1 2)%nat, (Rlt_bool_false _ _ H2) by lia. reflexivity.
  - destruct (Rlt_bool (a 0%nat 0%nat) (a 1%nat 0%nat)); [rewrite (GT 1 2)%nat by lia|rewrite (GT 0 2)%nat by lia]; rewrite Rlt_bool_true by assumption; reflexivity.
Qed.

(*@ C74_accepted *)
(** C74: whether the pivot search accepts an f32 rotation can be read off its elements: if the largest element of the first
    column is at least 1/2 in magnitude, the comparison that selects the second pivot is decided by 1e-6, and that pivot is at
    least 0.501 in magnitude, then a matrix whose rows are orthonormal up to 9e-5 and whose determinant is 1 up to 3e-5 is
    recognised as a rotation and as orthogonal *)
Lemma l_accepted :
  forall (lm : Libm) (m : Mat (T (Arith := F32 lm))) (a : nat -> nat -> R) (p q r : nat) (x : R), mat_f m 3 3 a ->
  (forall i j, (i < 3)%nat -> (j < 3)%nat -> Rabs (rmul 3 a (rtr a) i j - rid i j) <= 9 / 100000) -> Rabs (rdet 3 a - 1) <= 3 / 100000 ->
  leads3 a p q r -> / 2 <= Rabs (a p 0%nat) -> second3_clear a p q r x -> 501 / 1000 <= Rabs x ->
  m_is_so_n m = Ok true /\ m_is_orthogonal m = Ok true.
Proof.
  intros lm m a p q r x Hm HO HD HL HP HS HX. pose proof Hm as (f & Hf & Ea).
  assert (FF : forall i j, (i < 3)%nat -> (j < 3)%nat -> is_finite (f i j : f32) = true) by (intros i j Hi Hj; apply (valid_finite lm); eapply mat_is_valid; eauto).
  assert (HB : forall i j, (i < 3)%nat -> (j < 3)%nat -> Rabs (a i j) <= 101 / 100).
  { intros i j Hi Hj. pose proof (HO i i Hi Hi) as K. unfold rid in K. rewrite Nat.eqb_refl in K. unfold rmul, rtr in K. cbn [Rsum] in K. apply Rabs_le_inv in K.
    assert (K2 : a i j * a i j <= 10001 / 10000) by (destruct j as [|[|[|j]]]; [nra|nra|nra|lia]). apply Rabs_le. split; nra. }
  pose proof (leads_order lm f a p q r FF Ea HL) as O.
  assert (L3 : (p < 3 /\ q < 3 /\ r < 3)%nat) by (destruct HL as [((-> & -> & ->) & _)|[((-> & -> & ->) & _)|((-> & -> & ->) & _)]]; lia). destruct L3 as (Lp & Lq & Lr).
  set (M := fun i => Bdiv mode_NE (f i 0%nat : f32) (f p 0%nat)). set (C := fun i j => Bminus mode_NE (f i j : f32) (Bmult mode_NE (f p j : f32) (M i))).
  assert (K : forall i j, (i < 3)%nat -> (j < 3)%nat -> is_finite (M i) = true /\ Rabs (B2R (M i) - a i 0%nat / a p 0%nat) <= 2 / 10000000 /\ is_finite (C i j) = true /\ Rabs (B2R (C i j) - rcleared a p i j) <= 5 / 10000000 /\ Rabs (B2R (C i j)) <= 307 / 100).
  { intros i j Hi Hj. pose proof (clear32 (f p 0%nat) (f i 0%nat) (f p j) (f i j)) as K. cbv zeta in K. rewrite !Ea in K by lia. apply K; auto; try (apply FF; lia); apply HB; lia. }
  assert (EC : forall i j, cleared (A := F32 lm) f p i j = C i j) by reflexivity.
  destruct (eps32 lm) as [FE [EL EU]].
  assert (PT : forall y : f32, is_finite y = true -> / 2 <= Rabs (B2R y) -> (fabs (Arith := F32 lm) (y : T (Arith := F32 lm)) <? EPSILON)%F = false).
  { intros y Fy Hy. change (Bltb (Babs y) (EPSILON (A := F32 lm) : f32) = false). rewrite Bltb_ok by (try exact FE; rewrite is_finite_Babs; exact Fy). rewrite B2R_Babs. apply Rlt_bool_false. lra. }
  assert (CMP : exists q' r', pick (fltb (Arith := F32 lm) (fdiv (Arith := F32 lm) (f q 0%nat) (f p 0%nat)) (cleared (A := F32 lm) f p r 1)) q r = (q', r') /\ (q' < 3)%nat /\ (r' < 3)%nat /\ x = rcleared a p q' 1).
  { destruct (K q 1%nat Lq ltac:(lia)) as (F1 & E1 & _). destruct (K r 1%nat Lr ltac:(lia)) as (_ & _ & F2 & E2 & _). apply Rabs_le_inv in E1, E2.
    change (fltb (Arith := F32 lm) (fdiv (Arith := F32 lm) (f q 0%nat) (f p 0%nat)) (cleared (A := F32 lm) f p r 1)) with (Bltb (M q) (C r 1%nat)). rewrite Bltb_ok by assumption.
    destruct HS as [[H1 H2]|[H1 H2]]; [rewrite Rlt_bool_true by lra|rewrite Rlt_bool_false by lra]; [exists r, q|exists q, r]; auto. }
  destruct CMP as (q' & r' & EQ & Lq' & Lr' & Ex). rewrite Ex in HX.
  destruct (K q' 1%nat Lq' ltac:(lia)) as (_ & _ & Fq & Eq & Bq).
  assert (Pq : / 2 <= Rabs (B2R (C q' 1%nat))).
  { assert (Rabs (rcleared a p q' 1) <= Rabs (B2R (C q' 1%nat)) + Rabs (B2R (C q' 1%nat) - rcleared a p q' 1)).
    { replace (rcleared a p q' 1) with (B2R (C q' 1%nat) - (B2R (C q' 1%nat) - rcleared a p q' 1)) at 1 by ring. eapply Rle_trans; [apply Rabs_triang|]. rewrite Rabs_Ropp. lra. } lra. }
  destruct (K r' 1%nat Lr' ltac:(lia)) as (_ & _ & Fr & _ & Br). destruct (K q' 2%nat Lq' ltac:(lia)) as (_ & _ & Fq2 & _ & Bq2). destruct (K r' 2%nat Lr' ltac:(lia)) as (_ & _ & Fr2 & _ & Br2).
  pose proof b127 as B7. assert (U : u = 1 / 16777216) by (unfold u; lra).
  assert (Nz : B2R (C q' 1%nat) <> 0) by (intros E; rewrite E, Rabs_R0 in Pq; lra).
  assert (QQ : Rabs (B2R (C r' 1%nat) / B2R (C q' 1%nat)) <= 614 / 100).
  { unfold Rdiv. rewrite Rabs_mult, Rabs_inv. assert (/ Rabs (B2R (C q' 1%nat)) <= 2) by (replace 2 with (/ / 2) by lra; apply Rinv_le; [lra|exact Pq]).
    pose proof (Rabs_pos (B2R (C r' 1%nat))). assert (0 <= / Rabs (B2R (C q' 1%nat))) by (left; apply Rinv_0_lt_compat; lra). nra. }
  destruct (div_ok _ _ Fr Nz ltac:(lra)) as [F1 E1]. pose proof (rr _ _ QQ) as R1. rewrite <- E1, U in R1. set (N := Bdiv mode_NE (C r' 1%nat) (C q' 1%nat)) in *.
  assert (QN : Rabs (B2R N) <= 615 / 100) by (apply Rabs_le_inv in R1, QQ; apply Rabs_le; split; lra).
  assert (QP : Rabs (B2R (C q' 2%nat) * B2R N) <= 19) by (rewrite Rabs_mult; pose proof (Rabs_pos (B2R (C q' 2%nat))); pose proof (Rabs_pos (B2R N)); nra).
  destruct (mult_ok _ _ Fq2 F1 ltac:(lra)) as [F2 E2]. pose proof (rr _ _ QP) as R2. rewrite <- E2, U in R2. set (W := Bmult mode_NE (C q' 2%nat) N) in *.
  assert (QD : Rabs (B2R (C r' 2%nat) - B2R W) <= 23) by (apply Rabs_le_inv in R2, QP, Br2; apply Rabs_le; split; lra).
  destruct (minus_ok _ _ Fr2 F2 ltac:(lra)) as [F3 E3].
  destruct (three_total (A := F32 lm) m f p q r q' r' Hf O EQ) as (lu & pv & F & pi & EL3 & HF & HI & P0 & P1).
  - apply PT; [apply FF; lia|]. rewrite Ea by lia. exact HP.
  - apply (PT (C q' 1%nat)); assumption.
  - intros i Hi. assert (Li : (i < 3)%nat) by (destruct Hi; subst; assumption). split; [|intros j Hj]; apply (valid_finite lm); [apply (K i 0%nat Li); lia|]. apply (K i j Li). lia.
  - apply (valid_finite lm). exact F1.
  - apply (valid_finite lm). exact F3.
  - destruct (l_recognised32 lm m lu pv a Hm HO HD EL3) as (g & pi' & (G & HG & Eg) & HI' & Pp & R).
    assert (Epi : forall i, (i < 3)%nat -> pi' i = pi i) by (intros i Hi; pose proof (ix_get _ _ _ HI i Hi) as Z1; pose proof (ix_get _ _ _ HI' i Hi) as Z2; congruence).
    assert (EG : forall i j, (i < 3)%nat -> (j < 3)%nat -> G (pi' i) j = F (pi i) j).
    { intros i j Hi Hj. rewrite Epi by exact Hi. assert (Lpi : (pi i < 3)%nat) by (rewrite <- Epi by exact Hi; apply Pp, Hi). pose proof (mi_get _ _ _ _ HF _ _ Lpi Hj) as Z1. pose proof (mi_get _ _ _ _ HG _ _ Lpi Hj) as Z2. congruence. }
    apply R; rewrite <- Eg by (try apply Pp; lia); rewrite EG by lia; [rewrite P0, Ea by lia; exact HP|rewrite P1; exact Pq].
Qed.

Lemma prod_close x y X Y : Rabs (x - X) <= / 1000000 -> Rabs (y - Y) <= / 1000000 -> Rabs X <= 1 -> Rabs Y <= 1 -> Rabs (x * y - X * Y) <= 21 / 10000000 /\ Rabs x <= 1000001 / 1000000.
Proof.
  intros H1 H2 H3 H4. assert (Bx : Rabs x <= 1000001 / 1000000) by (replace x with ((x - X) + X) by ring; eapply Rle_trans; [apply Rabs_triang|]; lra). split; [|exact Bx].
  replace (x * y - X * Y) with (x * (y - Y) + (x - X) * Y) by ring. eapply Rle_trans; [apply Rabs_triang|]. rewrite !Rabs_mult.
  assert (Rabs x * Rabs (y - Y) <= 1000001 / 1000000 * / 1000000) by (apply Rmult_le_compat; auto using Rabs_pos).
  assert (Rabs (x - X) * Rabs Y <= / 1000000 * 1) by (apply Rmult_le_compat; auto using Rabs_pos). lra.
Qed.
Lemma prod3_close x y z X Y Z : Rabs (x - X) <= / 1000000 -> Rabs (y - Y) <= / 1000000 -> Rabs (z - Z) <= / 1000000 -> Rabs X <= 1 -> Rabs Y <= 1 -> Rabs Z <= 1 ->
  Rabs (x * (y * z) - X * (Y * Z)) <= 32 / 10000000.
Proof.
  intros H1 H2 H3 H4 H5 H6. destruct (prod_close y z Y Z H2 H3 H5 H6) as [P _]. destruct (prod_close x y X Y H1 H2 H4 H5) as [_ Bx].
  replace (x * (y * z) - X * (Y * Z)) with (x * (y * z - Y * Z) + (x - X) * (Y * Z)) by ring. eapply Rle_trans; [apply Rabs_triang|]. rewrite !(Rabs_mult x), (Rabs_mult (x - X)).
  assert (Rabs (Y * Z) <= 1) by (rewrite Rabs_mult; pose proof (Rabs_pos Y); pose proof (Rabs_pos Z); nra).
  assert (Rabs x * Rabs (y * z - Y * Z) <= 1000001 / 1000000 * (21 / 10000000)) by (apply Rmult_le_compat; auto using Rabs_pos).
  assert (Rabs (x - X) * Rabs (Y * Z) <= / 1000000 * 1) by (apply Rmult_le_compat; auto using Rabs_pos). lra.
Qed.
Lemma near_rotation a b : (forall i j, (i < 3)%nat -> (j < 3)%nat -> Rabs (a i j - b i j) <= / 1000000) -> (forall i j, (i < 3)%nat -> (j < 3)%nat -> Rabs (b i j) <= 1) ->
  req 3 3 (rmul 3 b (rtr b)) rid -> rdet 3 b = 1 ->
  (forall i j, (i < 3)%nat -> (j < 3)%nat -> Rabs (rmul 3 a (rtr a) i j - rid i j) <= 9 / 100000) /\ Rabs (rdet 3 a - 1) <= 3 / 100000.
Proof.
  intros HC HB HO HD. split.
  - intros i j Hi Hj. rewrite <- (HO i j Hi Hj). unfold rmul, rtr. cbn [Rsum].
    destruct (prod_close (a i 0%nat) (a j 0%nat) (b i 0%nat) (b j 0%nat)) as [K0 _]; [apply HC; lia|apply HC; lia|apply HB; lia|apply HB; lia|].
    destruct (prod_close (a i 1%nat) (a j 1%nat) (b i 1%nat) (b j 1%nat)) as [K1 _]; [apply HC; lia|apply HC; lia|apply HB; lia|apply HB; lia|].
    destruct (prod_close (a i 2%nat) (a j 2%nat) (b i 2%nat) (b j 2%nat)) as [K2 _]; [apply HC; lia|apply HC; lia|apply HB; lia|apply HB; lia|].
    apply Rabs_le_inv in K0, K1, K2. apply Rabs_le. split; lra.
  - rewrite <- HD, !det3.
    assert (P : forall i j k, (i < 3)%nat -> (j < 3)%nat -> (k < 3)%nat -> Rabs (a 0%nat i * (a 1%nat j * a 2%nat k) - b 0%nat i * (b 1%nat j * b 2%nat k)) <= 32 / 10000000) by (intros i j k Hi Hj Hk; apply prod3_close; try (apply HC; lia); apply HB; lia).
    pose proof (P 0 1 2 ltac:(lia) ltac:(lia) ltac:(lia))%nat as K1. pose proof (P 0 2 1 ltac:(lia) ltac:(lia) ltac:(lia))%nat as K2. pose proof (P 1 0 2 ltac:(lia) ltac:(lia) ltac:(lia))%nat as K3.
    pose proof (P 1 2 0 ltac:(lia) ltac:(lia) ltac:(lia))%nat as K4. pose proof (P 2 0 1 ltac:(lia) ltac:(lia) ltac:(lia))%nat as K5. pose proof (P 2 1 0 ltac:(lia) ltac:(lia) ltac:(lia))%nat as K6.
    apply Rabs_le_inv in K1, K2, K3, K4, K5, K6. apply Rabs_le. split; lra.
Qed.
Lemma rot_z t : let b := rodrigues t 0 0 1 in
  (b 0%nat 0%nat = cos t /\ b 0%nat 1%nat = - sin t /\ b 0%nat 2%nat = 0 /\ b 1%nat 0%nat = sin t /\ b 1%nat 1%nat = cos t /\ b 1%nat 2%nat = 0 /\ b 2%nat 0%nat = 0 /\ b 2%nat 1%nat = 0 /\ b 2%nat 2%nat = 1) /\
  (forall i j, (i < 3)%nat -> (j < 3)%nat -> Rabs (b i j) <= 1) /\ req 3 3 (rmul 3 b (rtr b)) rid /\ rdet 3 b = 1.
Proof.
  intros b. pose proof (sin2_cos2 t) as SC. unfold Rsqr in SC.
  assert (V : b 0%nat 0%nat = cos t /\ b 0%nat 1%nat = - sin t /\ b 0%nat 2%nat = 0 /\ b 1%nat 0%nat = sin t /\ b 1%nat 1%nat = cos t /\ b 1%nat 2%nat = 0 /\ b 2%nat 0%nat = 0 /\ b 2%nat 1%nat = 0 /\ b 2%nat 2%nat = 1)
    by (conjs; unfold b, rodrigues; cbn [nth Nat.add Nat.mul]; lra).
  split; [exact V|]. destruct V as (V00 & V01 & V02 & V10 & V11 & V12 & V20 & V21 & V22). split; [|split].
  - pose proof (COS_bound t). pose proof (SIN_bound t). intros i j Hi Hj. apply Rabs_le. destruct i as [|[|[|i]]], j as [|[|[|j]]]; try lia; rewrite ?V00, ?V01, ?V02, ?V10, ?V11, ?V12, ?V20, ?V21, ?V22; lra.
  - intros i j Hi Hj. unfold rmul, rtr, rid. cbn [Rsum]. destruct i as [|[|[|i]]], j as [|[|[|j]]]; try lia; cbn [Nat.eqb]; rewrite ?V00, ?V01, ?V02, ?V10, ?V11, ?V12, ?V20, ?V21, ?V22; lra.
  - rewrite det3, V00, V01, V02, V10, V11, V12, V20, V21, V22. lra.
Qed.
Lemma ratio_bounds y z : 69 / 100 <= z <= 101 / 100 -> Rabs (y / z) <= 145 / 100 * Rabs y /\ (0 <= y -> 99 / 100 * y <= y / z).
Proof.
  intros Hz. assert (I : / z <= 145 / 100) by (apply Rle_trans with (/ (69 / 100)); [apply Rinv_le; lra|lra]). assert (I' : 99 / 100 <= / z) by (apply Rle_trans with (/ (101 / 100)); [lra|apply Rinv_le; lra]).
  unfold Rdiv. rewrite Rabs_mult, (Rabs_pos_eq (/ z)) by lra. pose proof (Rabs_pos y). split; [nra|]. intros; nra.
Qed.

(*@ C74_about_z32 *)
(** C74: so every f32 matrix within 1e-6 of a turn about z by an angle strictly between 0 and 90 degrees (sine and cosine at
    least 1e-5) is recognised *)
Lemma l_about_z32 :
  forall (lm : Libm) (m : Mat (T (Arith := F32 lm))) (a : nat -> nat -> R) (t : R), mat_f m 3 3 a ->
  (forall i j, (i < 3)%nat -> (j < 3)%nat -> Rabs (a i j - rodrigues t 0 0 1 i j) <= / 1000000) -> / 100000 <= sin t -> / 100000 <= cos t ->
  m_is_so_n m = Ok true /\ m_is_orthogonal m = Ok true.
Proof.
  intros lm m a t Hm HC Hs Hc. destruct (rot_z t) as (V & HB & HO & HD). destruct (near_rotation a _ HC HB HO HD) as [NO ND].
  destruct V as (V00 & V01 & V02 & V10 & V11 & V12 & V20 & V21 & V22). pose proof (sin2_cos2 t) as SC. unfold Rsqr in SC.
  pose proof (HC 0 0 ltac:(lia) ltac:(lia))%nat as C00. pose proof (HC 0 1 ltac:(lia) ltac:(lia))%nat as C01. pose proof (HC 1 0 ltac:(lia) ltac:(lia))%nat as C10.
  pose proof (HC 1 1 ltac:(lia) ltac:(lia))%nat as C11. pose proof (HC 2 0 ltac:(lia) ltac:(lia))%nat as C20. pose proof (HC 2 1 ltac:(lia) ltac:(lia))%nat as C21.
  rewrite V00 in C00. rewrite V01 in C01. rewrite V10 in C10. rewrite V11 in C11. rewrite V20, Rminus_0_r in C20. rewrite V21, Rminus_0_r in C21.
  set (c := cos t) in *. set (s := sin t) in *. assert (c <= 1 /\ s <= 1) by (split; nra).
  pose proof C20 as C20'. apply Rabs_le_inv in C00, C01, C10, C11, C20', C21.
  assert (BIG : forall x y, x * x + y * y = 1 -> 0 <= y -> y - 2 / 1000000 <= x -> 7 / 10 <= x).
  { intros x y E H1 H2. destruct (Rle_lt_dec (7 / 10) x) as [|L]; [assumption|]. exfalso. assert (y <= 7001 / 10000) by lra. destruct (Rle_lt_dec 0 x); [nra|]. assert (y <= 2 / 1000000) by lra. assert (- x <= 2 / 1000000) by lra. nra. }
  destruct (Rle_lt_dec (a 1%nat 0%nat) (a 0%nat 0%nat)) as [L|L].
  - assert (c7 : 7 / 10 <= c) by (apply (BIG c s); lra). destruct (ratio_bounds (a 2%nat 0%nat) (a 0%nat 0%nat) ltac:(lra)) as [Q1 _]. destruct (ratio_bounds (a 1%nat 0%nat) (a 0%nat 0%nat) ltac:(lra)) as [_ Q2].
    specialize (Q2 ltac:(lra)). assert (Q3 : Rabs (a 0%nat 1%nat * (a 2%nat 0%nat / a 0%nat 0%nat)) <= 147 / 100000000).
    { rewrite Rabs_mult. assert (Rabs (a 0%nat 1%nat) <= 101 / 100) by (apply Rabs_le; split; lra). assert (Rabs (a 2%nat 0%nat / a 0%nat 0%nat) <= 145 / 100000000) by lra.
      pose proof (Rabs_pos (a 0%nat 1%nat)). pose proof (Rabs_pos (a 2%nat 0%nat / a 0%nat 0%nat)). nra. } apply Rabs_le_inv in Q3.
    apply (l_accepted lm m a 0 1 2 (rcleared a 0 1 1) Hm NO ND).
    + left. conjs; auto; lra.
    + rewrite Rabs_pos_eq; lra.
    + right. split; [|reflexivity]. unfold rcleared. lra.
    + unfold rcleared. assert (0 <= - a 0%nat 1%nat * (a 1%nat 0%nat / a 0%nat 0%nat)) by (apply Rmult_le_pos; lra). rewrite Rabs_pos_eq; lra.
  - assert (c7 : 7 / 10 <= s) by (apply (BIG s c); lra). destruct (ratio_bounds (a 2%nat 0%nat) (a 1%nat 0%nat) ltac:(lra)) as [Q1 _]. destruct (ratio_bounds (a 0%nat 0%nat) (a 1%nat 0%nat) ltac:(lra)) as [_ Q2].
    specialize (Q2 ltac:(lra)). assert (Q3 : Rabs (a 1%nat 1%nat * (a 2%nat 0%nat / a 1%nat 0%nat)) <= 147 / 100000000).
    { rewrite Rabs_mult. assert (Rabs (a 1%nat 1%nat) <= 101 / 100) by (apply Rabs_le; split; lra). assert (Rabs (a 2%nat 0%nat / a 1%nat 0%nat) <= 145 / 100000000) by lra.
      pose proof (Rabs_pos (a 1%nat 1%nat)). pose proof (Rabs_pos (a 2%nat 0%nat / a 1%nat 0%nat)). nra. } apply Rabs_le_inv in Q3.
    apply (l_accepted lm m a 1 0 2 (rcleared a 1 0 1) Hm NO ND).
    + right; left. conjs; auto; lra.
    + rewrite Rabs_pos_eq; lra.
    + right. split; [|reflexivity]. unfold rcleared. lra.
    + unfold rcleared. assert (0 <= a 1%nat 1%nat * (a 0%nat 0%nat / a 1%nat 0%nat)) by (apply Rmult_le_pos; lra). rewrite Rabs_left1; lra.
Qed.

(*@ C88_about_z *)
(** C88: and its logarithm is computed, with the error of C88_log *)
Lemma l_log_z32 :
  forall (lm : Libm) (m : Mat (T (Arith := F32 lm))) (a : nat -> nat -> R) (t d : R), mat_f m 3 3 a ->
  libm_accurate lm d 5 -> acos_accurate lm d -> 0 < t < PI / 2 -> 2 / 100 <= sin t -> / 100000 <= cos t -> 0 <= d <= sin t / 100 ->
  (forall i j, (i < 3)%nat -> (j < 3)%nat -> Rabs (a i j - rodrigues t 0 0 1 i j) <= / 1000000) ->
  exists ml ml' l, m_log m = Ok ml /\ m_log_in_place m = (ml', Ok tt) /\ mat_f ml 3 3 l /\ mat_f ml' 3 3 l /\
    forall i j, (i < 3)%nat -> (j < 3)%nat -> Rabs (l i j - t * cross_m 0 0 1 i j) <= 12 * (2 / 1000000 + d) / (sin t * sin t).
Proof.
  intros lm m a t d Hm HL HA Ht Hs Hc Hd HC. destruct (l_about_z32 lm m a t Hm HC ltac:(lra) Hc) as [S _].
  assert (Q : 4 / 10000 <= sin t * sin t) by nra.
  destruct (l_log32 lm m a t 0 0 1 (/ 1000000) d true Hm HL HA ltac:(ring) ltac:(pose proof PI_RGT_0; lra) HC ltac:(lra) ltac:(lra) Hd S) as (ml & ml' & l & E1 & E2 & M1 & M2 & K).
  exists ml, ml', l. conjs; auto. intros i j Hi Hj. eapply Rle_trans; [apply K; auto|]. right. f_equal. lra.
Qed.

Definition cells345 : list f32 := [lit32 3 5; lit32 (-4) 5; z32 0; lit32 4 5; lit32 3 5; z32 0; z32 0; z32 0; z32 1].
Lemma ex_accept : forall lm, exists (m : Mat (T (Arith := F32 lm))) (a : nat -> nat -> R) (t : R), mat_f m 3 3 a /\
  (forall i j, (i < 3)%nat -> (j < 3)%nat -> Rabs (a i j - rodrigues t 0 0 1 i j) <= / 1000000) /\ 0 < t < PI / 2 /\ cos t = 3 / 5 /\ sin t = 4 / 5.
Proof.
  intros lm. exists (mk_mat (A := F32 lm) 3 3 cells345), (fun i j => B2R (nth (i * 3 + j) cells345 (B754_zero false))), (acos (3 / 5)).
  assert (C : cos (acos (3 / 5)) = 3 / 5) by (apply cos_acos; lra).
  assert (S : sin (acos (3 / 5)) = 4 / 5) by (rewrite sin_acos by lra; replace (1 - (3 / 5)²) with ((4 / 5) * (4 / 5)) by (unfold Rsqr; lra); apply sqrt_square; lra).
  split; [|split; [|split; [|split; assumption]]].
  - eexists. split; [apply (fmat_is lm 3 3 cells345); [lia|lia|reflexivity|]; repeat constructor|]. intros; reflexivity.
  - intros i j Hi Hj. destruct (rot_z (acos (3 / 5))) as ((V00 & V01 & V02 & V10 & V11 & V12 & V20 & V21 & V22) & _). rewrite C in V00, V11. rewrite S in V01, V10.
    apply Rabs_le. destruct i as [|[|[|i]]], j as [|[|[|j]]]; try lia; rewrite ?V00, ?V01, ?V02, ?V10, ?V11, ?V12, ?V20, ?V21, ?V22; cbn; unfold F2R; cbn; lra.
  - split; [apply acos_bound_lt; lra|]. destruct (Rlt_le_dec (acos (3 / 5)) (PI / 2)) as [|L]; [assumption|]. exfalso. pose proof (acos_bound (3 / 5)) as [_ B]. assert (K : cos (acos (3 / 5)) <= cos (PI / 2)) by (apply cos_decr_1; pose proof PI_RGT_0; lra). rewrite C, cos_PI2 in K. lra.
Qed.
(*@ example *)
(** C74, C88: the turn about z with cosine 3/5 and sine 4/5, stored in f32 *)
Example C74_accept_example : forall lm, exists (m : Mat (T (Arith := F32 lm))) (a : nat -> nat -> R) (t : R), mat_f m 3 3 a /\
  (forall i j, (i < 3)%nat -> (j < 3)%nat -> Rabs (a i j - rodrigues t 0 0 1 i j) <= / 1000000) /\ 0 < t < PI / 2 /\ cos t = 3 / 5 /\ sin t = 4 / 5.
Proof. exact ex_accept. Qed.
