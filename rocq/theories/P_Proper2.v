(** C74: a 2 x 2 f32 matrix recognised as a rotation is a proper one. *)
(*@+*)
From Coq Require Import List Arith ZArith Reals Lia Bool Lra SpecFloat.
From Flocq Require Import Core BinarySingleNaN.
From Verif Require Import M_Base M_Arith M_Utils M_Vector M_Matrix M_F32 M_RX
  S_Spec S_Linalg S_Norm S_Lu S_F32 P_Inst P_InstF.
Import ListNotations.
Local Open Scope R_scope.
(*@-*)
From Coq Require Import Psatz.
From Verif Require Import S_Compare P_Compare S_Lu32 P_Hoare P_Cont P_Loops P_Access P_Pointwise P_Trans P_Float P_Product P_Norm P_Dot P_FErr P_Norm32 P_FAcc P_F32App P_Lup P_Lup32 P_Det P_So P_Chol32 P_Qr32 P_Eig P_Recog P_Sound P_Proper.

Section Core2.
  Variables b00 b01 b10 b11 p s l q k : R.
  Notation d := (2 / 10000000).
  Hypothesis B : Rabs b00 <= 101 / 100 /\ Rabs b01 <= 101 / 100 /\ Rabs b10 <= 101 / 100 /\ Rabs b11 <= 101 / 100.
  Hypothesis P0 : 99 / 1000000 <= Rabs p.
  Hypothesis K0 : 0 <= k <= 3 / 100000.
  Hypothesis E00 : Rabs (b00 - p) <= d * Rabs p + k.
  Hypothesis E01 : Rabs (b01 - s) <= d * Rabs s + k.
  Hypothesis E10 : Rabs (b10 - l * p) <= d * (Rabs l * Rabs p) + k.
  Hypothesis E11 : Rabs (b11 - (l * s + q)) <= d * (Rabs l * Rabs s + Rabs q) + k.
  Lemma core2_sizes : Rabs p <= 102 / 100 /\ Rabs s <= 102 / 100 /\ Rabs l * Rabs p <= 102 / 100 /\ Rabs l <= 11000 /\ Rabs q <= 12000.
  Proof using B P0 K0 E00 E01 E10 E11.
    destruct B as (B00 & B01 & B10 & B11).
    pose proof (close_1 _ _ _ _ E00 B00 ltac:(lra) ltac:(lra)) as S1. pose proof (close_1 _ _ _ _ E01 B01 ltac:(lra) ltac:(lra)) as S2.
    assert (E10' := E10). rewrite <- Rabs_mult in E10'. pose proof (close_1 _ _ _ _ E10' B10 ltac:(lra) ltac:(lra)) as S4. rewrite Rabs_mult in S4.
    pose proof (close_2 _ _ _ _ _ _ E11 B11 ltac:(rewrite Rabs_mult; lra) ltac:(lra) ltac:(lra)) as S6.
    pose proof (gdiv (Rabs p) (Rabs l) (102 / 100) (Rabs_pos _) P0 ltac:(lra)) as L1.
    assert (Rabs l * Rabs s <= 10304 * (102 / 100)) by (apply Rmult_le_compat; auto using Rabs_pos; lra).
    repeat split; lra.
  Qed.
  Hypothesis K1 : k <= / 10 ^ 14.
  Hypothesis D1 : Rabs (p * q) <= 101 / 100.
  Lemma core2_det : Rabs (b00 * b11 - b01 * b10 - p * q) <= 3 / 1000000.
  Proof using B P0 K0 E00 E01 E10 E11 K1 D1.
    destruct core2_sizes as (S1 & S2 & S3 & S4 & S5). destruct B as (B00 & B01 & B10 & B11). clear B.
    assert (KK : k <= 1 / 100000000000000) by (cbn [pow] in K1; lra). clear K1.
    set (g0 := b10 - l * b00). set (g1 := b11 - l * b01 - q). set (ep := b00 - p) in *.
    assert (P1 : 0 <= Rabs p) by apply Rabs_pos. assert (L0 := Rabs_pos l).
    assert (LK : Rabs l * k <= 11000 * (1 / 100000000000000)) by (apply Rmult_le_compat; lra).
    assert (LPS : Rabs p * (Rabs l * Rabs s) <= 10405 / 10000).
    { assert (Rabs l * Rabs p * Rabs s <= 102 / 100 * (102 / 100)) by (apply Rmult_le_compat; auto using Rabs_pos; apply Rmult_le_pos; auto). lra. }
    assert (PKL : Rabs p * (Rabs l * k) <= 102 / 100 * (11000 * (1 / 100000000000000))) by (apply Rmult_le_compat; auto; apply Rmult_le_pos; lra).
    assert (PK : Rabs p * k <= 102 / 100 * (1 / 100000000000000)) by (apply Rmult_le_compat; lra).
    assert (GEN : forall x c, Rabs x <= c -> Rabs (p * x) <= Rabs p * c) by (intros x c H; rewrite Rabs_mult; apply Rmult_le_compat_l; auto).
    assert (PQ : Rabs p * Rabs q <= 101 / 100) by (rewrite <- Rabs_mult; exact D1).
    assert (G0 : Rabs g0 <= 42 / 100000000).
    { replace g0 with ((b10 - l * p) + - (l * ep)) by (unfold g0, ep; ring). eapply Rle_trans; [apply addb; [exact E10|rewrite Rabs_Ropp, Rabs_mult; apply Rmult_le_compat_l; [exact L0|exact E00]]|]. lra. }
    assert (G1 : Rabs (p * g1) <= 65 / 100000000).
    { replace g1 with ((b11 - (l * s + q)) + - (l * (b01 - s))) by (unfold g1; ring). eapply Rle_trans; [apply GEN, addb; [exact E11|rewrite Rabs_Ropp, Rabs_mult; apply Rmult_le_compat_l; [exact L0|exact E01]]|]. lra. }
    assert (EP : Rabs ep <= 21 / 100000000 * Rabs p) by lra.
    assert (EPX : forall x c, Rabs (p * x) <= c -> Rabs (ep * x) <= 21 / 100000000 * c).
    { intros x c H. rewrite Rabs_mult in H |- *. assert (Rabs ep * Rabs x <= 21 / 100000000 * Rabs p * Rabs x) by (apply Rmult_le_compat_r; [apply Rabs_pos|exact EP]). lra. }
    pose proof (EPX _ _ D1) as X1. pose proof (EPX _ _ G1) as X2. pose proof (mulb _ _ _ _ B01 G0) as X3.
    replace (b00 * b11 - b01 * b10 - p * q) with (ep * q + ep * g1 + p * g1 + - (b01 * g0)) by (unfold ep, g0, g1; ring).
    eapply Rle_trans; [repeat (apply addb; [|first [eassumption|rewrite Rabs_Ropp; eassumption]]); eassumption|]. lra.
  Qed.
End Core2.

(** the product of two pivots from a finite rounded one *)
Lemma prod2_inv (o x y : f32) : B2R o = 1 -> let d := Bmult mode_NE (Bmult mode_NE o x) y in
  is_finite d = true -> Rabs (B2R d) <= 1001 / 1000 -> Rabs (B2R x * B2R y - B2R d) <= 1 / 10000000.
Proof.
  intros O1 d Fd Bd. unfold d in *. destruct (fin_mult _ _ Fd) as (F1 & _ & E2). destruct (fin_mult _ _ F1) as (_ & _ & E1).
  rewrite O1, Rmult_1_l, rnd_self in E1. rewrite E1 in E2. set (D := B2R (Bmult mode_NE (Bmult mode_NE o x) y)) in *.
  destruct (rnd32_err (B2R x * B2R y)) as (e & h & He & Hh & R2). rewrite R2 in E2. clear R2 E1.
  assert (H1 : Rabs h <= 1 / 1000000000000) by (destruct eta_tau as [T0 T1]; unfold tau in *; lra).
  set (P := B2R x * B2R y) in *. clearbody P D. clear - E2 H1 He Bd. unfold u in *. apply Rabs_le_inv in H1, He, Bd.
  assert (BP : -1002 / 1000 <= P <= 1002 / 1000) by (split; nra). assert (P1 : -1002 / 1000 * (1 / 16777216) <= P * e <= 1002 / 1000 * (1 / 16777216)) by (split; nra).
  apply Rabs_le. lra.
Qed.

Lemma det2 (g : nat -> nat -> R) : rdet 2 g = g 0%nat 0%nat * g 1%nat 1%nat - g 0%nat 1%nat * g 1%nat 0%nat.
Proof. unfold rdet, Nat.ltb. cbn. ring. Qed.

(*@ C74_sound_plane *)
(** C74: a 2 x 2 f32 matrix for which [is_so_n] answers yes has a true determinant within 1.04e-4 of 1, however small the pivot was *)
Lemma l_sound_plane :
  forall (lm : Libm) (m : Mat (T (Arith := F32 lm))) (a : nat -> nat -> R), mat_f m 2 2 a ->
  m_is_so_n m = Ok true -> Rabs (rdet 2 a - 1) <= 104 / 1000000.
Proof.
  intros lm m a HM Y. destruct (l_sound32 lm m 2 2 a HM (or_introl Y)) as [_ HO].
  assert (HB : forall i j, (i < 2)%nat -> (j < 2)%nat -> Rabs (a i j) <= 101 / 100).
  { intros i j Hi Hj. pose proof (HO i i Hi Hi) as K. unfold rid in K. rewrite Nat.eqb_refl in K. unfold rmul, rtr in K.
    pose proof (rnorm_sqr 2 (a i)) as SQ. unfold rdot in SQ. rewrite <- SQ in K. apply Rabs_le_inv in K. pose proof (rnorm_pos 2 (a i)). pose proof (rnorm_bound 2 (a i) j Hj). nra. }
  clear HO. destruct HM as (F0 & Hm & Ea). destruct (l_recognise (F32 lm) _ m 2 2 F0 Hm) as [Y1 _]. destruct (Y1 Y) as (_ & (d & Ed & Wd) & _). clear Y1 Y.
  destruct (within32_inv lm d (f1 (A := F32 lm)) 1) as [Fd Bd]; [apply one32|exact Wd|]. clear Wd.
  destruct (lup m) as [[lu p]|e|] eqn:El; [|exfalso; unfold m_det in Ed; rewrite (m_guard_square_is _ _ _ _ Hm), Nat.eqb_refl in Ed; cbn [rbind] in Ed; rewrite El in Ed; cbn [rbind] in Ed; discriminate..].
  pose proof (lup_wp (A := F32 lm) m 2 F0 Hm) as W. rewrite El in W. cbn [rwp] in W. destruct W as (F & pi & (H1 & H2 & Pp) & St). cbn [fst snd] in *. pose proof Pp as [PL PI].
  assert (FF : forall i j, (i < 2)%nat -> (j < 2)%nat -> is_finite (F i j : f32) = true) by (intros i j Hi Hj; apply (valid_finite lm); eapply mat_is_valid; eauto).
  set (f := fun i j => B2R (F (pi i) j : f32)). set (b := fun i j => a (pi i) j).
  pose proof (steps_F lm 2 (2 - 1) F0 F pi ltac:(lia) Pp FF St) as I.
  assert (E : forall i j, (i < 2)%nat -> (j < 2)%nat -> Rabs (b i j - rmul 2 (ulow f) (upp f) i j) <= 2 / 10000000 * Rsum 2 (fun t => amp (ulow f i t) * amp (upp f t j))).
  { intros i j Hi Hj. unfold b. rewrite <- Ea by (auto; apply PL, Hi). eapply Rle_trans; [apply (lu_err_end 2 _ _ pi ltac:(lia) I i j Hi Hj)|].
    apply Rmult_le_compat_r; [|pose proof gam_3; lra]. apply Rsum_nonneg. intros t Ht. apply Rmult_le_pos; left; apply amp_pos. }
  assert (P0 : 99 / 1000000 <= Rabs (f 0%nat 0%nat)).
  { pose proof (steps_pivots (A := F32 lm) 2 1 F0 F pi ltac:(lia) St 0%nat ltac:(lia)) as K. destruct (eps32 lm) as [FE [EL _]].
    change (Bltb (Babs (F (pi 0%nat) 0%nat : f32)) (EPSILON (A := F32 lm) : f32) = false) in K. rewrite Bltb_ok in K by first [exact FE|rewrite is_finite_Babs; apply FF; [apply PL|]; lia].
    rewrite B2R_Babs in K. destruct (Rlt_bool_spec (Rabs (B2R (F (pi 0%nat) 0%nat : f32))) (B2R (EPSILON (A := F32 lm) : f32))) as [|K2]; [discriminate|]. unfold f. lra. }
  assert (HB' : forall i j, (i < 2)%nat -> (j < 2)%nat -> Rabs (b i j) <= 101 / 100) by (intros i j Hi Hj; apply HB; auto).
  assert (HF : forall i j, (i < 2)%nat -> (j < 2)%nat -> Rabs (f i j) <= bpow radix2 128) by (intros i j Hi Hj; unfold f; left; apply (abs_B2R_lt_emax prec emax)).
  pose proof (m_det_ok (A := F32 lm) m 2 F0 lu p F pi Hm El H1 H2 Pp) as D. cbv zeta in D. cbn [range Nat.sub Nat.add seq fold_left] in D.
  set (d0 := Bmult mode_NE (Bmult mode_NE (f1 (A := F32 lm) : f32) (F (pi 0%nat) 0%nat)) (F (pi 1%nat) 1%nat)).
  assert (D' : m_det m = Ok (if flips 2 pi then Bopp d0 else d0 : f32)) by exact D. clear D. rewrite Ed in D'.
  assert (DD : (d : f32) = (if flips 2 pi then Bopp d0 else d0)) by (injection D' as D'; exact D'). clear D'.
  assert (F0' : is_finite d0 = true) by (rewrite DD in Fd; destruct (flips 2 pi); [rewrite is_finite_Bopp in Fd|]; exact Fd).
  assert (B0 : Rabs (B2R d0 - (if flips 2 pi then -1 else 1)) <= 10001 / 100000000).
  { rewrite DD in Bd. destruct (flips 2 pi); [|exact Bd]. rewrite B2R_Bopp in Bd. rewrite <- Rabs_Ropp. replace (- (B2R d0 - -1)) with (- B2R d0 - 1) by ring. exact Bd. }
  assert (B1 : Rabs (B2R d0) <= 1001 / 1000) by (clear - B0; apply Rabs_le_inv in B0; apply Rabs_le; destruct (flips 2 pi); split; lra).
  pose proof (prod2_inv _ _ _ (one32 lm) F0' B1) as PR. fold d0 in PR. change (Rabs (f 0%nat 0%nat * f 1%nat 1%nat - B2R d0) <= 1 / 10000000) in PR.
  assert (BD : Rabs (f 0%nat 0%nat * f 1%nat 1%nat) <= 101 / 100) by (clear - B1 PR; apply Rabs_le_inv in B1, PR; apply Rabs_le; split; lra).
  destruct (det_perm 2 pi a ltac:(lia) Pp) as [D1 D2]. cbn [Nat.eqb andb] in D2. rewrite Rmult_1_r in D2. fold b in D1. rewrite <- D2 in D1.
  assert (G : Rabs (rdet 2 b - f 0%nat 0%nat * f 1%nat 1%nat) <= 3 / 1000000).
  { clear D1 D2 PR B1 B0 F0' DD Fd Bd d0 d Ed El St I H1 H2 FF Hm Ea HB. clearbody f b.
    destruct least_small as [[L0 L1] L2]. pose proof (pow_lt 10 33 ltac:(lra)) as PW.
    assert (CC : forall X, 0 <= X <= 20 -> (forall i j, (i < 2)%nat -> (j < 2)%nat -> least * Rabs (f i j) <= X) -> least <= X -> least * least <= X ->
      forall i j, (i < 2)%nat -> (j < 2)%nat -> Rabs (b i j - rmul 2 (ulow f) (upp f) i j) <= 2 / 10000000 * Rsum 2 (fun t => Rabs (ulow f i t) * Rabs (upp f t j)) + 12 / 10000000 * X).
    { intros X PX HX X1 X2 i j Hi Hj. eapply Rle_trans; [apply E; auto|].
      assert (U : forall t, (t < 2)%nat -> least * Rabs (ulow f i t) <= X).
      { intros t Ht. unfold ulow. destruct (i =? t)%nat; [rewrite Rabs_R1; lra|]. destruct (t <? i)%nat; [auto|rewrite Rabs_R0; lra]. }
      assert (V : forall t, (t < 2)%nat -> least * Rabs (upp f t j) <= X) by (intros t Ht; unfold upp; destruct (t <=? j)%nat; [auto|rewrite Rabs_R0; lra]).
      assert (K : forall t, (t < 2)%nat -> amp (ulow f i t) * amp (upp f t j) <= Rabs (ulow f i t) * Rabs (upp f t j) + 3 * X).
      { intros t Ht. specialize (U t Ht). specialize (V t Ht). unfold amp. lra. }
      pose proof (K 0%nat ltac:(lia)). pose proof (K 1%nat ltac:(lia)). cbn [Rsum]. lra. }
    assert (FOUR : forall k, (forall i j, (i < 2)%nat -> (j < 2)%nat -> Rabs (b i j - rmul 2 (ulow f) (upp f) i j) <= 2 / 10000000 * Rsum 2 (fun t => Rabs (ulow f i t) * Rabs (upp f t j)) + k) ->
      let p := f 0%nat 0%nat in let s := f 0%nat 1%nat in let l := f 1%nat 0%nat in let q := f 1%nat 1%nat in
      Rabs (b 0%nat 0%nat - p) <= 2 / 10000000 * Rabs p + k /\ Rabs (b 0%nat 1%nat - s) <= 2 / 10000000 * Rabs s + k /\
      Rabs (b 1%nat 0%nat - l * p) <= 2 / 10000000 * (Rabs l * Rabs p) + k /\ Rabs (b 1%nat 1%nat - (l * s + q)) <= 2 / 10000000 * (Rabs l * Rabs s + Rabs q) + k).
    { intros k C. cbv zeta. unfold rmul, ulow, upp, Nat.ltb in C. cbn [Rsum] in C.
      repeat split; [pose proof (C 0 0 ltac:(lia) ltac:(lia))%nat as K|pose proof (C 0 1 ltac:(lia) ltac:(lia))%nat as K|pose proof (C 1 0 ltac:(lia) ltac:(lia))%nat as K|pose proof (C 1 1 ltac:(lia) ltac:(lia))%nat as K];
      cbn [Nat.eqb Nat.leb] in K; rewrite ?Rabs_R0, ?Rabs_R1, ?Rmult_0_l, ?Rmult_0_r, ?Rmult_1_l, ?Rplus_0_l, ?Rplus_0_r in K; exact K. }
    assert (BB : Rabs (b 0%nat 0%nat) <= 101 / 100 /\ Rabs (b 0%nat 1%nat) <= 101 / 100 /\ Rabs (b 1%nat 0%nat) <= 101 / 100 /\ Rabs (b 1%nat 1%nat) <= 101 / 100) by (repeat split; apply HB'; lia).
    assert (C1 := CC 16 ltac:(lra) ltac:(intros i j Hi Hj; rewrite <- L2; apply Rmult_le_compat_l; [lra|auto]) ltac:(cbn [pow] in L1; lra) ltac:(cbn [pow] in L1; nra)).
    assert (K16 : 0 <= 12 / 10000000 * 16 <= 3 / 100000) by lra.
    apply FOUR in C1. cbv zeta in C1. destruct C1 as (E00 & E01 & E10 & E11).
    pose proof (core2_sizes _ _ _ _ _ _ _ _ _ BB P0 K16 E00 E01 E10 E11) as (Z1 & Z2 & Z3 & Z4 & Z5). clear E00 E01 E10 E11.
    assert (ALL : forall i j, (i < 2)%nat -> (j < 2)%nat -> Rabs (f i j) <= 10 ^ 13).
    { assert (T13 : 10 ^ 13 = 10000000000000) by (cbn [pow]; ring). rewrite T13 in *. intros i j Hi Hj. destruct i as [|[|i]], j as [|[|j]]; try lia; lra. }
    assert (C2 := CC (/ 10 ^ 20)).
    assert (LL : / 10 ^ 33 * 10 ^ 13 = / 10 ^ 20) by (cbn [pow]; field).
    assert (I20 : 0 < / 10 ^ 20 <= 1 / 100000000000000000000) by (cbn [pow]; lra).
    assert (I33 : / 10 ^ 33 <= / 10 ^ 20) by (cbn [pow]; lra).
    specialize (C2 ltac:(lra) ltac:(intros i j Hi Hj; rewrite <- LL; apply Rmult_le_compat; auto using Rabs_pos; lra) ltac:(lra)).
    specialize (C2 ltac:(apply Rle_trans with (least * 1); [apply Rmult_le_compat_l; lra|lra])).
    assert (K20 : 0 <= 12 / 10000000 * / 10 ^ 20 <= 3 / 100000) by lra. assert (K14 : 12 / 10000000 * / 10 ^ 20 <= / 10 ^ 14) by (cbn [pow] in I20 |- *; lra).
    apply FOUR in C2. cbv zeta in C2. destruct C2 as (E00 & E01 & E10 & E11).
    rewrite det2. exact (core2_det _ _ _ _ _ _ _ _ _ BB P0 K20 E00 E01 E10 E11 K14 BD). }
  rewrite D1 in G. clear - G PR B0. apply Rabs_le_inv in G, PR, B0. apply Rabs_le. destruct (flips 2 pi); split; lra.
Qed.

Lemma plane_ex : forall lm : Libm, let m := mk_mat (A := F32 lm) 2 2 (map z32 [0; -1; 1; 0]%Z) in
  mat_f (lm := lm) m 2 2 (fun i j => IZR (nth (i * 2 + j) [0; -1; 1; 0]%Z 0%Z)) /\ m_is_so_n m = Ok true /\
  m_is_so_n (mk_mat (A := F32 lm) 2 2 (map z32 [0; 1; 1; 0]%Z)) = Ok false.
Proof.
  intros lm m. split; [apply (mat_z lm 2 2); [lia|lia|reflexivity|repeat constructor; cbn; lia]|]. split; vm_compute; reflexivity.
Qed.
(*@ example *)
(** test: a quarter turn of the plane is recognised, the reflection exchanging the axes is not *)
Example C74_example_plane : forall lm : Libm, let m := mk_mat (A := F32 lm) 2 2 (map z32 [0; -1; 1; 0]%Z) in
  mat_f (lm := lm) m 2 2 (fun i j => IZR (nth (i * 2 + j) [0; -1; 1; 0]%Z 0%Z)) /\ m_is_so_n m = Ok true /\
  m_is_so_n (mk_mat (A := F32 lm) 2 2 (map z32 [0; 1; 1; 0]%Z)) = Ok false.
Proof. exact plane_ex. Qed.
