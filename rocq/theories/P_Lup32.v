(** C68: backward error of [lup] and [solve] in f32. *)
(*@+*)
From Coq Require Import List Arith ZArith Reals Lia Bool Lra SpecFloat.
From Flocq Require Import Core BinarySingleNaN.
From Verif Require Import M_Base M_Arith M_Utils M_Vector M_Matrix M_F32
  S_Spec S_Linalg S_Norm S_Quat S_Lu S_F32 S_Lu32 P_Inst P_InstF.
Import ListNotations.
Local Open Scope R_scope.
(*@-*)
From Coq Require Import Psatz.
From Verif Require Import P_Hoare P_Cont P_Loops P_Access P_Pointwise P_Trans P_Float P_Product P_Norm P_FErr P_FAcc P_F32App P_Lup P_Solve.

Lemma least_pos : 0 < least. Proof. apply bpow_gt_0. Qed.
Lemma least_eta : eta <= ulp1 * least / 4.
Proof.
  unfold least, eta. replace (bpow radix2 (-124)) with (67108864 * bpow radix2 (-150)).
  - pose proof (bpow_gt_0 radix2 (-150)). unfold ulp1. lra.
  - replace 67108864 with (bpow radix2 26) by (cbn; lra). rewrite <- bpow_plus. reflexivity.
Qed.
Lemma amp_abs x : Rabs x <= amp x. Proof. unfold amp. pose proof least_pos. lra. Qed.
Lemma amp_pos x : 0 < amp x. Proof. unfold amp. pose proof least_pos. pose proof (Rabs_pos x). lra. Qed.
Lemma amp_least x : least <= amp x. Proof. unfold amp. pose proof (Rabs_pos x). lra. Qed.

(** ** one operation, the result being finite *)
Lemma rnd_back q : Rabs (rnd32 q - q) <= 597 / 10000000000 * Rabs (rnd32 q) + 11 / 10 * eta.
Proof.
  destruct (rnd32_err q) as (e & h & He & Hh & E). set (v := rnd32 q) in *. pose proof eta_pos as P.
  assert (Q : Rabs q <= 597 / 10000000000 / u * Rabs v + 2 * eta).
  { assert (H : Rabs (v - h) = Rabs q * Rabs (1 + e)) by (rewrite <- Rabs_mult; f_equal; lra).
    assert (B : 1 - u <= Rabs (1 + e)) by (apply Rabs_le_inv in He; rewrite Rabs_pos_eq; unfold u in *; lra).
    pose proof (Rabs_pos q). assert (L : Rabs q * (1 - u) <= Rabs v + eta).
    { apply Rle_trans with (Rabs (v - h)); [rewrite H; apply Rmult_le_compat_l; lra|]. unfold Rminus. eapply Rle_trans; [apply Rabs_triang|]. rewrite Rabs_Ropp. lra. }
    pose proof (Rabs_pos v). unfold u in *. lra. }
  replace (v - q) with (q * e + h) by lra. eapply Rle_trans; [apply Rabs_triang|]. rewrite Rabs_mult.
  assert (Rabs q * Rabs e <= Rabs q * u) by (apply Rmult_le_compat_l; [apply Rabs_pos|exact He]).
  pose proof (Rabs_pos v). unfold u in *. lra.
Qed.
Lemma over_inf (x : f32) s : B2SF x = binary_overflow prec emax mode_NE s -> is_finite x = false.
Proof. destruct x; cbn; intros H; try discriminate; reflexivity. Qed.
Lemma fin_minus (x y : f32) : is_finite (Bminus mode_NE x y) = true ->
  is_finite x = true /\ is_finite y = true /\ B2R (Bminus mode_NE x y) = rnd32 (B2R x - B2R y).
Proof.
  intros H. assert (F : is_finite x = true /\ is_finite y = true).
  { destruct x as [sx|sx| |sx mx ex Hx], y as [sy|sy| |sy my ey Hy]; try (split; reflexivity); exfalso; cbn in H; try discriminate; destruct sx; try destruct sy; discriminate. }
  destruct F as [Fx Fy]. split; [auto|]. split; [auto|].
  pose proof (Bminus_correct prec emax _ _ mode_NE x y Fx Fy) as C. cbn [round_mode] in C.
  match type of C with if ?b then _ else _ => destruct b end; [apply C|]. destruct C as [C _]. apply over_inf in C. congruence.
Qed.
Lemma fin_mult (x y : f32) : is_finite (Bmult mode_NE x y) = true ->
  is_finite x = true /\ is_finite y = true /\ B2R (Bmult mode_NE x y) = rnd32 (B2R x * B2R y).
Proof.
  intros H. assert (F : is_finite x = true /\ is_finite y = true).
  { destruct x as [sx|sx| |sx mx ex Hx], y as [sy|sy| |sy my ey Hy]; try (split; reflexivity); exfalso; cbn in H; discriminate. }
  destruct F as [Fx Fy]. split; [auto|]. split; [auto|].
  pose proof (Bmult_correct prec emax _ _ mode_NE x y) as C. cbn [round_mode] in C.
  match type of C with if ?b then _ else _ => destruct b end; [apply C|]. apply over_inf in C. congruence.
Qed.
Lemma fin_div (x y : f32) : is_finite (Bdiv mode_NE x y) = true -> B2R y <> 0 ->
  is_finite x = true /\ B2R (Bdiv mode_NE x y) = rnd32 (B2R x / B2R y).
Proof.
  intros H Ny. pose proof (Bdiv_correct prec emax _ _ mode_NE x y Ny) as C. cbn [round_mode] in C.
  match type of C with if ?b then _ else _ => destruct b end; [destruct C as (C1 & C2 & _); rewrite H in C2; auto|]. apply over_inf in C. congruence.
Qed.
Lemma sub_err (x y z : f32) : is_finite (Bminus mode_NE x (Bmult mode_NE y z)) = true ->
  is_finite x = true /\ is_finite y = true /\ is_finite z = true /\
  let v := B2R (Bminus mode_NE x (Bmult mode_NE y z)) in
  Rabs (B2R x - (v + B2R y * B2R z)) <= ulp1 * (Rabs v + Rabs (B2R y * B2R z) + least).
Proof.
  intros H. destruct (fin_minus _ _ H) as (Fx & Fm & Ev). destruct (fin_mult _ _ Fm) as (Fy & Fz & Em).
  split; [auto|]. split; [auto|]. split; [auto|]. cbv zeta. rewrite Ev, Em.
  set (p := B2R y * B2R z). destruct (rnd32_err p) as (e & h & He & Hh & E). pose proof (rnd_back (B2R x - rnd32 p)) as B.
  set (v := rnd32 (B2R x - rnd32 p)) in *. rewrite E in *. pose proof least_eta as LE. pose proof least_pos.
  replace (B2R x - (v + p)) with ((p * e + h) - (v - (B2R x - (p * (1 + e) + h)))) by ring.
  eapply Rle_trans; [apply Rabs_triang|]. rewrite Rabs_Ropp.
  assert (Rabs (p * e + h) <= Rabs p * u + eta).
  { eapply Rle_trans; [apply Rabs_triang|]. rewrite Rabs_mult. apply Rplus_le_compat; [|exact Hh]. apply Rmult_le_compat_l; [apply Rabs_pos|exact He]. }
  pose proof (Rabs_pos v). pose proof (Rabs_pos p). unfold ulp1, u in *. lra.
Qed.
Lemma div_err (x d : f32) : is_finite (Bdiv mode_NE x d) = true -> B2R d <> 0 ->
  is_finite x = true /\ let v := B2R (Bdiv mode_NE x d) in Rabs (B2R x - v * B2R d) <= ulp1 * (amp v * Rabs (B2R d)).
Proof.
  intros H Nd. destruct (fin_div _ _ H Nd) as (Fx & Ev). split; [auto|]. cbv zeta. rewrite Ev.
  pose proof (rnd_back (B2R x / B2R d)) as B. set (v := rnd32 (B2R x / B2R d)) in *.
  replace (B2R x - v * B2R d) with (- (v - B2R x / B2R d) * B2R d) by (field; auto). rewrite Rabs_mult, Rabs_Ropp, <- Rmult_assoc.
  apply Rmult_le_compat_r; [apply Rabs_pos|]. eapply Rle_trans; [exact B|]. pose proof least_eta. pose proof least_pos. pose proof (Rabs_pos v). unfold amp, ulp1 in *. lra.
Qed.

(** ** accumulated errors *)
Definition gam (k : nat) : R := (1 + ulp1) ^ k - 1.
Lemma gam_S k : gam (S k) = gam k * (1 + ulp1) + ulp1. Proof. unfold gam. cbn [pow]. ring. Qed.
Lemma gam_pos k : 0 <= gam k.
Proof. induction k as [|k IH]; [unfold gam; cbn; lra|]. rewrite gam_S. unfold ulp1. lra. Qed.
Lemma gam_mono k k' : (k <= k')%nat -> gam k <= gam k'.
Proof. induction 1 as [|k' H IH]; [lra|]. rewrite gam_S. pose proof (gam_pos k'). unfold ulp1 in *. lra. Qed.
Lemma gam_3 : gam 3 <= 181 / 1000000000. Proof. unfold gam, ulp1. lra. Qed.
Lemma gam_4 : gam 4 <= 241 / 1000000000. Proof. unfold gam, ulp1. lra. Qed.
(** [a] is the sum [s] (of magnitude [m]) plus the rest [r], up to k roundings *)
Definition err_at (a s m r : R) (k : nat) : Prop := Rabs (a - (s + r)) <= gam k * (m + Rabs r + least).
Lemma err_mono a s m r k k' : 0 <= m -> (k <= k')%nat -> err_at a s m r k -> err_at a s m r k'.
Proof.
  intros Hm Hk H. eapply Rle_trans; [exact H|]. apply Rmult_le_compat_r; [|apply gam_mono, Hk]. pose proof (Rabs_pos r). pose proof least_pos. lra.
Qed.
Lemma err_sub a s m r k v p P : err_at a s m r k -> 0 <= m -> Rabs p <= P -> Rabs (r - (v + p)) <= ulp1 * (Rabs v + Rabs p + least) ->
  err_at a (s + p) (m + P) v (S k).
Proof.
  unfold err_at. intros H Hm HP D. rewrite gam_S. pose proof (gam_pos k) as G. pose proof least_pos as L. pose proof (Rabs_pos v) as V. pose proof (Rabs_pos p) as PP.
  assert (R : Rabs r <= (1 + ulp1) * (Rabs v + Rabs p) + ulp1 * least).
  { replace r with ((r - (v + p)) + (v + p)) by ring. eapply Rle_trans; [apply Rabs_triang|]. pose proof (Rabs_triang v p). lra. }
  replace (a - (s + p + v)) with ((a - (s + r)) + (r - (v + p))) by ring. eapply Rle_trans; [apply Rabs_triang|].
  apply Rle_trans with (gam k * (1 + ulp1) * (m + P + Rabs v + least) + ulp1 * (m + P + Rabs v + least)); [|right; ring].
  apply Rplus_le_compat; [|eapply Rle_trans; [exact D|]; apply Rmult_le_compat_l; [unfold ulp1|]; lra].
  eapply Rle_trans; [exact H|]. rewrite Rmult_assoc. apply Rmult_le_compat_l; [exact G|]. unfold ulp1 in *. lra.
Qed.
Lemma err_div a s m r k p P : err_at a s m r k -> 0 <= m -> Rabs p <= P -> Rabs (r - p) <= ulp1 * P -> err_at a (s + p) (m + P) 0 (S k).
Proof.
  unfold err_at. intros H Hm HP D. rewrite gam_S, Rabs_R0. pose proof (gam_pos k) as G. pose proof least_pos as L. pose proof (Rabs_pos p) as PP.
  assert (R : Rabs r <= (1 + ulp1) * P).
  { replace r with ((r - p) + p) by ring. eapply Rle_trans; [apply Rabs_triang|]. lra. }
  replace (a - (s + p + 0)) with ((a - (s + r)) + (r - p)) by ring. eapply Rle_trans; [apply Rabs_triang|].
  apply Rle_trans with (gam k * (1 + ulp1) * (m + P + 0 + least) + ulp1 * (m + P + 0 + least)); [|right; ring].
  apply Rplus_le_compat; [|eapply Rle_trans; [exact D|]; apply Rmult_le_compat_l; [unfold ulp1|]; lra].
  eapply Rle_trans; [exact H|]. rewrite Rmult_assoc. apply Rmult_le_compat_l; [exact G|]. unfold ulp1 in *. lra.
Qed.
Lemma amp_mul x y : Rabs (x * y) <= amp x * amp y.
Proof. rewrite Rabs_mult. apply Rmult_le_compat; try apply Rabs_pos; apply amp_abs. Qed.
Lemma amp_mul_r x y : amp x * Rabs y <= amp x * amp y.
Proof. apply Rmult_le_compat_l; [left; apply amp_pos|apply amp_abs]. Qed.

(** ** the factorisation *)
Definition lu_err (n k : nat) (a f : nat -> nat -> R) (pi : nat -> nat) : Prop :=
  forall i j, (i < n)%nat -> (j < n)%nat ->
    err_at (a (pi i) j) (Rsum (Nat.min i k) (fun t => f (pi i) t * (if (t <=? j)%nat then f (pi t) j else 0)))
      (Rsum (Nat.min i k) (fun t => amp (f (pi i) t) * (if (t <=? j)%nat then amp (f (pi t) j) else 0)))
      (if (Nat.min i k <=? j)%nat then f (pi i) j else 0) k.
Lemma mag_pos n f g (j : nat) : 0 <= Rsum n (fun t => amp (f t) * (if (t <=? j)%nat then amp (g t) else 0)).
Proof. apply Rsum_nonneg. intros t _. apply Rmult_le_pos; [left; apply amp_pos|]. destruct (t <=? j)%nat; [left; apply amp_pos|lra]. Qed.

Lemma pivot_nz lm (x : f32) : is_finite x = true -> fltb (Arith := F32 lm) (fabs (Arith := F32 lm) x) (EPSILON (A := F32 lm)) = false -> B2R x <> 0.
Proof.
  intros Fx H. destruct (eps32 lm) as [FE [E1 _]]. cbn [fltb fabs F32] in H.
  rewrite Bltb_ok in H by (auto; rewrite is_finite_Babs; auto). rewrite B2R_Babs in H. destruct (Rlt_bool_spec (Rabs (B2R x)) (B2R (EPSILON (A := F32 lm) : f32))) as [|L]; [discriminate|].
  intros E. rewrite E, Rabs_R0 in L. lra.
Qed.

Lemma steps_F lm n k (F0 F : nat -> nat -> f32) pi : (k < n)%nat -> perm n pi ->
  (forall i j, (i < n)%nat -> (j < n)%nat -> is_finite (F i j) = true) ->
  steps (A := F32 lm) n k F0 F pi -> lu_err n k (fun i j => B2R (F0 i j)) (fun i j => B2R (F i j)) pi.
Proof.
  revert F pi. induction k as [|k IH]; intros F pi Hk Pp FF St.
  - destruct St as [EF Ep]. intros i j Hi Hj. rewrite Ep, Nat.min_0_r, EF by auto. unfold err_at. cbn [Rsum Nat.leb]. rewrite Rplus_0_l, Rminus_diag_eq, Rabs_R0 by reflexivity. unfold gam. cbn [pow]. lra.
  - destruct St as (F1 & pi1 & P1 & St & (r & Hr & Epi & EP & EF)).
    assert (Pr : forall i, (i < n)%nat -> (pi i < n)%nat) by apply Pp. unfold elim in EF.
    (* the state before the step is finite *)
    assert (Fk : is_finite (F1 (pi k) k) = true).
    { pose proof (FF (pi k) k ltac:(apply Pr; lia) ltac:(lia)) as H. rewrite EF in H by lia. rewrite Nat.ltb_irrefl in H. exact H. }
    pose proof (pivot_nz lm _ Fk EP) as Nz.
    assert (F1i : forall i j, (i < n)%nat -> (j < n)%nat -> is_finite (F1 (pi i) j) = true).
    { intros i j Hi Hj. pose proof (FF (pi i) j ltac:(apply Pr; lia) Hj) as H. rewrite EF in H by lia.
      destruct (k <? i)%nat eqn:Lk; [|exact H]. destruct (Nat.eqb_spec j k) as [->|Nj]; [apply (fin_div _ _ H Nz)|].
      destruct (k <? j)%nat; [|exact H]. apply (sub_err _ _ _ H). }
    assert (FF1 : forall i j, (i < n)%nat -> (j < n)%nat -> is_finite (F1 i j) = true).
    { intros i j Hi Hj. destruct (perm_onto n pi Pp i Hi) as (i' & Hi' & <-). auto. }
    pose proof (IH F1 pi1 ltac:(lia) P1 FF1 St) as Inv. clear IH St.
    set (f := fun i j => B2R (F1 i j)) in *. set (f' := fun i j => B2R (F i j)). set (a := fun i j => B2R (F0 i j)) in *.
    assert (Same : forall i, (i < k)%nat -> pi i = pi1 i).
    { intros i Hi. rewrite Epi by lia. unfold exch. destruct (Nat.eqb_spec i k), (Nat.eqb_spec i r); lia. }
    assert (Inv1 : lu_err n k a f pi).
    { intros i j Hi Hj.
      assert (Ex : exists i1, (i1 < n)%nat /\ pi i = pi1 i1 /\ Nat.min i1 k = Nat.min i k).
      { rewrite Epi by auto. unfold exch. destruct (Nat.eqb_spec i k) as [->|]; [exists r; repeat split; auto; lia|].
        destruct (Nat.eqb_spec i r) as [->|]; [exists k; repeat split; auto; lia|]. exists i; auto. }
      destruct Ex as (i1 & Hi1 & -> & M). pose proof (Inv i1 j Hi1 Hj) as I1. rewrite M in I1.
      rewrite (Rsum_ext _ _ (fun t => f (pi1 i1) t * (if (t <=? j)%nat then f (pi1 t) j else 0))) by (intros t Ht; rewrite Same by lia; reflexivity).
      rewrite (Rsum_ext _ (fun t => amp _ * _) (fun t => amp (f (pi1 i1) t) * (if (t <=? j)%nat then amp (f (pi1 t) j) else 0))) by (intros t Ht; rewrite Same by lia; reflexivity).
      exact I1. }
    clear Inv. 
    assert (Keep : forall i j, (i < n)%nat -> (j < n)%nat -> (i <= k \/ j < k)%nat -> f' (pi i) j = f (pi i) j).
    { intros i j Hi Hj C. unfold f', f. rewrite EF by auto. destruct (Nat.ltb_spec k i); [|reflexivity]. destruct (Nat.eqb_spec j k); [lia|]. destruct (Nat.ltb_spec k j); [lia|reflexivity]. }
    intros i j Hi Hj. pose proof (Inv1 i j Hi Hj) as I1.
    destruct (Nat.le_gt_cases i k) as [L|L].
    + replace (Nat.min i (S k)) with i by lia. replace (Nat.min i k) with i in I1 by lia.
      rewrite (Rsum_ext _ _ (fun t => f (pi i) t * (if (t <=? j)%nat then f (pi t) j else 0))) by (intros t Ht; rewrite !Keep by lia; reflexivity).
      rewrite (Rsum_ext _ (fun t => amp (f' (pi i) t) * _) (fun t => amp (f (pi i) t) * (if (t <=? j)%nat then amp (f (pi t) j) else 0))) by (intros t Ht; rewrite !Keep by lia; reflexivity).
      rewrite Keep by lia. apply err_mono with k; [apply mag_pos|lia|exact I1].
    + replace (Nat.min i (S k)) with (S k) by lia. replace (Nat.min i k) with k in I1 by lia. cbn [Rsum].
      rewrite (Rsum_ext _ (fun t => f' (pi i) t * _) (fun t => f (pi i) t * (if (t <=? j)%nat then f (pi t) j else 0))) by (intros t Ht; rewrite !Keep by lia; reflexivity).
      rewrite (Rsum_ext _ (fun t => amp (f' (pi i) t) * _) (fun t => amp (f (pi i) t) * (if (t <=? j)%nat then amp (f (pi t) j) else 0))) by (intros t Ht; rewrite !Keep by lia; reflexivity).
      rewrite (Keep k j) by lia.
      assert (Fl := FF (pi i) k ltac:(auto) ltac:(lia)). assert (El := EF i k Hi ltac:(lia)). cbv beta in El. rewrite (proj2 (Nat.ltb_lt k i) L), Nat.eqb_refl in El.
      destruct (Nat.lt_trichotomy j k) as [C|[->|C]].
      * destruct (Nat.leb_spec k j); [lia|]. destruct (Nat.leb_spec (S k) j); [lia|]. rewrite !Rmult_0_r, !Rplus_0_r. apply err_mono with k; [apply mag_pos|lia|exact I1].
      * rewrite Nat.leb_refl in *. destruct (Nat.leb_spec (S k) k); [lia|]. apply err_div with (f (pi i) k); [exact I1|apply mag_pos|apply amp_mul|].
        rewrite El in Fl. pose proof (proj2 (div_err _ _ Fl Nz)) as D. cbv zeta in D. unfold f', f. rewrite El. eapply Rle_trans; [exact D|].
        apply Rmult_le_compat_l; [unfold ulp1; lra|]. apply amp_mul_r.
      * destruct (Nat.leb_spec k j); [|lia]. destruct (Nat.leb_spec (S k) j); [|lia]. apply err_sub with (f (pi i) j); [exact I1|apply mag_pos|apply amp_mul|].
        assert (Fv := FF (pi i) j ltac:(auto) ltac:(lia)). assert (Ev := EF i j Hi Hj). cbv beta in Ev. rewrite (proj2 (Nat.ltb_lt k i) L), (proj2 (Nat.ltb_lt k j) C), (proj2 (Nat.eqb_neq j k) ltac:(lia)) in Ev.
        rewrite Ev in Fv. destruct (sub_err _ _ _ Fv) as (_ & _ & _ & D). cbv zeta in D. unfold f', f. rewrite Ev, El. rewrite (Rmult_comm (B2R (fdiv (Arith := F32 lm) (F1 (pi i) k) (F1 (pi k) k)))). exact D.
Qed.

Lemma lu_err_end n a f pi : (1 <= n <= 4)%nat -> lu_err n (n - 1) a f pi ->
  let f' := fun i j => f (pi i) j in forall i j, (i < n)%nat -> (j < n)%nat ->
  Rabs (a (pi i) j - rmul n (ulow f') (upp f') i j) <= gam 3 * Rsum n (fun t => amp (ulow f' i t) * amp (upp f' t j)).
Proof.
  intros Hn H f' i j Hi Hj. specialize (H i j Hi Hj). replace (Nat.min i (n - 1)) with i in H by lia. unfold err_at in H.
  assert (E : rmul n (ulow f') (upp f') i j = Rsum i (fun t => f (pi i) t * (if (t <=? j)%nat then f (pi t) j else 0)) + (if (i <=? j)%nat then f (pi i) j else 0)).
  { unfold rmul. rewrite Rsum_low with (y := fun t => upp f' t j) by auto. rewrite Rplus_comm. reflexivity. }
  rewrite E. eapply Rle_trans; [exact H|]. pose proof (gam_pos (n - 1)).
  assert (M : Rsum i (fun t => amp (f (pi i) t) * (if (t <=? j)%nat then amp (f (pi t) j) else 0)) + Rabs (if (i <=? j)%nat then f (pi i) j else 0) + least <= Rsum n (fun t => amp (ulow f' i t) * amp (upp f' t j))).
  { rewrite (Rsum_split n i) by auto.
    assert (R1 : Rsum i (fun t => amp (f (pi i) t) * (if (t <=? j)%nat then amp (f (pi t) j) else 0)) <= Rsum i (fun t => amp (ulow f' i t) * amp (upp f' t j))).
    { apply Rsum_le. intros t Ht. unfold ulow. destruct (Nat.eqb_spec i t); [lia|]. destruct (Nat.ltb_spec t i); [|lia]. apply Rmult_le_compat_l; [left; apply amp_pos|].
      unfold upp. destruct (t <=? j)%nat; [apply Rle_refl|left; apply amp_pos]. }
    assert (R2 : 0 <= Rsum n (fun t => if (i <? t)%nat then amp (ulow f' i t) * amp (upp f' t j) else 0)).
    { apply Rsum_nonneg. intros t Ht. destruct (i <? t)%nat; [|lra]. apply Rmult_le_pos; left; apply amp_pos. }
    assert (R3 : Rabs (if (i <=? j)%nat then f (pi i) j else 0) + least <= amp (ulow f' i i) * amp (upp f' i j)).
    { unfold ulow. rewrite Nat.eqb_refl. change (Rabs (if (i <=? j)%nat then f (pi i) j else 0) + least) with (amp (upp f' i j)).
      assert (1 <= amp 1) by (unfold amp; rewrite Rabs_R1; pose proof least_pos; lra). pose proof (amp_pos (upp f' i j)). nra. }
    lra. }
  apply Rle_trans with (gam (n - 1) * Rsum n (fun t => amp (ulow f' i t) * amp (upp f' t j))); [apply Rmult_le_compat_l; auto|].
  apply Rmult_le_compat_r; [|apply gam_mono; lia]. apply Rsum_nonneg. intros t Ht. apply Rmult_le_pos; left; apply amp_pos.
Qed.

(** ** substitution *)
Section Solve32.
  Variable lm : Libm.
  Notation F := (F32 lm).
  Variables (n : nat) (mt : Mat (T (Arith := F))) (f : nat -> nat -> f32) (p : Vec nat) (pi : nat -> nat).
  Hypothesis (Hm : mat_is (A := F) mt n n f) (Hp : idx_is p n pi) (Pp : perm n pi).
  Let B i j := B2R (f (pi i) j).
  Definition sub_step32 (row col : nat) : ST (Vec (T (Arith := F))) LinalgError unit :=
    let! xr := reads (fun x => v_get x row) in
    let! i := lift (v_get p row) in
    let! a := lift (m_get mt i col) in
    let! xc := reads (fun x => v_get x col) in
    v_set (A := F) row (fsub (Arith := F) xr (fmul (Arith := F) a xc)).
  Lemma solve_unfold32 b : solve (A := F) mt b p =
    (let? _ := m_guard_square mt in
     let? n := m_get_rows mt in
     exec (
        v_init n ;;!
        for_ (range 0 n) (fun row =>
          let! i := lift (v_get p row) in
          let! bi := lift (v_get b i) in
          v_set (A := F) row bi ;;!
          for_ (range 0 row) (sub_step32 row)) ;;!
        for_ (rev (range 0 n)) (fun row =>
          for_ (range (row + 1) n) (sub_step32 row) ;;!
          let! i := lift (v_get p row) in
          let! d := lift (m_get mt i row) in
          if (fltb (Arith := F) (EPSILON (A := F)) (fabs (Arith := F) d)) then
            let! xr := reads (fun x => v_get x row) in
            v_set (A := F) row (fdiv (Arith := F) xr d)
          else sthrow Unsolvable)) (vnew (A := F))).
  Proof. reflexivity. Qed.
  Let TE (_ : LinalgError) (_ : Vec (T (Arith := F))) := True.
  Lemma sub_step32_wp v (X : nat -> f32) row col (Q : unit -> Vec (T (Arith := F)) -> Prop) :
    vec_is (A := F) v n X -> (row < n)%nat -> (col < n)%nat ->
    (forall v', let y := Bminus mode_NE (X row) (Bmult mode_NE (f (pi row) col) (X col)) in is_finite y = true ->
       vec_is (A := F) v' n (fun k => if (k =? row)%nat then y else X k) -> Q tt v') ->
    wp (sub_step32 row col) v Q TE True.
  Proof.
    intros Hv Hr Hc HQ. unfold sub_step32.
    apply wp_bind, wp_reads. rewrite (vi_get _ _ _ Hv) by auto. cbn [rwp].
    apply wp_bind, wp_lift. rewrite (ix_get _ _ _ Hp) by auto. cbn [rwp].
    apply wp_bind, wp_lift. rewrite (mi_get _ _ _ _ Hm) by (auto; apply Pp; auto). cbn [rwp].
    apply wp_bind, wp_reads. rewrite (vi_get _ _ _ Hv) by auto. cbn [rwp].
    eapply wp_v_set; [exact Hv|auto| |].
    - intros V v' H'. apply (HQ v'); [apply (valid_finite lm), V|]. eapply vec_is_ext; [exact H'|]. intros k Hk. cbv beta. unfold fupd1. destruct (k =? row)%nat; auto.
    - intros; exact I.
  Qed.
  Lemma fin_of v (X : nat -> f32) i : vec_is (A := F) v n X -> (i < n)%nat -> is_finite (X i) = true.
  Proof. intros H Hi. apply (valid_finite lm). eapply vec_is_valid; eauto. Qed.

  Lemma solve32_rwp b (bv : nat -> f32) : vec_is (A := F) b n bv ->
    rwp (solve (A := F) mt b p)
      (fun v => exists (X : nat -> f32) (y : nat -> R), vec_is (A := F) v n X /\
         (forall i, (i < n)%nat -> err_at (B2R (bv (pi i))) (Rsum i (fun t => B i t * y t)) (Rsum i (fun t => amp (B i t) * amp (y t))) (y i) i) /\
         (forall i, (i < n)%nat -> Rabs (y i - Rsum n (fun t => upp B i t * B2R (X t))) <= gam 4 * (Rsum n (fun t => amp (upp B i t) * amp (B2R (X t))) + least)))
      (fun _ => True) True.
  Proof.
    intros Hb. destruct (mat_is_dim _ _ _ _ Hm) as [Dn _].
    rewrite solve_unfold32. rewrite (m_guard_square_is _ _ _ _ Hm), Nat.eqb_refl. cbn [rbind].
    unfold m_get_rows. rewrite (mi_init _ _ _ _ Hm), (mi_rows _ _ _ _ Hm). cbn [negb rbind].
    apply wp_exec, wp_bind, wp_v_init; [exact Dn|]. intros v0 H0.
    apply wp_bind.
    assert (AP : forall k g h, 0 <= Rsum k (fun t => amp (g t) * amp (h t))) by (intros k g h; apply Rsum_nonneg; intros t _; apply Rmult_le_pos; left; apply amp_pos).
    apply wp_for with (I := fun r v => exists X, vec_is (A := F) v n X /\
      forall i, (i < r)%nat -> err_at (B2R (bv (pi i))) (Rsum i (fun t => B i t * B2R (X t))) (Rsum i (fun t => amp (B i t) * amp (B2R (X t)))) (B2R (X i)) i).
    { eexists. split; [exact H0|]. intros; lia. }
    { intros r v Hr (X & Hx & E).
      apply wp_bind, wp_lift. rewrite (ix_get _ _ _ Hp) by lia. cbn [rwp].
      apply wp_bind, wp_lift. rewrite (vi_get _ _ _ Hb) by (apply Pp; lia). cbn [rwp].
      apply wp_bind. eapply wp_v_set; [exact Hx|lia| |intros; exact I]. intros V1 v1 H1.
      apply wp_for with (I := fun c v => exists Z : f32, vec_is (A := F) v n (fun k => if (k =? r)%nat then Z else X k) /\
        err_at (B2R (bv (pi r))) (Rsum c (fun t => B r t * B2R (X t))) (Rsum c (fun t => amp (B r t) * amp (B2R (X t)))) (B2R Z) c).
      - exists (bv (pi r)). split; [eapply vec_is_ext; [exact H1|]; intros i Hi; unfold fupd1; destruct (i =? r)%nat; auto|].
        unfold err_at. cbn [Rsum]. rewrite Rplus_0_l, Rminus_diag_eq, Rabs_R0 by reflexivity. unfold gam. cbn [pow]. lra.
      - intros c v2 Hc (Z & H2 & EZ). eapply sub_step32_wp; [exact H2|lia|lia|]. intros v3 y Fy H3. exists y. split.
        + eapply vec_is_ext; [exact H3|]. intros i Hi. cbv beta. destruct (i =? r)%nat; auto.
        + cbn [Rsum]. apply err_sub with (B2R Z); [exact EZ|apply AP|apply amp_mul|].
          unfold y in *. rewrite Nat.eqb_refl in *. destruct (Nat.eqb_spec c r); [lia|]. destruct (sub_err _ _ _ Fy) as (_ & _ & _ & D). exact D.
      - intros v2 (Z & H2 & EZ). rewrite Nat.max_0_l in EZ. eexists. split; [exact H2|]. intros i Hi. cbv beta.
        rewrite (Rsum_ext i (fun t => B i t * _) (fun t => B i t * B2R (X t))) by (intros t Ht; destruct (Nat.eqb_spec t r); [lia|auto]).
        rewrite (Rsum_ext i (fun t => amp (B i t) * _) (fun t => amp (B i t) * amp (B2R (X t)))) by (intros t Ht; destruct (Nat.eqb_spec t r); [lia|auto]).
        destruct (Nat.eqb_spec i r) as [->|Ne]; [exact EZ|]. apply E. lia. }
    intros v1 (Y & Hy & Ey). rewrite Nat.max_0_l in Ey.
    apply wp_for_rev with (I := fun r v => exists X, vec_is (A := F) v n X /\ (forall i, (i < r)%nat -> X i = Y i) /\
      (forall i, (r <= i < n)%nat -> Rabs (B2R (Y i) - Rsum n (fun t => upp B i t * B2R (X t))) <= gam 4 * (Rsum n (fun t => if (i <=? t)%nat then amp (B i t) * amp (B2R (X t)) else 0) + least))).
    { exists Y. rewrite Nat.max_0_l. conjs; auto; intros; lia. }
    { intros r v Hr (X & Hx & E1 & E3). apply wp_bind.
      apply wp_for with (I := fun c v => exists X' : nat -> f32, vec_is (A := F) v n X' /\ (forall i, i <> r -> (i < n)%nat -> X' i = X i) /\
         err_at (B2R (Y r)) (Rsum c (fun t => if (r <? t)%nat then B r t * B2R (X t) else 0)) (Rsum c (fun t => if (r <? t)%nat then amp (B r t) * amp (B2R (X t)) else 0)) (B2R (X' r)) (c - (r + 1))).
      - exists X. conjs; auto. rewrite !(Rsum_0 (r + 1)) by (intros t Ht; destruct (Nat.ltb_spec r t); [lia|auto]).
        rewrite E1 by lia. unfold err_at. rewrite Rplus_0_l, Rminus_diag_eq, Rabs_R0, Nat.sub_diag by reflexivity. unfold gam. cbn [pow]. lra.
      - intros c v2 Hc (X' & H2 & Ex & Er). eapply sub_step32_wp; [exact H2|lia|lia|]. intros v3 y Fy H3.
        eexists. split; [exact H3|]. cbv beta. rewrite Nat.eqb_refl. split.
        + intros i Hi Hi'. destruct (Nat.eqb_spec i r); [lia|]. auto.
        + replace (S c - (r + 1))%nat with (S (c - (r + 1))) by lia. cbn [Rsum]. destruct (Nat.ltb_spec r c); [|lia].
          apply err_sub with (B2R (X' r)); [exact Er| |apply amp_mul|].
          * apply Rsum_nonneg. intros t Ht. destruct (r <? t)%nat; [|lra]. apply Rmult_le_pos; left; apply amp_pos.
          * destruct (sub_err _ _ _ Fy) as (_ & _ & _ & D). cbv zeta in D. fold y in D. rewrite (Ex c) in D by lia. exact D.
      - intros v2 (X' & H2 & Ex & Er). replace (Nat.max (r + 1) n) with n in Er by lia.
        apply wp_bind, wp_lift. rewrite (ix_get _ _ _ Hp) by lia. cbn [rwp].
        apply wp_bind, wp_lift. rewrite (mi_get _ _ _ _ Hm) by (try apply Pp; lia). cbn [rwp].
        destruct (fltb (Arith := F) (EPSILON (A := F)) (fabs (Arith := F) (f (pi r) r))) eqn:EP.
        2:{ apply wp_sthrow. exact I. }
        assert (Fd : is_finite (f (pi r) r) = true) by (apply (valid_finite lm); eapply mat_is_valid; [exact Hm|apply Pp; lia|lia]).
        assert (Nz : B r r <> 0).
        { destruct (eps32 lm) as [FE [EE _]]. cbn [fltb fabs F32] in EP. rewrite Bltb_ok in EP by (auto; rewrite is_finite_Babs; auto). rewrite B2R_Babs in EP.
          destruct (Rlt_bool_spec (B2R (EPSILON (A := F) : f32)) (Rabs (B2R (f (pi r) r)))) as [L|]; [|discriminate]. intros Z. unfold B in Z. rewrite Z, Rabs_R0 in L. lra. }
        apply wp_bind, wp_reads. rewrite (vi_get _ _ _ H2) by lia. cbn [rwp].
        eapply wp_v_set; [exact H2|lia| |intros; exact I]. intros V3 v3 H3. apply (valid_finite lm) in V3.
        destruct (div_err _ _ V3 Nz) as [_ D]. cbv zeta in D. set (q := fdiv (Arith := F) (X' r) (f (pi r) r)) in *.
        change (Bdiv mode_NE (X' r) (f (pi r) r)) with q in D.
        assert (EW : exists W : nat -> f32, vec_is (A := F) v3 n W /\ W r = q /\ forall t, t <> r -> W t = X' t).
        { exists (fun t : nat => if (t =? r)%nat then (q : f32) else X' t). split; [eapply vec_is_ext; [exact H3|]; intros t Ht; unfold fupd1; destruct (t =? r)%nat; reflexivity|].
          rewrite Nat.eqb_refl. split; [reflexivity|]. intros t Ht. destruct (Nat.eqb_spec t r); [congruence|reflexivity]. }
        destruct EW as (W & HW & Wr & Wo). exists W. split; [exact HW|]. split.
        + intros i Hi. rewrite Wo, Ex by lia. apply E1. lia.
        + intros i Hi.
          assert (S : forall g : nat -> R -> R, Rsum n (fun t => if (i <? t)%nat then g t (B2R (W t)) else 0) = Rsum n (fun t => if (i <? t)%nat then g t (B2R (X t)) else 0)).
          { intros g. apply Rsum_ext. intros t Ht. destruct (Nat.ltb_spec i t); auto. rewrite Wo, Ex by lia. auto. }
          assert (SP : forall g : nat -> R -> R, (forall t, (t < i)%nat -> forall z, g t z = 0) -> forall Z : nat -> f32,
             Rsum n (fun t => g t (B2R (Z t))) = g i (B2R (Z i)) + Rsum n (fun t => if (i <? t)%nat then g t (B2R (Z t)) else 0)).
          { intros g Hg Z. rewrite (Rsum_split n i) by lia. rewrite (Rsum_0 i) by (intros t Ht; apply Hg, Ht). ring. }
          assert (UG : forall t, (t < i)%nat -> forall z, upp B i t * z = 0) by (intros t Ht z; unfold upp; destruct (Nat.leb_spec i t); [lia|ring]).
          rewrite (SP (fun t z => upp B i t * z) UG), (S (fun t z => upp B i t * z)).
          assert (UA : forall t, (t < i)%nat -> forall z, (if (i <=? t)%nat then amp (B i t) * amp z else 0) = 0) by (intros t Ht z; destruct (Nat.leb_spec i t); [lia|ring]).
          rewrite (SP (fun t z => if (i <=? t)%nat then amp (B i t) * amp z else 0) UA), (S (fun t z => if (i <=? t)%nat then amp (B i t) * amp z else 0)). rewrite Nat.leb_refl.
          destruct (Nat.eq_dec i r) as [->|Ne].
          * rewrite Wr. unfold upp at 1. rewrite Nat.leb_refl.
            pose proof (err_div _ _ _ _ _ (B2R q * B r r) (amp (B2R q) * amp (B r r)) Er) as ED.
            assert (M0 : 0 <= Rsum n (fun t => if (r <? t)%nat then amp (B r t) * amp (B2R (X t)) else 0)) by (apply Rsum_nonneg; intros t Ht; destruct (r <? t)%nat; [apply Rmult_le_pos; left; apply amp_pos|lra]).
            specialize (ED M0 (amp_mul _ _)). assert (D' : Rabs (B2R (X' r) - B2R q * B r r) <= ulp1 * (amp (B2R q) * amp (B r r))).
            { eapply Rle_trans; [exact D|]. apply Rmult_le_compat_l; [unfold ulp1; lra|apply amp_mul_r]. }
            specialize (ED D'). apply (err_mono _ _ _ _ _ 4) in ED; [|pose proof (amp_pos (B2R q)); pose proof (amp_pos (B r r)); nra|lia].
            unfold err_at in ED. rewrite Rabs_R0 in ED.
            rewrite (Rsum_ext n (fun t => if (r <? t)%nat then upp B r t * _ else 0) (fun t => if (r <? t)%nat then B r t * B2R (X t) else 0)) by (intros t Ht; destruct (Nat.ltb_spec r t); auto; unfold upp; destruct (Nat.leb_spec r t); [auto|lia]).
            rewrite (Rsum_ext n (fun t => if (r <? t)%nat then (if (r <=? t)%nat then _ else _) else 0) (fun t => if (r <? t)%nat then amp (B r t) * amp (B2R (X t)) else 0)) by (intros t Ht; destruct (Nat.ltb_spec r t); auto; destruct (Nat.leb_spec r t); [auto|lia]).
            match type of ED with Rabs ?x <= gam 4 * ?y => match goal with |- Rabs ?x' <= gam 4 * ?y' => replace x' with x by ring; replace y' with y by ring end end. exact ED.
          * rewrite Wo, Ex by lia. pose proof (E3 i ltac:(lia)) as E4. rewrite (SP (fun t z => upp B i t * z) UG) in E4.
            rewrite (SP (fun t z => if (i <=? t)%nat then amp (B i t) * amp z else 0) UA) in E4. rewrite Nat.leb_refl in E4. exact E4. }
    intros v (X & Hx & _ & E3). exists X, (fun i => B2R (Y i)). split; [exact Hx|]. split; [exact Ey|]. intros i Hi. eapply Rle_trans; [apply E3; lia|].
    apply Rmult_le_compat_l; [apply gam_pos|]. apply Rplus_le_compat_r, Rsum_le. intros t Ht. unfold upp. destruct (i <=? t)%nat; [apply Rle_refl|].
    apply Rmult_le_pos; left; apply amp_pos.
  Qed.
End Solve32.

(** the residual of the two substitutions *)
Lemma lu_residual n a f pi x y bv : (1 <= n <= 4)%nat -> perm n pi ->
  let f' := fun i j => f (pi i) j in
  (forall i j, (i < n)%nat -> (j < n)%nat -> Rabs (a (pi i) j - rmul n (ulow f') (upp f') i j) <= gam 3 * Rsum n (fun t => amp (ulow f' i t) * amp (upp f' t j))) ->
  (forall i, (i < n)%nat -> err_at (bv (pi i)) (Rsum i (fun t => f' i t * y t)) (Rsum i (fun t => amp (f' i t) * amp (y t))) (y i) i) ->
  (forall i, (i < n)%nat -> Rabs (y i - Rsum n (fun t => upp f' i t * x t)) <= gam 4 * (Rsum n (fun t => amp (upp f' i t) * amp (x t)) + least)) ->
  forall i, (i < n)%nat -> Rabs (rmv n a x (pi i) - bv (pi i)) <=
    7 / 10000000 * Rsum n (fun t => amp (ulow f' i t) * (Rsum n (fun j => amp (upp f' t j) * amp (x j)) + least)).
Proof.
  intros Hn Pp f' HA HB HU i Hi. set (L := ulow f'). set (U := upp f'). set (W := fun t => Rsum n (fun j => amp (U t j) * amp (x j)) + least).
  set (G := Rsum n (fun t => amp (L i t) * W t)). change (Rabs (rmv n a x (pi i) - bv (pi i)) <= 7 / 10000000 * G).
  assert (AP : forall k g h, 0 <= Rsum k (fun t => amp (g t) * amp (h t))) by (intros k g h; apply Rsum_nonneg; intros t _; apply Rmult_le_pos; left; apply amp_pos).
  pose proof least_pos as LP. pose proof (gam_pos 3) as G3. pose proof (gam_pos 4) as G4.
  assert (W0 : forall t, 0 < W t) by (intros t; unfold W; pose proof (AP n (fun j => U t j) x); lra).
  assert (G0 : 0 <= G) by (apply Rsum_nonneg; intros t _; apply Rmult_le_pos; left; [apply amp_pos|apply W0]).
  (* the factors *)
  assert (E1 : Rabs (rmv n a x (pi i) - Rsum n (fun j => rmul n L U i j * x j)) <= gam 3 * G).
  { unfold rmv. apply Rle_trans with (Rsum n (fun j => gam 3 * Rsum n (fun t => amp (L i t) * amp (U t j)) * amp (x j))).
    - replace (Rsum n (fun t => a (pi i) t * x t) - Rsum n (fun j => rmul n L U i j * x j)) with (Rsum n (fun j => (a (pi i) j - rmul n L U i j) * x j)).
      + eapply Rle_trans; [apply Rsum_abs|]. apply Rsum_le. intros j Hj. rewrite Rabs_mult. apply Rmult_le_compat; try apply Rabs_pos; [apply HA; auto|apply amp_abs].
      + replace (- Rsum n (fun j => rmul n L U i j * x j)) with (-1 * Rsum n (fun j => rmul n L U i j * x j)) by ring. unfold Rminus at 2. replace (- Rsum n (fun j => rmul n L U i j * x j)) with (-1 * Rsum n (fun j => rmul n L U i j * x j)) by ring. rewrite <- Rsum_scal, <- Rsum_plus. apply Rsum_ext. intros j Hj. ring.
    - rewrite (Rsum_ext n _ (fun j => gam 3 * Rsum n (fun t => amp (L i t) * amp (U t j) * amp (x j)))) by (intros j Hj; rewrite Rsum_scal_r; ring).
      rewrite Rsum_scal. apply Rmult_le_compat_l; [exact G3|]. rewrite Rsum_swap. apply Rsum_le. intros t Ht.
      rewrite (Rsum_ext n _ (fun j => amp (L i t) * (amp (U t j) * amp (x j)))) by (intros j Hj; ring). rewrite Rsum_scal. apply Rmult_le_compat_l; [left; apply amp_pos|]. unfold W. lra. }
  (* back substitution *)
  assert (E2 : Rabs (Rsum n (fun j => rmul n L U i j * x j) - Rsum n (fun t => L i t * y t)) <= gam 4 * G).
  { replace (Rsum n (fun j => rmul n L U i j * x j)) with (Rsum n (fun t => L i t * Rsum n (fun j => U t j * x j))).
    - replace (Rsum n (fun t => L i t * Rsum n (fun j => U t j * x j)) - Rsum n (fun t => L i t * y t)) with (Rsum n (fun t => L i t * -1 * (y t - Rsum n (fun j => U t j * x j)))).
      + unfold G. rewrite <- Rsum_scal. eapply Rle_trans; [apply Rsum_abs|]. apply Rsum_le. intros t Ht. rewrite Rabs_mult.
        replace (gam 4 * (amp (L i t) * W t)) with (amp (L i t) * (gam 4 * W t)) by ring. apply Rmult_le_compat; try apply Rabs_pos.
        * rewrite Rabs_mult. replace (Rabs (-1)) with 1 by (rewrite Rabs_left; lra). rewrite Rmult_1_r. apply amp_abs.
        * apply HU, Ht.
      + unfold Rminus at 2. replace (- Rsum n (fun t => L i t * y t)) with (-1 * Rsum n (fun t => L i t * y t)) by ring. rewrite <- Rsum_scal, <- Rsum_plus. apply Rsum_ext. intros t Ht. ring.
    - rewrite (Rsum_ext n (fun t => L i t * _) (fun t => Rsum n (fun j => L i t * U t j * x j))) by (intros t Ht; rewrite <- Rsum_scal; apply Rsum_ext; intros; ring).
      rewrite Rsum_swap. apply Rsum_ext. intros j Hj. unfold rmul. rewrite <- Rsum_scal_r. reflexivity. }
  (* forward substitution *)
  assert (YW : forall t, (t < n)%nat -> amp (y t) <= (1 + gam 4) * W t).
  { intros t Ht. pose proof (HU t Ht) as H. fold U in H. change (Rsum n (fun j => amp (U t j) * amp (x j)) + least) with (W t) in H.
    assert (S : Rabs (Rsum n (fun j => U t j * x j)) <= Rsum n (fun j => amp (U t j) * amp (x j))) by (eapply Rle_trans; [apply Rsum_abs|]; apply Rsum_le; intros; apply amp_mul).
    unfold amp at 1. replace (y t) with ((y t - Rsum n (fun j => U t j * x j)) + Rsum n (fun j => U t j * x j)) by ring.
    pose proof (Rabs_triang (y t - Rsum n (fun j => U t j * x j)) (Rsum n (fun j => U t j * x j))). assert (Rsum n (fun j => amp (U t j) * amp (x j)) + least = W t) by reflexivity. lra. }
  assert (E3 : Rabs (Rsum n (fun t => L i t * y t) - bv (pi i)) <= gam 3 * (1 + gam 4) * G).
  { unfold L. rewrite Rsum_low by auto. pose proof (HB i Hi) as H. apply (err_mono _ _ _ _ _ 3) in H; [|apply AP|lia]. unfold err_at in H.
    rewrite Rabs_minus_sym. rewrite (Rplus_comm (y i)). eapply Rle_trans; [exact H|]. rewrite Rmult_assoc. apply Rmult_le_compat_l; [exact G3|].
    change (Rsum i (fun t => amp (f' i t) * amp (y t)) + Rabs (y i) + least <= (1 + gam 4) * G). rewrite Rplus_assoc. change (Rabs (y i) + least) with (amp (y i)).
    unfold G. rewrite <- Rsum_scal. rewrite (Rsum_split n i) by auto.
    assert (R1 : Rsum i (fun t => amp (f' i t) * amp (y t)) <= Rsum i (fun t => (1 + gam 4) * (amp (L i t) * W t))).
    { apply Rsum_le. intros t Ht. unfold L, ulow. destruct (Nat.eqb_spec i t); [lia|]. destruct (Nat.ltb_spec t i); [|lia].
      replace ((1 + gam 4) * (amp (f' i t) * W t)) with (amp (f' i t) * ((1 + gam 4) * W t)) by ring. apply Rmult_le_compat_l; [left; apply amp_pos|apply YW; lia]. }
    assert (R2 : 0 <= Rsum n (fun t => if (i <? t)%nat then (1 + gam 4) * (amp (L i t) * W t) else 0)).
    { apply Rsum_nonneg. intros t Ht. destruct (i <? t)%nat; [|lra]. apply Rmult_le_pos; [lra|]. apply Rmult_le_pos; left; [apply amp_pos|apply W0]. }
    assert (R3 : amp (y i) <= (1 + gam 4) * (amp (L i i) * W i)).
    { eapply Rle_trans; [apply YW, Hi|]. apply Rmult_le_compat_l; [lra|]. unfold L, ulow. rewrite Nat.eqb_refl. assert (1 <= amp 1) by (unfold amp; rewrite Rabs_R1; lra). pose proof (W0 i). nra. }
    lra. }
  replace (rmv n a x (pi i) - bv (pi i)) with ((rmv n a x (pi i) - Rsum n (fun j => rmul n L U i j * x j)) + (Rsum n (fun j => rmul n L U i j * x j) - Rsum n (fun t => L i t * y t)) + (Rsum n (fun t => L i t * y t) - bv (pi i))) by ring.
  eapply Rle_trans; [apply Rabs_triang|]. eapply Rle_trans; [apply Rplus_le_compat_r, Rabs_triang|].
  apply Rle_trans with ((gam 3 + gam 4 + gam 3 * (1 + gam 4)) * G); [lra|]. apply Rmult_le_compat_r; [exact G0|]. pose proof gam_3. pose proof gam_4. nra.
Qed.

(*@ C68_factors *)
(** C68: whenever [lup] of an n x n f32 matrix succeeds, the rows of A in the order [pi] are L U up to 2e-7 times the
    product of the magnitudes of L and U *)
Lemma l_lup32 :
  forall (lm : Libm) (m lu : Mat (T (Arith := F32 lm))) (p : Vec nat) (n : nat) (a : nat -> nat -> R),
  mat_f m n n a -> lup m = Ok (lu, p) ->
  exists f pi, mat_f lu n n f /\ idx_is p n pi /\ perm n pi /\
    let f' := fun i j => f (pi i) j in forall i j, (i < n)%nat -> (j < n)%nat ->
    Rabs (a (pi i) j - rmul n (ulow f') (upp f') i j) <= 2 / 10000000 * Rsum n (fun t => amp (ulow f' i t) * amp (upp f' t j)).
Proof.
  intros lm m lu p n a (F0 & Hm & Ea) E. pose proof (lup_wp (A := F32 lm) m n F0 Hm) as W. rewrite E in W. cbn [rwp fst snd] in W.
  destruct W as (F & pi & (H1 & H2 & Pp) & St). destruct (mat_is_dim _ _ _ _ Hm) as [Dn _]. cbn [fst snd] in *.
  assert (FF : forall i j, (i < n)%nat -> (j < n)%nat -> is_finite (F i j : f32) = true) by (intros i j Hi Hj; apply (valid_finite lm); eapply mat_is_valid; eauto).
  pose proof (steps_F lm n (n - 1) F0 F pi ltac:(lia) Pp FF St) as I.
  exists (fun i j => B2R (F i j : f32)), pi. split; [exists F; split; [exact H1|reflexivity]|]. split; [exact H2|]. split; [exact Pp|].
  cbv zeta. intros i j Hi Hj. rewrite <- Ea by (auto; apply Pp, Hi). eapply Rle_trans; [apply (lu_err_end n _ _ pi Dn I i j Hi Hj)|].
  apply Rmult_le_compat_r; [|pose proof gam_3; lra]. apply Rsum_nonneg. intros t Ht. apply Rmult_le_pos; left; apply amp_pos.
Qed.

(*@ C68_solve *)
(** C68: whenever [lup] and [solve] succeed on an n x n f32 system, the result solves the system up to a residual of 7e-7
    times the product of the magnitudes of L, U and x *)
Lemma l_solve32 :
  forall (lm : Libm) (m lu : Mat (T (Arith := F32 lm))) (b v : Vec (T (Arith := F32 lm))) (p : Vec nat) (n : nat) (a : nat -> nat -> R) (bv : nat -> R),
  mat_f m n n a -> vec_f b n bv -> lup m = Ok (lu, p) -> solve lu b p = Ok v ->
  exists f pi x, mat_f lu n n f /\ idx_is p n pi /\ perm n pi /\ vec_f v n x /\
    let f' := fun i j => f (pi i) j in forall i, (i < n)%nat ->
    Rabs (rmv n a x (pi i) - bv (pi i)) <=
      7 / 10000000 * Rsum n (fun t => amp (ulow f' i t) * (Rsum n (fun j => amp (upp f' t j) * amp (x j)) + least)).
Proof.
  intros lm m lu b v p n a bv (F0 & Hm & Ea) (Fb & Hb & Eb) E ES. pose proof (lup_wp (A := F32 lm) m n F0 Hm) as W. rewrite E in W. cbn [rwp fst snd] in W.
  destruct W as (F & pi & (H1 & H2 & Pp) & St). destruct (mat_is_dim _ _ _ _ Hm) as [Dn _]. cbn [fst snd] in *.
  assert (FF : forall i j, (i < n)%nat -> (j < n)%nat -> is_finite (F i j : f32) = true) by (intros i j Hi Hj; apply (valid_finite lm); eapply mat_is_valid; eauto).
  pose proof (steps_F lm n (n - 1) F0 F pi ltac:(lia) Pp FF St) as I.
  pose proof (solve32_rwp lm n lu F p pi H1 H2 Pp b Fb Hb) as S. rewrite ES in S. cbn [rwp] in S. destruct S as (X & y & Hx & S1 & S2).
  exists (fun i j => B2R (F i j : f32)), pi, (fun i => B2R (X i)). split; [exists F; split; [exact H1|reflexivity]|]. split; [exact H2|]. split; [exact Pp|].
  split; [exists X; split; [exact Hx|reflexivity]|]. cbv zeta. intros i Hi.
  assert (RA : forall x i, (i < n)%nat -> rmv n a x (pi i) = rmv n (fun i j => B2R (F0 i j : f32)) x (pi i)) by (intros x k Hk; unfold rmv; apply Rsum_ext; intros t Ht; rewrite Ea; auto; apply Pp, Hk).
  rewrite RA by auto. rewrite <- Eb by (apply Pp, Hi).
  exact (lu_residual n _ (fun i j => B2R (F i j : f32)) pi (fun i => B2R (X i)) y (fun i => B2R (Fb i : f32)) Dn Pp (lu_err_end n _ _ pi Dn I) S1 S2 i Hi).
Qed.

(** ** integer matrices, for the examples *)
Lemma fmat_is lm (r c : nat) (l : list f32) : (1 <= r <= 4)%nat -> (1 <= c <= 4)%nat -> length l = (r * c)%nat -> Forall (fun x => is_finite x = true) l ->
  mat_is (A := F32 lm) (mk_mat (A := F32 lm) r c l) r c (fun i j => nth (i * c + j) l (B754_zero false)).
Proof.
  intros Hr Hc Hl Fl. assert (r * c <= 16)%nat by nia. assert (Hl' : @length (T (Arith := F32 lm)) l = (r * c)%nat) by exact Hl. split.
  - split; cbn [mk_mat m_rows m_cols m_elems m_initialized]; try lia.
    + rewrite app_length, repeat_length. lia.
    + apply Forall_app. split.
      * eapply Forall_impl; [|exact Fl]. intros x Hx. apply (valid_finite lm). exact Hx.
      * apply Forall_forall. intros x Hx. apply repeat_spec in Hx. subst. split; reflexivity.
  - reflexivity.
  - reflexivity.
  - reflexivity.
  - intros i j Hi Hj. unfold m_get, is_valid_row, is_valid_col, mk_mat.
    cbn [m_initialized m_rows m_cols m_elems negb].
    destruct (Nat.leb_spec r i); [lia|]. cbn [rbind negb]. destruct (Nat.leb_spec c j); [lia|]. cbn [rbind negb].
    unfold arr_get. assert (i * c + j < r * c)%nat by nia.
    rewrite nth_error_app1 by lia. rewrite (nth_error_nth' _ (B754_zero false : f32)) by lia. reflexivity.
Qed.
Lemma mat_z lm (r c : nat) (l : list Z) : (1 <= r <= 4)%nat -> (1 <= c <= 4)%nat -> length l = (r * c)%nat -> Forall (fun z => (Z.abs z <= 2 ^ 24)%Z) l ->
  mat_f (lm := lm) (mk_mat (A := F32 lm) r c (map z32 l)) r c (fun i j => IZR (nth (i * c + j) l 0%Z)).
Proof.
  intros Hr Hc Hl Fl. eexists. split.
  - apply (fmat_is lm); auto; [rewrite map_length; auto|]. apply Forall_forall. intros x Hx. apply in_map_iff in Hx. destruct Hx as (z & <- & Hz). rewrite Forall_forall in Fl. apply z32_R, Fl, Hz.
  - intros i j Hi Hj. cbv beta. rewrite nth_indep with (d' := z32 0) by (rewrite map_length; nia). rewrite map_nth. apply z32_R. rewrite Forall_forall in Fl. apply Fl, nth_In. nia.
Qed.
Lemma vec_z lm (l : list Z) : (1 <= length l <= 4)%nat -> Forall (fun z => (Z.abs z <= 2 ^ 24)%Z) l ->
  vec_f (lm := lm) (mk_vec (A := F32 lm) (map z32 l)) (length l) (fun i => IZR (nth i l 0%Z)).
Proof.
  intros Hl Fl. exists (fun i => nth i (map z32 l) (B754_zero false)). split.
  - rewrite <- (map_length z32 l) at 1. apply (fvec_is lm); [rewrite map_length; auto|]. apply Forall_forall. intros x Hx. apply in_map_iff in Hx. destruct Hx as (z & <- & Hz). rewrite Forall_forall in Fl. apply z32_R, Fl, Hz.
  - intros i Hi. cbv beta. rewrite nth_indep with (d' := z32 0) by (rewrite map_length; lia). rewrite map_nth. apply z32_R. rewrite Forall_forall in Fl. apply Fl, nth_In, Hi.
Qed.
Definition ex_m : list Z := [1; 2; 3; 2; 4; 8; 4; 2; 0]%Z.

(*@ example *)
Example C68_example :
  let A := F32 lm_id in
  let m := mk_mat (A := A) 3 3 (map z32 ex_m) in let b := mk_vec (A := A) (map z32 [2; 2; 8]%Z) in
  mat_f (lm := lm_id) m 3 3 (fun i j => IZR (nth (i * 3 + j) ex_m 0%Z)) /\
  vec_f (lm := lm_id) b 3 (fun i => IZR (nth i [2; 2; 8]%Z 0%Z)) /\
  rmap (fun s => rmap show_v (solve (fst s) b (snd s))) (lup m) = Ok (Ok (3%nat, true, map sf [1; 2; -1]%Z)) /\
  snd (shown show_m (m_invert m)) = Ok tt.
Proof.
  cbv zeta. split; [apply mat_z; try lia; [reflexivity|repeat constructor; cbn; lia]|].
  split; [apply (vec_z lm_id [2; 2; 8]%Z); [cbn; lia|repeat constructor; cbn; lia]|]. split; [vm_compute; reflexivity|].
  vm_compute. reflexivity.
Qed.

(** ** the inverse, column by column *)
Section Inv.
  Context {A : Arith} {OK : ArithOk A}.
  Local Open Scope nat_scope.
  Lemma invert_gen m n (F0 : nat -> nat -> T) (P : (nat -> T) -> (nat -> T) -> Prop) : mat_is m n n F0 ->
    (forall lu p b bv, lup m = Ok (lu, p) -> vec_is b n bv ->
       rwp (solve lu b p) (fun v => exists X, vec_is v n X /\ P bv X) (fun _ => True) True) ->
    wp m_invert m
      (fun _ m' => exists X, mat_is m' n n (fun i j => X j i) /\
         (exists lu p, lup m = Ok (lu, p)) /\
         forall r, r < n -> exists bv, (forall k, k < n -> bv k = if k =? r then f1 else f0) /\ P bv (X r))
      (fun _ _ => True) True.
  Proof.
    intros Hm HS. destruct (mat_is_dim _ _ _ _ Hm) as [Dn _].
    eapply wp_fold; [unfold m_invert; reflexivity|].
    apply wp_bind, wp_reads. rewrite (m_guard_square_is _ _ _ _ Hm), Nat.eqb_refl. cbn [rwp].
    apply wp_bind, wp_lift. rewrite (mi_rows _ _ _ _ Hm), (mi_cols _ _ _ _ Hm).
    destruct (v_init_new n Dn) as (tv & Et & Ht). unfold exec at 1. rewrite Et. cbn [rwp].
    apply wp_bind, wp_lift. unfold to_not_inversible at 1. apply rwp_map_err.
    destruct (lup m) as [[lu p]|e|] eqn:EL; cbn [rwp]; auto. apply wp_bind. apply wp_local.
    apply wp_for with (I := fun i s => exists X, mat_is (fst s) n n (fun r c => if (r <? i)%nat then X r c else F0 r c) /\
       vec_is (snd s) n (fun _ => f0) /\
       (forall r, r < i -> exists bv, (forall k, k < n -> bv k = if k =? r then f1 else f0) /\ P bv (X r))).
    - exists F0. cbn [fst snd]. split; [exact Hm|]. split; [exact Ht|]. intros; lia.
    - intros i [g v] Hi (X & Hg & Hv & EX). cbn [fst snd] in *.
      apply wp_bind. unfold on_tmp at 1. apply wp_zoom. cbn [snd].
      eapply wp_v_set; [exact Hv|lia| |auto]. intros _ v1 Hv1. cbn [fst snd].
      apply wp_bind, wp_reads. unfold to_not_inversible. apply rwp_map_err. cbn [snd].
      eapply rwp_conseq; [eapply HS; [reflexivity|exact Hv1]| |auto|auto].
      intros xv (x & Hx & Px). apply wp_bind.
      apply wp_for with (I := fun c s => mat_is (fst s) n n (fun r k => if (r <? i)%nat then X r k else if (r =? i)%nat && (k <? c)%nat then x k else F0 r k)
        /\ snd s = v1).
      + cbn [fst snd]. split; auto. eapply mat_is_ext; [exact Hg|]. intros r k Hr Hk. cbv beta.
        destruct (Nat.ltb_spec k 0); [lia|]. rewrite andb_false_r. reflexivity.
      + intros c [g1 w] Hc (Hg1 & Ew). cbn [fst snd] in *. subst w.
        apply wp_bind, wp_lift. rewrite (vi_get _ _ _ Hx) by lia. cbn [rwp].
        unfold on_self. apply wp_zoom. cbn [fst snd].
        eapply wp_m_set; [exact Hg1|lia|lia| |auto]. intros _ g2 Hg2. split; auto. cbn [fst]. eapply mat_is_ext; [exact Hg2|]. intros r k Hr Hk. cbv beta. unfold fupd2.
        destruct (Nat.ltb_spec r i), (Nat.eqb_spec r i), (Nat.eqb_spec k c), (Nat.ltb_spec k c), (Nat.ltb_spec k (S c)); cbn [andb]; subst; auto; lia.
      + rewrite Nat.max_0_l. intros [g1 w] (Hg1 & Ew). cbn [fst snd] in *. subst w.
        unfold on_tmp. apply wp_zoom. cbn [snd fst]. eapply wp_v_set; [exact Hv1|lia| |auto]. intros _ v2 Hv2.
        exists (fun r k => if (r =? i)%nat then x k else X r k). cbn [fst snd]. split; [|split].
        * eapply mat_is_ext; [exact Hg1|]. intros r k Hr Hk. cbv beta.
          destruct (Nat.ltb_spec r i), (Nat.eqb_spec r i), (Nat.ltb_spec r (S i)), (Nat.ltb_spec k n); cbn [andb]; subst; auto; lia.
        * eapply vec_is_ext; [exact Hv2|]. intros k Hk. cbv beta. unfold fupd1. destruct (Nat.eqb_spec k i); auto.
        * intros r Hr. destruct (Nat.eqb_spec r i) as [->|Ne].
          -- eexists. split; [|exact Px]. intros k Hk. reflexivity.
          -- apply EX. lia.
    - rewrite Nat.max_0_l. intros [g v] (X & Hg & Hv & EX). cbn [fst snd] in *.
      destruct (m_transpose_ok g n n _ Hg) as (g' & Eg & Hg'). unfold wp. rewrite Eg.
      exists X. split; [|split; [eauto|exact EX]].
      eapply mat_is_ext; [exact Hg'|]. intros i j Hi Hj. cbv beta. destruct (Nat.ltb_spec j n); [auto|lia].
  Qed.
End Inv.

(*@ C68_inverse *)
(** C68: whenever [invert] of an n x n f32 matrix succeeds, so does [lup], and A times the result is the identity up to
    7e-7 times the product of the magnitudes of L, U and the result *)
Lemma l_invert32 :
  forall (lm : Libm) (m m' : Mat (T (Arith := F32 lm))) (n : nat) (a : nat -> nat -> R),
  mat_f m n n a -> m_invert m = (m', Ok tt) ->
  exists lu p f pi x, lup m = Ok (lu, p) /\ mat_f lu n n f /\ idx_is p n pi /\ perm n pi /\ mat_f m' n n x /\
    let f' := fun i j => f (pi i) j in forall i j, (i < n)%nat -> (j < n)%nat ->
    Rabs (rmul n a x (pi i) j - rid (pi i) j) <=
      7 / 10000000 * Rsum n (fun t => amp (ulow f' i t) * (Rsum n (fun k => amp (upp f' t k) * amp (x k j)) + least)).
Proof.
  intros lm m m' n a (F0 & Hm & Ea) E. destruct (mat_is_dim _ _ _ _ Hm) as [Dn _].
  pose proof (lup_wp (A := F32 lm) m n F0 Hm) as WL.
  assert (EL : exists s, lup m = Ok s).
  { destruct (lup m) as [s|e|] eqn:EL; [eauto| |];
      (pose proof (invert_gen (A := F32 lm) m n F0 (fun _ _ => True) Hm ltac:(intros; congruence)) as W; unfold wp in W; rewrite E in W; destruct W as (_ & _ & (lu & p & EL') & _); congruence). }
  destruct EL as [[lu p] EL]. rewrite EL in WL. cbn [rwp fst snd] in WL. destruct WL as (F & pi & (H1 & H2 & Pp) & St). cbn [fst snd] in *.
  pose (P := fun (bv X : nat -> T (Arith := F32 lm)) => exists y,
     (forall i, (i < n)%nat -> err_at (B2R (bv (pi i) : f32)) (Rsum i (fun t => B2R (F (pi i) t : f32) * y t)) (Rsum i (fun t => amp (B2R (F (pi i) t : f32)) * amp (y t))) (y i) i) /\
     (forall i, (i < n)%nat -> Rabs (y i - Rsum n (fun t => upp (fun i j => B2R (F (pi i) j : f32)) i t * B2R (X t : f32))) <= gam 4 * (Rsum n (fun t => amp (upp (fun i j => B2R (F (pi i) j : f32)) i t) * amp (B2R (X t : f32))) + least))).
  pose proof (invert_gen (A := F32 lm) m n F0 P Hm) as W.
  assert (HS : forall lu p b bv, lup m = Ok (lu, p) -> vec_is b n bv -> rwp (solve lu b p) (fun v => exists X, vec_is v n X /\ P bv X) (fun _ => True) True).
  { intros lu1 p1 b bv EL1 Hb. rewrite EL in EL1. injection EL1 as <- <-.
    eapply rwp_conseq; [exact (solve32_rwp lm n lu F p pi H1 H2 Pp b bv Hb)| |auto|auto].
    intros v (X & y & HX & S1 & S2). exists X. split; [exact HX|]. exists y. auto. }
  specialize (W HS). unfold wp in W. rewrite E in W. destruct W as (X & HX & _ & EX). clear HS.
  assert (FF : forall i j, (i < n)%nat -> (j < n)%nat -> is_finite (F i j : f32) = true) by (intros i j Hi Hj; apply (valid_finite lm); eapply mat_is_valid; eauto).
  pose proof (steps_F lm n (n - 1) F0 F pi ltac:(lia) Pp FF St) as I.
  exists lu, p, (fun i j => B2R (F i j : f32)), pi, (fun i j => B2R (X j i : f32)). split; [exact EL|]. split; [exists F; split; [exact H1|reflexivity]|]. split; [exact H2|]. split; [exact Pp|].
  split; [eexists; split; [exact HX|reflexivity]|]. cbv zeta. intros i j Hi Hj.
  destruct (EX j Hj) as (bv & Eb & y & S1 & S2).
  pose proof (lu_residual n _ (fun i j => B2R (F i j : f32)) pi (fun i => B2R (X j i : f32)) y (fun i => B2R (bv i : f32)) Dn Pp (lu_err_end n _ _ pi Dn I) S1 S2 i Hi) as R.
  cbv zeta beta in R. replace (rmul n a (fun i j => B2R (X j i : f32)) (pi i) j) with (rmv n (fun i j => B2R (F0 i j : f32)) (fun i => B2R (X j i : f32)) (pi i)).
  - replace (rid (pi i) j) with (B2R (bv (pi i) : f32)); [exact R|]. rewrite Eb by (apply Pp, Hi). unfold rid. destruct (pi i =? j)%nat; [apply (z32_R 1); lia|reflexivity].
  - unfold rmul, rmv. apply Rsum_ext. intros t Ht. rewrite Ea; auto. apply Pp, Hi.
Qed.

(** ** how far the bound can be from small *)
Lemma get_nth {X} (v : Vec X) i x d : v_get v i = Ok x -> (i < v_rows v)%nat /\ (i < length (v_elems v))%nat /\ nth i (v_elems v) d = x.
Proof.
  unfold v_get, is_valid_row. destruct (v_initialized v); cbn [negb]; [|discriminate]. destruct (Nat.leb_spec (v_rows v) i); cbn; [discriminate|].
  unfold arr_get. destruct (nth_error (v_elems v) i) eqn:N; cbn; [|discriminate]. intros G. injection G as <-.
  split; [assumption|]. split; [apply nth_error_Some; congruence|apply nth_error_nth, N].
Qed.
Lemma nth_firstn_lt {X} (l : list X) k i d : (i < k)%nat -> nth i (firstn k l) d = nth i l d.
Proof. revert k i. induction l as [|x l IH]; intros [|k] i H; try lia; [destruct i; reflexivity|]. destruct i as [|i]; [reflexivity|]. cbn. apply IH. lia. Qed.
Lemma show_nth lm v n (f : nat -> f32) l : vec_is (A := F32 lm) v n f -> show_v v = (n, true, l) ->
  forall i, (i < n)%nat -> B2R (f i) = SF2R radix2 (nth i l S754_nan).
Proof.
  intros Hv E i Hi. unfold show_v in E. injection E as E1 E2 E3.
  destruct (get_nth v i _ (B754_nan : f32) (vi_get _ _ _ Hv i Hi)) as (K1 & K2 & K3). rewrite <- E3.
  change S754_nan with (B2SF (B754_nan : f32)). rewrite map_nth, SF2R_B2SF. f_equal.
  etransitivity; [symmetry; exact K3|]. symmetry. apply nth_firstn_lt. lia.
Qed.
Definition badm : list Z := [1; 2 ^ 24; - 2 ^ 24; 2 ^ 24]%Z.

(*@ C68_solve_refuted *)
(** C68, violation: the residual need not be small against the matrix and the solution, because the pivot search compares
    signed values. On the well conditioned system x + K y = 1, - K x + K y = 0 with K = 2^24, whose solution is
    x = y = 1/(K + 1), [solve] returns x = 0, y = 1/K: the second equation reads 1 = 0 *)
Lemma l_solve32_refuted :
  forall lm : Libm, exists (m lu : Mat (T (Arith := F32 lm))) (p : Vec nat) (b v : Vec (T (Arith := F32 lm))) (a g : nat -> nat -> R) (bv x : nat -> R),
  mat_f m 2 2 a /\ vec_f b 2 bv /\
  req 2 2 (rmul 2 a g) rid /\ (forall i j k l, (i < 2)%nat -> (j < 2)%nat -> (k < 2)%nat -> (l < 2)%nat -> Rabs (g i j) * Rabs (a k l) <= 1) /\
  lup m = Ok (lu, p) /\ solve lu b p = Ok v /\ vec_f v 2 x /\
  rmv 2 g bv 0 = / 16777217 /\ rmv 2 g bv 1 = / 16777217 /\ x 0%nat = 0 /\ x 1%nat = / 16777216 /\
  bv 1%nat = 0 /\ rmv 2 a x 1 = 1.
Proof.
  intros lm. set (m := mk_mat (A := F32 lm) 2 2 (map z32 badm)). set (b := mk_vec (A := F32 lm) (map z32 [1; 0]%Z)).
  assert (Hm : mat_f (lm := lm) m 2 2 (fun i j => IZR (nth (i * 2 + j) badm 0%Z))) by (apply mat_z; try lia; [reflexivity|repeat constructor; cbn; lia]).
  assert (Hb : vec_f (lm := lm) b 2 (fun i => IZR (nth i [1; 0]%Z 0%Z))) by (apply (vec_z lm [1; 0]%Z); [cbn; lia|repeat constructor; cbn; lia]).
  assert (C : rmap (fun s => rmap show_v (solve (fst s) b (snd s))) (lup m) = Ok (Ok (2%nat, true, [sf 0; S754_finite false 8388608 (-47)]))) by (vm_compute; reflexivity).
  destruct (lup m) as [[lu p]|e|] eqn:EL; [|discriminate|discriminate]. unfold rmap in C. cbn [fst snd rbind] in C.
  destruct (solve lu b p) as [v|e|] eqn:ES; [|discriminate|discriminate].
  assert (SV : show_v v = (2%nat, true, [sf 0; S754_finite false 8388608 (-47)])) by congruence. clear C.
  destruct (l_solve32 lm m lu b v p 2 _ _ Hm Hb EL ES) as (f & pi & x & _ & _ & _ & (X & HX & Ex) & _).
  assert (X0 : x 0%nat = 0) by (rewrite <- Ex by lia; rewrite (show_nth lm v 2 X _ HX SV) by lia; reflexivity).
  assert (X1 : x 1%nat = / 16777216).
  { rewrite <- Ex by lia. rewrite (show_nth lm v 2 X _ HX SV) by lia. cbn [nth SF2R]. unfold F2R. cbn [Fnum Fexp cond_Zopp]. change (bpow radix2 (-47)) with (/ 140737488355328). lra. }
  exists m, lu, p, b, v, (fun i j => IZR (nth (i * 2 + j) badm 0%Z)),
    (fun i j => IZR (nth (i * 2 + j) [2 ^ 24; - 2 ^ 24; 2 ^ 24; 1]%Z 0%Z) / (16777216 * 16777217)), (fun i => IZR (nth i [1; 0]%Z 0%Z)), x.
  assert (N1 : forall n, (n < 2)%nat -> n = 0%nat \/ n = 1%nat) by (intros; lia).
  split; [exact Hm|]. split; [exact Hb|]. split; [|split].
  - intros i j Hi Hj. unfold rmul, rid. destruct (N1 i Hi) as [->| ->], (N1 j Hj) as [->| ->]; cbn -[IZR]; field.
  - intros i j k l Hi Hj Hk Hl.
    assert (G : Rabs (IZR (nth (i * 2 + j) [2 ^ 24; - 2 ^ 24; 2 ^ 24; 1]%Z 0%Z)) <= 16777216) by (rewrite <- abs_IZR; apply IZR_le; destruct (N1 i Hi) as [->| ->], (N1 j Hj) as [->| ->]; cbn; lia).
    assert (B : Rabs (IZR (nth (k * 2 + l) badm 0%Z)) <= 16777216) by (rewrite <- abs_IZR; apply IZR_le; destruct (N1 k Hk) as [->| ->], (N1 l Hl) as [->| ->]; cbn; lia).
    unfold Rdiv. rewrite Rabs_mult. rewrite (Rabs_pos_eq (/ (16777216 * 16777217))) by (left; apply Rinv_0_lt_compat; lra).
    pose proof (Rmult_le_compat _ _ _ _ (Rabs_pos _) (Rabs_pos _) G B) as GB.
    apply Rle_trans with (16777216 * 16777216 * / (16777216 * 16777217)); [|lra].
    rewrite Rmult_assoc, (Rmult_comm (/ _)), <- Rmult_assoc. apply Rmult_le_compat_r; [lra|exact GB].
  - split; [exact EL|]. split; [exact ES|]. split; [exists X; split; [exact HX|exact Ex]|].
    unfold rmv. split; [cbn -[IZR]; field|]. split; [cbn -[IZR]; field|]. split; [exact X0|]. split; [exact X1|]. split; [reflexivity|].
    cbn [Rsum]. rewrite X0, X1. cbn -[IZR]. field.
Qed.
