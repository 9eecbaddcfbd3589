(** C86: determinants in f32. *)
(*@+*)
From Coq Require Import List Arith ZArith NArith Reals Lia Bool Lra SpecFloat.
From Flocq Require Import Core BinarySingleNaN.
From Verif Require Import M_Base M_Arith M_Utils M_Vector M_Matrix M_F32 S_Spec S_Linalg S_Norm S_Lu S_Lu32 S_F32 S_Det32 P_Inst P_InstF.
Import ListNotations.
Local Open Scope R_scope.
(*@-*)
From Coq Require Import Psatz.
From Verif Require Import P_Hoare P_Cont P_Float P_Product P_Norm P_FErr P_Norm32 P_FAcc P_Lup P_Det P_Lup32 P_Inv32 P_Recog.

Definition X20 : R := bpow radix2 20.
Lemma X20_val : X20 = 1048576. Proof. reflexivity. Qed.
Definition mulR (g : nat -> R) (l : list nat) (x : R) : R := fold_left (fun acc r => acc * g r) l x.
Lemma mulR_S g l r x : mulR g (l ++ [r]) x = mulR g l x * g r.
Proof. unfold mulR. rewrite fold_left_app. reflexivity. Qed.
Lemma mulR_abs g l : Rabs (mulR g l 1) = mulR (fun r => Rabs (g r)) l 1.
Proof. induction l as [|r l IH] using rev_ind; [cbn; apply Rabs_R1|]. rewrite !mulR_S, Rabs_mult, IH. reflexivity. Qed.

(** the powers of 2^20 used below *)
Lemma pow20 k : (k <= 5)%nat -> 1 <= X20 ^ k <= huge / 1000000.
Proof.
  intros H. split; [apply pow_R1_Rle; rewrite X20_val; lra|]. apply Rle_trans with (X20 ^ 5); [apply Rle_pow; [rewrite X20_val; lra|exact H]|].
  unfold X20. replace (bpow radix2 20 ^ 5) with (bpow radix2 100) by (change 100%Z with (20 + (20 + (20 + (20 + 20))))%Z; rewrite !bpow_plus; ring).
  assert (E : huge = bpow radix2 20 * bpow radix2 100) by (unfold huge; rewrite <- bpow_plus; reflexivity). rewrite E. change (bpow radix2 20) with 1048576. pose proof (bpow_gt_0 radix2 100). lra.
Qed.

(** a product of at most four factors *)
Lemma fprod_acc (g : nat -> f32) (o : f32) (l : list nat) : is_finite o = true -> B2R o = 1 -> (length l <= 4)%nat ->
  (forall r, In r l -> is_finite (g r) = true /\ Rabs (B2R (g r)) <= X20) ->
  let p := fold_left (fun acc r => Bmult mode_NE acc (g r)) l o in let P := mulR (fun r => B2R (g r)) l 1 in
  is_finite p = true /\ Rabs P <= X20 ^ length l /\ Rabs (B2R p - P) <= INR (length l) * (1001 / 1000) * u * Rabs P + 2 * INR (length l) * eta * X20 ^ length l.
Proof.
  intros Fo Eo. assert (U : u = 1 / 16777216) by reflexivity. pose proof eta_1 as [E0 E1]. pose proof X20_val as XV.
  induction l as [|r l IH] using rev_ind; intros L H p P; [cbn in p, P; subst p P; cbn [length INR pow]; rewrite Eo, Rminus_diag_eq, Rabs_R0, Rabs_R1 by reflexivity; repeat split; [exact Fo|lra|lra]|].
  rewrite app_length in *. cbn [length] in *.
  destruct IH as (F & B & D); [lia|intros q Hq; apply H, in_or_app; auto|]. destruct (H r) as [Fr Br]; [apply in_or_app; right; left; reflexivity|].
  subst p P. rewrite fold_left_app, mulR_S. cbn [fold_left]. set (p := fold_left (fun acc r => Bmult mode_NE acc (g r)) l o) in *. set (P := mulR (fun r => B2R (g r)) l 1) in *. set (k := length l) in *.
  replace (k + 1)%nat with (S k) by lia. rewrite S_INR. cbn [pow]. assert (K0 : 0 <= INR k) by apply pos_INR. assert (K3 : INR k <= 3) by (replace 3 with (INR 3) by (cbn; lra); apply le_INR; lia).
  destruct (pow20 k ltac:(lia)) as [W0 W1]. destruct (pow20 (S k) ltac:(lia)) as [W2 W3]. cbn [pow] in W2, W3. set (Y := X20 ^ k) in *.
  pose proof (Rabs_pos P) as P0. pose proof (Rabs_pos (B2R (g r))) as G0. set (x := B2R (g r)) in *.
  assert (AP : Rabs (P * x) <= X20 * Y) by (rewrite Rabs_mult, (Rmult_comm X20); apply Rmult_le_compat; auto).
  set (d := INR k * (1001 / 1000) * u * Rabs P + 2 * INR k * eta * Y) in *. assert (KP : INR k * Rabs P <= 3 * Rabs P) by (apply Rmult_le_compat_r; auto).
  assert (KE : 0 <= INR k * (eta * Y)) by (apply Rmult_le_pos; [auto|apply Rmult_le_pos; lra]).
  assert (EY : eta <= eta * Y) by (rewrite <- (Rmult_1_r eta) at 1; apply Rmult_le_compat_l; lra).
  assert (KE3 : INR k * (eta * Y) <= 3 * (eta * Y)) by (apply Rmult_le_compat_r; lra).
  assert (EH : eta * Y <= 1 / 10000000 * Y) by (apply Rmult_le_compat_r; [lra|rewrite U in E1; lra]).
  assert (D0 : 0 <= d <= Y).
  { unfold d. rewrite U. split; [assert (0 <= INR k * Rabs P) by (apply Rmult_le_pos; auto); lra|]. lra. }
  assert (DX : Rabs (B2R p * x - P * x) <= d * Rabs x) by (rewrite <- Rmult_minus_distr_r, Rabs_mult; apply Rmult_le_compat_r; auto).
  assert (dX : d * Rabs x <= Y * X20) by (apply Rmult_le_compat; lra).
  assert (AB : Rabs (B2R p * x) <= huge). { replace (B2R p * x) with (P * x + (B2R p * x - P * x)) by ring. eapply Rle_trans; [apply Rabs_triang|]. lra. }
  destruct (prod_err p (g r) F Fr AB) as [Fp Ep]. fold x in Ep. split; [exact Fp|]. split; [exact AP|].
  replace (B2R (Bmult mode_NE p (g r)) - P * x) with ((B2R (Bmult mode_NE p (g r)) - B2R p * x) + (B2R p * x - P * x)) by ring.
  eapply Rle_trans; [apply Rabs_triang|].
  assert (AB2 : Rabs (B2R p * x) <= Rabs (P * x) + d * Rabs x). { replace (B2R p * x) with (P * x + (B2R p * x - P * x)) at 1 by ring. eapply Rle_trans; [apply Rabs_triang|]. lra. }
  assert (UA : u * Rabs (B2R p * x) <= u * (Rabs (P * x) + d * Rabs x)) by (apply Rmult_le_compat_l; [rewrite U|]; lra).
  assert (DE : d * Rabs x = INR k * (1001 / 1000) * u * Rabs (P * x) + 2 * (INR k * (eta * Y)) * Rabs x) by (unfold d; rewrite Rabs_mult; ring).
  assert (DE2 : 2 * (INR k * (eta * Y)) * Rabs x <= 2 * (INR k * (eta * Y)) * X20) by (apply Rmult_le_compat_l; lra).
  pose proof (Rabs_pos (P * x)) as Q0. set (Q := Rabs (P * x)) in *. assert (KQ : 0 <= INR k * Q <= 3 * Q) by (split; [apply Rmult_le_pos|apply Rmult_le_compat_r]; auto).
  replace (2 * (INR k + 1) * eta * (X20 * Y)) with (2 * (INR k * (eta * Y)) * X20 + 2 * (eta * Y) * X20) by ring.
  rewrite XV in *. set (Z := INR k * (eta * Y)) in *. rewrite U in *. lra.
Qed.

(** ** the naive determinant *)
Definition sgnR (n : nat) (p : list nat) : R := match count_inversions p n with Ok k => if (k mod 2 =? 0)%nat then 1 else -1 | _ => 1 end.
Lemma sgnR_abs n p : Rabs (sgnR n p) = 1.
Proof. unfold sgnR. destruct (count_inversions p n) as [k|e|]; [destruct (k mod 2 =? 0)%nat| |]; rewrite ?Rabs_R1; auto. rewrite Rabs_left; lra. Qed.
Lemma psgn_val lm n p : is_finite (psgn (A := F32 lm) n p : f32) = true /\ B2R (psgn (A := F32 lm) n p : f32) = sgnR n p.
Proof. unfold psgn, sgnR. destruct (count_inversions p n) as [k|e|]; [destruct (k mod 2 =? 0)%nat| |]; split; try reflexivity; try apply one32; apply (z32_R (-1)); lia. Qed.
Definition termR (n : nat) (a : nat -> nat -> R) (p : list nat) : R := mulR (fun r => a r (nth r p 0%nat)) (range 0 n) 1.
Definition sumabs (n : nat) (a : nat -> nat -> R) (ps : list (list nat)) (x : R) : R := fold_left (fun d p => d + Rabs (termR n a p)) ps x.
Lemma sumabs_S n a l p x : sumabs n a (l ++ [p]) x = sumabs n a l x + Rabs (termR n a p).
Proof. unfold sumabs. rewrite fold_left_app. reflexivity. Qed.
Lemma naive_r_S n a l p : naive_r n a (l ++ [p]) = naive_r n a l + sgnR n p * termR n a p.
Proof. unfold naive_r. rewrite fold_left_app. reflexivity. Qed.
Lemma naive_r_abs n a l : Rabs (naive_r n a l) <= sumabs n a l 0.
Proof.
  induction l as [|p l IH] using rev_ind; [cbn; rewrite Rabs_R0; lra|]. rewrite naive_r_S, sumabs_S. eapply Rle_trans; [apply Rabs_triang|]. rewrite Rabs_mult, sgnR_abs. lra.
Qed.
Lemma sumabs_permanent n a : (1 <= n <= 4)%nat -> sumabs n a (perms n) 0 = rpermanent n a.
Proof.
  intros H. assert (n = 1 \/ n = 2 \/ n = 3 \/ n = 4)%nat as [-> | [-> | [-> | ->]]] by lia.
  all: match goal with |- context [perms ?k] => let l := eval vm_compute in (perms k) in change (perms k) with l end.
  all: unfold sumabs, termR; cbn [fold_left]; rewrite !mulR_abs; unfold mulR, rpermanent, Nat.ltb; cbn; ring.
Qed.
Lemma rpermanent_ext n a b : req n n a b -> rpermanent n a = rpermanent n b.
Proof.
  revert a b. induction n as [|n IH]; intros a b E; [reflexivity|]. cbn [rpermanent]. apply Rsum_ext. intros j Hj.
  rewrite E by lia. f_equal. apply IH. intros i k Hi Hk. destruct (Nat.ltb_spec k j); apply E; lia.
Qed.
Lemma term_acc lm n (f : nat -> nat -> f32) p : (1 <= n <= 4)%nat -> good n p = true ->
  (forall i j, (i < n)%nat -> (j < n)%nat -> is_finite (f i j) = true /\ Rabs (B2R (f i j)) <= X20) ->
  let t := termR n (fun i j => B2R (f i j)) p in let q := Bmult mode_NE (psgn (A := F32 lm) n p : f32) (term (A := F32 lm) n f p) in
  is_finite q = true /\ Rabs t <= X20 ^ 4 /\ Rabs (B2R q - sgnR n p * t) <= INR (n + 1) * (101 / 100) * u * Rabs t + 10 * eta * X20 ^ 4.
Proof.
  intros Hn G H t q. assert (U : u = 1 / 16777216) by reflexivity. pose proof eta_1 as [E0 E1]. pose proof X20_val as XV.
  apply andb_true_iff in G. destruct G as [_ G]. rewrite forallb_forall in G.
  assert (IN : forall r, In r (range 0 n) -> (r < n)%nat) by (intros r Hr; unfold range in Hr; apply in_seq in Hr; lia).
  assert (LN : length (range 0 n) = n) by (unfold range; rewrite seq_length; lia).
  destruct (fprod_acc (fun r => f r (nth r p 0%nat)) (f1 (A := F32 lm)) (range 0 n) eq_refl (one32 lm) ltac:(lia)) as (F & B & D).
  { intros r Hr. apply H; [apply IN, Hr|]. apply Nat.ltb_lt, G, Hr. }
  rewrite LN in *. fold (termR n (fun i j => B2R (f i j)) p) in B, D. fold t in B, D.
  change (fold_left (fun acc r => Bmult mode_NE acc (f r (nth r p 0%nat))) (range 0 n) (f1 (A := F32 lm) : f32)) with (term (A := F32 lm) n f p : f32) in F, D.
  assert (PW : X20 ^ n <= X20 ^ 4) by (apply Rle_pow; [rewrite XV; lra|lia]). destruct (pow20 4 ltac:(lia)) as [W0 W1]. destruct (pow20 n ltac:(lia)) as [V0 _].
  set (v := term (A := F32 lm) n f p : f32) in *. destruct (psgn_val lm n p) as [Fs Es]. pose proof (sgnR_abs n p) as S1. set (s := sgnR n p) in *.
  assert (N1 : 1 <= INR n) by (change 1 with (INR 1); apply le_INR; lia). assert (N4 : INR n <= 4) by (replace 4 with (INR 4) by (cbn; lra); apply le_INR; lia).
  pose proof (Rabs_pos t) as T0. set (Y := X20 ^ 4) in *. assert (NY : 0 <= INR n * (eta * X20 ^ n) <= 4 * (eta * Y)).
  { split; [apply Rmult_le_pos; [lra|apply Rmult_le_pos; lra]|]. apply Rmult_le_compat; try lra; [apply Rmult_le_pos; lra|apply Rmult_le_compat_l; lra]. }
  assert (NT : INR n * Rabs t <= 4 * Rabs t) by (apply Rmult_le_compat_r; auto). assert (NT0 : 0 <= INR n * Rabs t) by (apply Rmult_le_pos; lra).
  assert (EY : eta <= eta * Y) by (rewrite <- (Rmult_1_r eta) at 1; apply Rmult_le_compat_l; lra).
  assert (EH : eta * Y <= 1 / 10000000 * Y) by (apply Rmult_le_compat_r; [lra|rewrite U in E1; lra]).
  replace (2 * INR n * eta * X20 ^ n) with (2 * (INR n * (eta * X20 ^ n))) in D by ring.
  assert (D' : Rabs (B2R v - t) <= INR n * (1001 / 1000) * u * Rabs t + 8 * (eta * Y)) by lra.
  assert (DS : Rabs (s * B2R v - s * t) <= INR n * (1001 / 1000) * u * Rabs t + 8 * (eta * Y)) by (rewrite <- Rmult_minus_distr_l, Rabs_mult, S1; lra).
  assert (AV : Rabs (s * B2R v) <= Rabs t + (INR n * (1001 / 1000) * u * Rabs t + 8 * (eta * Y))).
  { replace (s * B2R v) with (s * t + (s * B2R v - s * t)) by ring. eapply Rle_trans; [apply Rabs_triang|]. rewrite Rabs_mult, S1. lra. }
  destruct (prod_err (psgn (A := F32 lm) n p) v Fs F) as [Fq Eq]; [rewrite Es; rewrite U in AV; lra|]. rewrite Es in Eq. fold q in Fq, Eq.
  split; [exact Fq|]. split; [lra|]. replace (B2R q - s * t) with ((B2R q - s * B2R v) + (s * B2R v - s * t)) by ring. eapply Rle_trans; [apply Rabs_triang|].
  rewrite plus_INR. cbn [INR].
  assert (UA : u * Rabs (s * B2R v) <= u * (Rabs t + (INR n * (1001 / 1000) * u * Rabs t + 8 * (eta * Y)))) by (apply Rmult_le_compat_l; [rewrite U|]; lra).
  rewrite U in *. lra.
Qed.

Lemma naive_S lm n (f : nat -> nat -> f32) l p : (naive (A := F32 lm) n f (l ++ [p]) : f32) =
  Bplus mode_NE (naive (A := F32 lm) n f l : f32) (Bmult mode_NE (psgn (A := F32 lm) n p : f32) (term (A := F32 lm) n f p)).
Proof. unfold naive. rewrite fold_left_app. reflexivity. Qed.
Lemma naive_acc lm n (f : nat -> nat -> f32) (l : list (list nat)) : (1 <= n <= 4)%nat -> (length l <= 24)%nat -> forallb (good n) l = true ->
  (forall i j, (i < n)%nat -> (j < n)%nat -> is_finite (f i j) = true /\ Rabs (B2R (f i j)) <= X20) ->
  let a := fun i j => B2R (f i j) in let d := naive (A := F32 lm) n f l : f32 in
  is_finite d = true /\ sumabs n a l 0 <= INR (length l) * X20 ^ 4 /\
  Rabs (B2R d - naive_r n a l) <= INR (length l + n + 1) * (102 / 100) * u * sumabs n a l 0 + 30 * INR (length l) * eta * X20 ^ 4.
Proof.
  intros Hn L G H a. assert (U : u = 1 / 16777216) by reflexivity. pose proof eta_1 as [E0 E1]. pose proof X20_val as XV.
  destruct (pow20 4 ltac:(lia)) as [W0 W1]. pose proof huge_127 as H127.
  induction l as [|p l IH] using rev_ind; intros d; [cbn in d; subst d; cbn [length INR naive_r fold_left sumabs]; rewrite ?Rmult_0_r, ?Rmult_0_l; cbn; rewrite Rminus_0_r, Rabs_R0; repeat split; lra|].
  rewrite app_length, forallb_app in *. cbn [length forallb] in *. apply andb_true_iff in G. destruct G as [G Gp]. rewrite andb_true_r in Gp.
  destruct IH as (F & B & D); [lia|exact G|]. destruct (term_acc lm n f p Hn Gp H) as (Fq & Bt & Dq). fold a in Bt, Dq.
  subst d. rewrite naive_S, naive_r_S, sumabs_S. set (d := naive (A := F32 lm) n f l : f32) in *.
  set (q := Bmult mode_NE (psgn (A := F32 lm) n p : f32) (term (A := F32 lm) n f p)) in *. set (t := termR n a p) in *. set (s := sgnR n p) in *.
  set (N := naive_r n a l) in *. pose proof (naive_r_abs n a l) as NB. fold N in NB. set (M := sumabs n a l 0) in *. set (Y := X20 ^ 4) in *. set (k := length l) in *.
  pose proof (Rabs_pos t) as T0. pose proof (Rabs_pos N) as N0. assert (M0 : 0 <= M) by lra.
  replace (k + 1 + n + 1)%nat with (S (k + n + 1)) by lia. rewrite S_INR. rewrite plus_INR. cbn [INR].
  assert (K0 : 0 <= INR k) by apply pos_INR. assert (K23 : INR k <= 23) by (replace 23 with (INR 23) by (cbn; lra); apply le_INR; lia).
  assert (KN : 0 <= INR (k + n + 1) <= 28) by (split; [apply pos_INR|replace 28 with (INR 28) by (cbn; lra); apply le_INR; lia]).
  assert (NK : 0 <= INR (n + 1) <= INR (k + n + 1)) by (split; [apply pos_INR|apply le_INR; lia]).
  set (K := INR (k + n + 1)) in *. set (J := INR (n + 1)) in *.
  assert (KM : 0 <= K * M <= 28 * M) by (split; [apply Rmult_le_pos|apply Rmult_le_compat_r]; lra).
  assert (KT : 0 <= K * Rabs t <= 28 * Rabs t) by (split; [apply Rmult_le_pos|apply Rmult_le_compat_r]; lra).
  assert (JT : 0 <= J * Rabs t <= K * Rabs t) by (split; [apply Rmult_le_pos|apply Rmult_le_compat_r]; lra).
  assert (EY0 : 0 < eta * Y) by (apply Rmult_lt_0_compat; lra). assert (EK : 0 <= INR k * (eta * Y) <= 23 * (eta * Y)) by (split; [apply Rmult_le_pos|apply Rmult_le_compat_r]; lra).
  assert (EY : eta <= eta * Y) by (rewrite <- (Rmult_1_r eta) at 1; apply Rmult_le_compat_l; lra).
  assert (EH : eta * Y <= 1 / 10000000 * Y) by (apply Rmult_le_compat_r; [lra|rewrite U in E1; lra]).
  assert (KY : INR k * Y <= 23 * Y) by (apply Rmult_le_compat_r; lra).
  replace (30 * INR k * eta * Y) with (30 * (INR k * (eta * Y))) in D by ring. replace (10 * eta * Y) with (10 * (eta * Y)) in Dq by ring.
  set (e1 := K * (102 / 100) * u * M + 30 * (INR k * (eta * Y))) in *. set (e2 := J * (101 / 100) * u * Rabs t + 10 * (eta * Y)) in *.
  assert (DD : Rabs (B2R d + B2R q - (N + s * t)) <= e1 + e2). { replace (B2R d + B2R q - (N + s * t)) with ((B2R d - N) + (B2R q - s * t)) by ring. eapply Rle_trans; [apply Rabs_triang|]. lra. }
  assert (NT : Rabs (N + s * t) <= M + Rabs t) by (eapply Rle_trans; [apply Rabs_triang|]; rewrite (Rabs_mult s); unfold s; rewrite sgnR_abs; lra).
  assert (EB : 0 <= e1 + e2 <= Y + M + Rabs t) by (unfold e1, e2; rewrite U; lra).
  assert (AB : Rabs (B2R d + B2R q) <= bpow radix2 127). { replace (B2R d + B2R q) with ((N + s * t) + (B2R d + B2R q - (N + s * t))) by ring. eapply Rle_trans; [apply Rabs_triang|]. lra. }
  destruct (plus_ok d q F Fq AB) as [Fd Ed]. split; [exact Fd|]. split; [lra|]. rewrite Ed.
  eapply Rle_trans; [apply (rnd_acc _ (N + s * t) (M + Rabs t) _ DD NT); lra|].
  replace (30 * (INR k + 1) * eta * Y) with (30 * (INR k * (eta * Y)) + 30 * (eta * Y)) by ring. unfold e1, e2. clear DD NT EB AB e1 e2 D Dq Ed.
  replace ((K + 1) * (102 / 100) * u * (M + Rabs t)) with (102 / 100 * u * (K * M + K * Rabs t + M + Rabs t)) by ring.
  replace ((K * (102 / 100) * u * M + 30 * (INR k * (eta * Y)) + (J * (101 / 100) * u * Rabs t + 10 * (eta * Y))) * (1 + u))
    with ((102 / 100 * u * (K * M) + 30 * (INR k * (eta * Y)) + (101 / 100 * u * (J * Rabs t) + 10 * (eta * Y))) * (1 + u)) by ring.
  set (Z1 := K * M) in *. set (Z2 := K * Rabs t) in *. set (Z3 := J * Rabs t) in *. set (Z4 := INR k * (eta * Y)) in *. set (Z5 := eta * Y) in *. rewrite U. lra.
Qed.

(*@ C86_naive *)
(** C86: [det_naive] in f32 never overflows on entries up to 2^20, and is off from the determinant by at most n! + n + 1
    roundings of the permanent of the magnitudes (1.8e-6 of it for n = 4), plus 1e-17 *)
Lemma l_naive32 :
  forall (lm : Libm) (m : Mat (T (Arith := F32 lm))) (n : nat) (a : nat -> nat -> R), mat_f m n n a ->
  (forall i j, (i < n)%nat -> (j < n)%nat -> Rabs (a i j) <= bpow radix2 20) ->
  exists d : f32, m_det_naive m = Ok d /\ is_finite d = true /\
  Rabs (B2R d - rdet n a) <= INR (fact n + n + 1) * (61 / 1000000000) * rpermanent n a + / 10 ^ 17.
Proof.
  intros lm m n a (f & Hm & Ea) B. destruct (mat_is_dim _ _ _ _ Hm) as [Dn _]. rewrite (det_naive_ok (A := F32 lm) m n f Hm).
  destruct (perms_ok n Dn) as (_ & G & _). assert (LP : length (perms n) = fact n).
  { assert (n = 1 \/ n = 2 \/ n = 3 \/ n = 4)%nat as [-> | [-> | [-> | ->]]] by lia; vm_compute; reflexivity. }
  assert (L24 : (fact n <= 24)%nat) by (change 24%nat with (fact 4); apply fact_le; lia).
  assert (FF : forall i j, (i < n)%nat -> (j < n)%nat -> is_finite (f i j : f32) = true /\ Rabs (B2R (f i j : f32)) <= X20).
  { intros i j Hi Hj. split; [apply (valid_finite lm); eapply mat_is_valid; eauto|]. rewrite Ea by auto. apply B; auto. }
  destruct (naive_acc lm n f (perms n) Dn ltac:(lia) G FF) as (F & _ & D). cbv zeta in D.
  rewrite naive_rdet, sumabs_permanent, LP in D by auto. eexists. split; [reflexivity|]. split; [exact F|].
  rewrite <- (rdet_ext n (fun i j => B2R (f i j : f32)) a), <- (rpermanent_ext n (fun i j => B2R (f i j : f32)) a) by exact Ea.
  eapply Rle_trans; [exact D|]. assert (PP : 0 <= rpermanent n (fun i j => B2R (f i j : f32))) by (rewrite <- sumabs_permanent by auto; eapply Rle_trans; [apply Rabs_pos|apply naive_r_abs]).
  assert (KP : 0 <= INR (fact n + n + 1) * rpermanent n (fun i j => B2R (f i j : f32))) by (apply Rmult_le_pos; [apply pos_INR|exact PP]).
  assert (K24 : 0 <= INR (fact n) <= 24) by (split; [apply pos_INR|replace 24 with (INR 24) by (cbn; lra); apply le_INR; exact L24]).
  assert (EY : eta * X20 ^ 4 = bpow radix2 (-70)) by (unfold eta, X20; replace (bpow radix2 20 ^ 4) with (bpow radix2 80) by (change 80%Z with (20 + (20 + (20 + 20)))%Z; rewrite !bpow_plus; ring); rewrite <- bpow_plus; reflexivity).
  assert (E70 : bpow radix2 (-70) = / 1180591620717411303424) by reflexivity.
  replace (30 * INR (fact n) * eta * X20 ^ 4) with (30 * INR (fact n) * (eta * X20 ^ 4)) by ring. rewrite EY, E70.
  assert (T17 : / 10 ^ 17 = / 100000000000000000) by (f_equal; simpl; lra). rewrite T17. assert (U : u = 1 / 16777216) by reflexivity. rewrite U. lra.
Qed.

(** ** the determinant through the factorisation *)
Definition pinv (n : nat) (pi : nat -> nat) (r : nat) : nat := match find (fun i => pi i =? r)%nat (seq 0 n) with Some i => i | None => O end.
Lemma pinv_ok n pi i : perm n pi -> (i < n)%nat -> pinv n pi (pi i) = i.
Proof.
  intros [_ Inj] Hi. unfold pinv. destruct (find _ _) as [j|] eqn:E.
  - apply find_some in E. destruct E as [Ij Ej]. apply in_seq in Ij. apply Nat.eqb_eq in Ej. apply Inj; lia.
  - exfalso. assert (I : In i (seq 0 n)) by (apply in_seq; lia). pose proof (find_none _ _ E i I) as N. cbn in N. rewrite Nat.eqb_refl in N. discriminate.
Qed.
Lemma mulR_Rprod g n : mulR g (range 0 n) 1 = Rprod n g.
Proof.
  unfold range. rewrite Nat.sub_0_r. induction n as [|n IH]; [reflexivity|]. rewrite seq_S, mulR_S, IH. reflexivity.
Qed.

(*@ C86_det *)
(** C86: whenever [lup] succeeds, with pivots up to 2^20, so does [det], and up to 2.4e-7 of the result (plus 1e-17) it is the
    determinant of a matrix b that differs from the given one by at most 2e-7 of the product of the magnitudes of L and U;
    for 4 x 4 it has the wrong sign when the pivot permutation swaps two disjoint pairs *)
Lemma l_det32 :
  forall (lm : Libm) (m lu : Mat (T (Arith := F32 lm))) (p : Vec nat) (n : nat) (a : nat -> nat -> R), mat_f m n n a -> lup m = Ok (lu, p) ->
  exists f pi, mat_f lu n n f /\ idx_is p n pi /\ perm n pi /\ let f' := fun i j => f (pi i) j in
  ((forall i, (i < n)%nat -> Rabs (f' i i) <= bpow radix2 20) ->
   exists (d : f32) (b : nat -> nat -> R), m_det m = Ok d /\ is_finite d = true /\
   (forall i j, (i < n)%nat -> (j < n)%nat -> Rabs (a (pi i) j - b (pi i) j) <= 2 / 10000000 * Rsum n (fun t => amp (ulow f' i t) * amp (upp f' t j))) /\
   Rabs (B2R d - (if (n =? 4)%nat && double_swap pi then -1 else 1) * rdet n b) <= 24 / 100000000 * Rabs (rdet n b) + / 10 ^ 17).
Proof.
  intros lm m lu p n a Hm El. destruct (l_lup32 lm m lu p n a Hm El) as (f & pi & Hl & Hp & Pp & D). destruct Hm as (F0 & Hm & Ea). destruct (mat_is_dim _ _ _ _ Hm) as [Dn _].
  exists f, pi. split; [exact Hl|]. split; [exact Hp|]. split; [exact Pp|]. cbv zeta in *. intros B. destruct Hl as (F & Hl & Ef).
  set (f' := fun i j => f (pi i) j) in *. set (b := fun r j => rmul n (ulow f') (upp f') (pinv n pi r) j).
  pose proof (m_det_ok (A := F32 lm) m n F0 lu p F pi Hm El Hl Hp Pp) as Ed. cbv zeta in Ed.
  assert (IN : forall r, In r (range 0 n) -> (r < n)%nat) by (intros r Hr; unfold range in Hr; apply in_seq in Hr; lia).
  assert (LN : length (range 0 n) = n) by (unfold range; rewrite seq_length; lia).
  assert (FV : forall r, (r < n)%nat -> B2R (F (pi r) r : f32) = f' r r) by (intros r Hr; unfold f'; apply Ef; [apply Pp|]; exact Hr).
  destruct (fprod_acc (fun r => F (pi r) r) (f1 (A := F32 lm)) (range 0 n) eq_refl (one32 lm) ltac:(lia)) as (Fd & _ & Dd).
  { intros r Hr. pose proof (IN r Hr) as L. split; [apply (valid_finite lm); eapply mat_is_valid; [exact Hl|apply Pp; exact L|exact L]|]. rewrite FV by exact L. apply B, L. }
  rewrite LN, mulR_Rprod in Dd. set (d := fold_left (fun acc r => Bmult mode_NE acc (F (pi r) r : f32)) (range 0 n) (f1 (A := F32 lm) : f32)) in *.
  assert (EP : Rprod n (fun r => B2R (F (pi r) r : f32)) = rdet n (fun i j => b (pi i) j)).
  { rewrite (rdet_ext n _ (rmul n (ulow f') (upp f'))) by (intros i j Hi Hj; unfold b; rewrite pinv_ok; auto). rewrite det_lu by exact Dn.
    clear -FV. assert (K : forall k, (k <= n)%nat -> Rprod k (fun r => B2R (F (pi r) r : f32)) = Rprod k (fun i => f' i i)); [|apply K; lia].
    induction k as [|k IH]; intros L; [reflexivity|]. cbn [Rprod]. rewrite IH, FV by lia. reflexivity. }
  rewrite EP in Dd. destruct (det_perm n pi b Dn Pp) as [D1 D2]. rewrite D1 in Dd.
  assert (PS : psign n pi = 1 \/ psign n pi = -1) by (unfold psign; destruct (Nat.even _); auto).
  exists (if flips n pi then Bopp d else d), b. split; [rewrite Ed; destruct (flips n pi); reflexivity|]. split; [destruct (flips n pi); rewrite ?is_finite_Bopp; exact Fd|].
  split; [intros i j Hi Hj; unfold b; rewrite pinv_ok by auto; apply D; auto|].
  set (dt := rdet n b) in *. set (s := if (n =? 4)%nat && double_swap pi then -1 else 1) in *.
  assert (Dd' : Rabs (B2R d - psign n pi * dt) <= 24 / 100000000 * Rabs dt + / 10 ^ 17).
  { eapply Rle_trans; [exact Dd|]. assert (A1 : Rabs (psign n pi * dt) = Rabs dt) by (rewrite Rabs_mult; destruct PS as [-> | ->]; [rewrite Rabs_R1|rewrite (Rabs_left (-1)) by lra]; ring). rewrite A1.
    assert (N4 : 0 <= INR n <= 4) by (split; [apply pos_INR|replace 4 with (INR 4) by (cbn; lra); apply le_INR; lia]). pose proof (Rabs_pos dt) as T0.
    assert (NT : 0 <= INR n * Rabs dt <= 4 * Rabs dt) by (split; [apply Rmult_le_pos|apply Rmult_le_compat_r]; lra).
    assert (PW : 0 <= X20 ^ n <= X20 ^ 4) by (split; [apply pow_le; rewrite X20_val; lra|apply Rle_pow; [rewrite X20_val; lra|lia]]). pose proof eta_pos as E0.
    assert (EY : eta * X20 ^ 4 = bpow radix2 (-70)) by (unfold eta, X20; replace (bpow radix2 20 ^ 4) with (bpow radix2 80) by (change 80%Z with (20 + (20 + (20 + 20)))%Z; rewrite !bpow_plus; ring); rewrite <- bpow_plus; reflexivity).
    assert (E70 : bpow radix2 (-70) = / 1180591620717411303424) by reflexivity.
    assert (NE : INR n * (eta * X20 ^ n) <= 4 * bpow radix2 (-70)) by (rewrite <- EY; apply Rmult_le_compat; [lra|apply Rmult_le_pos; lra|lra|apply Rmult_le_compat_l; lra]).
    replace (2 * INR n * eta * X20 ^ n) with (2 * (INR n * (eta * X20 ^ n))) by ring. rewrite E70 in NE.
    assert (T17 : / 10 ^ 17 = / 100000000000000000) by (f_equal; simpl; lra). rewrite T17. assert (U : u = 1 / 16777216) by reflexivity. rewrite U. lra. }
  clear Dd. assert (SP : s = (if flips n pi then -1 else 1) * psign n pi) by (rewrite D2; destruct PS as [-> | ->]; ring). rewrite SP.
  destruct (flips n pi); [|rewrite Rmult_1_l; exact Dd']. rewrite B2R_Bopp. replace (- B2R d - -1 * psign n pi * dt) with (- (B2R d - psign n pi * dt)) by ring. rewrite Rabs_Ropp. exact Dd'.
Qed.

Lemma c86_ex : forall lm : Libm,
  let m := mk_mat (A := F32 lm) 3 3 (map z32 [4; 1; 2; 1; 3; 0; 2; 1; 5]%Z) in
  mat_f m 3 3 (fun i j => IZR (nth (i * 3 + j) [4; 1; 2; 1; 3; 0; 2; 1; 5]%Z 0%Z)) /\
  (forall i j, (i < 3)%nat -> (j < 3)%nat -> Rabs (IZR (nth (i * 3 + j) [4; 1; 2; 1; 3; 0; 2; 1; 5]%Z 0%Z)) <= bpow radix2 20) /\
  rpermanent 3 (fun i j => IZR (nth (i * 3 + j) [4; 1; 2; 1; 3; 0; 2; 1; 5]%Z 0%Z)) = 79 /\
  (rmap (fun s => show_m (fst s)) (lup m) = Ok (3%nat, 3%nat, true, [S754_finite false 8388608 (-21); S754_finite false 8388608 (-23); S754_finite false 8388608 (-22);
     S754_finite false 8388608 (-25); S754_finite false 11534336 (-21); S754_finite true 11796480 (-19);
     S754_finite false 8388608 (-24); S754_finite false 8388608 (-24); S754_finite false 8388608 (-21)])) /\ rmap B2SF (m_det m) = Ok (sf 45).
Proof.
  intros lm. cbv zeta. split; [apply (mat_z lm 3 3 [4; 1; 2; 1; 3; 0; 2; 1; 5]%Z); try lia; [reflexivity|repeat constructor; cbn; lia]|].
  change (bpow radix2 20) with 1048576. split.
  - intros i j Hi Hj. assert ((i = 0 \/ i = 1 \/ i = 2) /\ (j = 0 \/ j = 1 \/ j = 2))%nat as [[-> | [-> | ->]] [-> | [-> | ->]]] by lia; cbn; rewrite Rabs_pos_eq; lra.
  - split; [unfold rpermanent, Nat.ltb; cbn; rewrite !Rabs_pos_eq by lra; ring|]. split; vm_compute; reflexivity.
Qed.
(*@ example *)
(** C86 hypotheses: a matrix with determinant 45 *)
Example C86_example : forall lm : Libm,
  let m := mk_mat (A := F32 lm) 3 3 (map z32 [4; 1; 2; 1; 3; 0; 2; 1; 5]%Z) in
  mat_f m 3 3 (fun i j => IZR (nth (i * 3 + j) [4; 1; 2; 1; 3; 0; 2; 1; 5]%Z 0%Z)) /\
  (forall i j, (i < 3)%nat -> (j < 3)%nat -> Rabs (IZR (nth (i * 3 + j) [4; 1; 2; 1; 3; 0; 2; 1; 5]%Z 0%Z)) <= bpow radix2 20) /\
  rpermanent 3 (fun i j => IZR (nth (i * 3 + j) [4; 1; 2; 1; 3; 0; 2; 1; 5]%Z 0%Z)) = 79 /\
  (rmap (fun s => show_m (fst s)) (lup m) = Ok (3%nat, 3%nat, true, [S754_finite false 8388608 (-21); S754_finite false 8388608 (-23); S754_finite false 8388608 (-22);
     S754_finite false 8388608 (-25); S754_finite false 11534336 (-21); S754_finite true 11796480 (-19);
     S754_finite false 8388608 (-24); S754_finite false 8388608 (-24); S754_finite false 8388608 (-21)])) /\ rmap B2SF (m_det m) = Ok (sf 45).
Proof. exact c86_ex. Qed.
