(** C74: a 3 x 3 f32 matrix recognised as a rotation lies next to a true rotation. *)
(*@+*)
From Coq Require Import List Arith ZArith Reals Lia Bool Lra SpecFloat.
From Flocq Require Import Core BinarySingleNaN.
From Verif Require Import M_Base M_Arith M_Utils M_Vector M_Matrix M_F32 M_RX
  S_Spec S_Linalg S_Norm S_Lu S_F32 P_Inst P_InstF.
Import ListNotations.
Local Open Scope R_scope.
(*@-*)
From Coq Require Import Psatz.
From Verif Require Import P_Norm P_Lup32 P_Recog P_Sound P_Proper.

Lemma sqrt_near g h : 0 <= h <= 1 / 2000 -> Rabs (g - 1) <= h -> 0 < sqrt g /\ sqrt g * sqrt g = g /\ Rabs (sqrt g - 1) <= 51 / 100 * h.
Proof.
  intros Hh H. apply Rabs_le_inv in H. assert (G : sqrt g * sqrt g = g) by (apply sqrt_sqrt; lra). assert (P : 0 < sqrt g) by (apply sqrt_lt_R0; lra).
  split; [exact P|]. split; [exact G|]. set (s := sqrt g) in *. clearbody s. apply Rabs_le. split; nra.
Qed.
Lemma unit_le p0 p1 p2 : p0 * p0 + p1 * p1 + p2 * p2 = 1 -> Rabs p0 <= 1 /\ Rabs p1 <= 1 /\ Rabs p2 <= 1.
Proof. intros H. repeat split; apply Rabs_le; split; nra. Qed.

Section Near.
  Variables x0 x1 x2 y0 y1 y2 z0 z1 z2 : R.
  Notation h := (101 / 1000000).
  Hypothesis XX : Rabs (x0 * x0 + x1 * x1 + x2 * x2 - 1) <= h.
  Hypothesis YY : Rabs (y0 * y0 + y1 * y1 + y2 * y2 - 1) <= h.
  Hypothesis ZZ : Rabs (z0 * z0 + z1 * z1 + z2 * z2 - 1) <= h.
  Hypothesis XY : Rabs (x0 * y0 + x1 * y1 + x2 * y2) <= h.
  Hypothesis XZ : Rabs (x0 * z0 + x1 * z1 + x2 * z2) <= h.
  Hypothesis YZ : Rabs (y0 * z0 + y1 * z1 + y2 * z2) <= h.
  Hypothesis DET : 0 < x0 * (y1 * z2 - y2 * z1) - x1 * (y0 * z2 - y2 * z0) + x2 * (y0 * z1 - y1 * z0).
  Lemma small_div a N : Rabs a <= 1011 / 10000000 -> Rabs (N - 1) <= 52 / 1000000 -> Rabs (a / N) <= 102 / 1000000.
  Proof.
    intros H1 H2. apply Rabs_le_inv in H2. unfold Rdiv. rewrite Rabs_mult, (Rabs_pos_eq (/ N)) by (left; apply Rinv_0_lt_compat; lra).
    apply Rmult_le_reg_r with N; [lra|]. rewrite Rmult_assoc, Rinv_l by lra. nra.
  Qed.
  Lemma near_frame : exists p0 p1 p2 r0 r1 r2,
    p0 * p0 + p1 * p1 + p2 * p2 = 1 /\ r0 * r0 + r1 * r1 + r2 * r2 = 1 /\ p0 * r0 + p1 * r1 + p2 * r2 = 0 /\
    let s0 := p1 * r2 - p2 * r1 in let s1 := p2 * r0 - p0 * r2 in let s2 := p0 * r1 - p1 * r0 in
    (Rabs (x0 - p0) <= 3 / 10000 /\ Rabs (x1 - p1) <= 3 / 10000 /\ Rabs (x2 - p2) <= 3 / 10000) /\
    (Rabs (y0 - r0) <= 3 / 10000 /\ Rabs (y1 - r1) <= 3 / 10000 /\ Rabs (y2 - r2) <= 3 / 10000) /\
    (Rabs (z0 - s0) <= 3 / 10000 /\ Rabs (z1 - s1) <= 3 / 10000 /\ Rabs (z2 - s2) <= 3 / 10000) /\
    s0 * s0 + s1 * s1 + s2 * s2 = 1.
  Proof.
    destruct (sqrt_near _ h ltac:(lra) XX) as (N0 & N1 & N2). set (N := sqrt (x0 * x0 + x1 * x1 + x2 * x2)) in *. clearbody N.
    assert (N3 : Rabs (N - 1) <= 52 / 1000000) by lra.
    set (p0 := x0 / N). set (p1 := x1 / N). set (p2 := x2 / N).
    assert (X0 : x0 = N * p0) by (unfold p0; field; lra). assert (X1 : x1 = N * p1) by (unfold p1; field; lra). assert (X2 : x2 = N * p2) by (unfold p2; field; lra).
    assert (PP : p0 * p0 + p1 * p1 + p2 * p2 = 1) by (unfold p0, p1, p2; replace (x0 / N * (x0 / N) + x1 / N * (x1 / N) + x2 / N * (x2 / N)) with ((x0 * x0 + x1 * x1 + x2 * x2) / (N * N)) by (field; lra); rewrite <- N1; field; lra).
    assert (C1 : Rabs (p0 * y0 + p1 * y1 + p2 * y2) <= 102 / 1000000).
    { replace (p0 * y0 + p1 * y1 + p2 * y2) with ((x0 * y0 + x1 * y1 + x2 * y2) / N) by (unfold p0, p1, p2; field; lra). apply small_div; [lra|exact N3]. }
    assert (A1 : Rabs (p0 * z0 + p1 * z1 + p2 * z2) <= 102 / 1000000).
    { replace (p0 * z0 + p1 * z1 + p2 * z2) with ((x0 * z0 + x1 * z1 + x2 * z2) / N) by (unfold p0, p1, p2; field; lra). apply small_div; [lra|exact N3]. }
    clearbody p0 p1 p2. set (c := p0 * y0 + p1 * y1 + p2 * y2) in *. set (al := p0 * z0 + p1 * z1 + p2 * z2) in *.
    assert (W2 : (y0 - c * p0) * (y0 - c * p0) + (y1 - c * p1) * (y1 - c * p1) + (y2 - c * p2) * (y2 - c * p2) = y0 * y0 + y1 * y1 + y2 * y2 - c * c).
    { replace (y0 * y0 + y1 * y1 + y2 * y2 - c * c) with (y0 * y0 + y1 * y1 + y2 * y2 - 2 * c * (p0 * y0 + p1 * y1 + p2 * y2) + c * c * 1) by (fold c; ring). rewrite <- PP. ring. }
    assert (CC : 0 <= c * c <= 2 / 100000000) by (clear - C1; clearbody c; apply Rabs_le_inv in C1; split; nra).
    assert (AA : 0 <= al * al <= 2 / 100000000) by (clear - A1; clearbody al; apply Rabs_le_inv in A1; split; nra).
    assert (WW : Rabs ((y0 - c * p0) * (y0 - c * p0) + (y1 - c * p1) * (y1 - c * p1) + (y2 - c * p2) * (y2 - c * p2) - 1) <= 1011 / 10000000).
    { rewrite W2. apply Rabs_le_inv in YY. apply Rabs_le. split; lra. }
    destruct (sqrt_near _ (1011 / 10000000) ltac:(lra) WW) as (M0 & M1 & M2). set (M := sqrt ((y0 - c * p0) * (y0 - c * p0) + (y1 - c * p1) * (y1 - c * p1) + (y2 - c * p2) * (y2 - c * p2))) in *. clearbody M.
    assert (M3 : Rabs (M - 1) <= 52 / 1000000) by lra.
    set (r0 := (y0 - c * p0) / M). set (r1 := (y1 - c * p1) / M). set (r2 := (y2 - c * p2) / M).
    assert (Y0 : y0 = c * p0 + M * r0) by (unfold r0; field; lra). assert (Y1 : y1 = c * p1 + M * r1) by (unfold r1; field; lra). assert (Y2 : y2 = c * p2 + M * r2) by (unfold r2; field; lra).
    assert (RR : r0 * r0 + r1 * r1 + r2 * r2 = 1).
    { unfold r0, r1, r2. replace ((y0 - c * p0) / M * ((y0 - c * p0) / M) + (y1 - c * p1) / M * ((y1 - c * p1) / M) + (y2 - c * p2) / M * ((y2 - c * p2) / M)) with
        (((y0 - c * p0) * (y0 - c * p0) + (y1 - c * p1) * (y1 - c * p1) + (y2 - c * p2) * (y2 - c * p2)) / (M * M)) by (field; lra). rewrite <- M1. field. lra. }
    assert (PR : p0 * r0 + p1 * r1 + p2 * r2 = 0).
    { unfold r0, r1, r2. replace (p0 * ((y0 - c * p0) / M) + p1 * ((y1 - c * p1) / M) + p2 * ((y2 - c * p2) / M)) with (((p0 * y0 + p1 * y1 + p2 * y2) - c * (p0 * p0 + p1 * p1 + p2 * p2)) / M) by (field; lra).
      rewrite PP. fold c. field. lra. }
    assert (B1 : Rabs (r0 * z0 + r1 * z1 + r2 * z2) <= 102 / 1000000).
    { replace (r0 * z0 + r1 * z1 + r2 * z2) with ((y0 * z0 + y1 * z1 + y2 * z2 - c * al) / M) by (unfold r0, r1, r2, al; field; lra). apply small_div; [|exact M3].
      assert (CA : Rabs (c * al) <= 102 / 1000000 * (102 / 1000000)) by (apply mulb; assumption). apply Rabs_le_inv in CA, YZ. apply Rabs_le. split; lra. }
    clearbody r0 r1 r2. set (be := r0 * z0 + r1 * z1 + r2 * z2) in *.
    set (s0 := p1 * r2 - p2 * r1). set (s1 := p2 * r0 - p0 * r2). set (s2 := p0 * r1 - p1 * r0). set (ga := s0 * z0 + s1 * z1 + s2 * z2).
    assert (SS : s0 * s0 + s1 * s1 + s2 * s2 = 1).
    { replace (s0 * s0 + s1 * s1 + s2 * s2) with ((p0 * p0 + p1 * p1 + p2 * p2) * (r0 * r0 + r1 * r1 + r2 * r2) - (p0 * r0 + p1 * r1 + p2 * r2) * (p0 * r0 + p1 * r1 + p2 * r2)) by (unfold s0, s1, s2; ring). rewrite PP, RR, PR. ring. }
    set (PP' := p0 * p0 + p1 * p1 + p2 * p2) in *. set (RR' := r0 * r0 + r1 * r1 + r2 * r2) in *. set (PR' := p0 * r0 + p1 * r1 + p2 * r2) in *.
    assert (Z0 : z0 = al * p0 + be * r0 + ga * s0).
    { assert (I : s0 * ga = (PP' * RR' - PR' * PR') * z0 - RR' * p0 * al - PP' * r0 * be + PR' * (p0 * be + r0 * al)) by (unfold ga, al, be, s0, s1, s2, PP', RR', PR'; ring). rewrite PP, RR, PR in I. lra. }
    assert (Z1 : z1 = al * p1 + be * r1 + ga * s1).
    { assert (I : s1 * ga = (PP' * RR' - PR' * PR') * z1 - RR' * p1 * al - PP' * r1 * be + PR' * (p1 * be + r1 * al)) by (unfold ga, al, be, s0, s1, s2, PP', RR', PR'; ring). rewrite PP, RR, PR in I. lra. }
    assert (Z2 : z2 = al * p2 + be * r2 + ga * s2).
    { assert (I : s2 * ga = (PP' * RR' - PR' * PR') * z2 - RR' * p2 * al - PP' * r2 * be + PR' * (p2 * be + r2 * al)) by (unfold ga, al, be, s0, s1, s2, PP', RR', PR'; ring). rewrite PP, RR, PR in I. lra. }
    assert (BB : 0 <= be * be <= 2 / 100000000) by (clear - B1; clearbody be; apply Rabs_le_inv in B1; split; nra).
    assert (GG : Rabs (ga * ga - 1) <= 102 / 1000000).
    { assert (I : z0 * z0 + z1 * z1 + z2 * z2 = al * al + be * be + ga * ga).
      { replace (z0 * z0 + z1 * z1 + z2 * z2) with (z0 * (al * p0 + be * r0 + ga * s0) + z1 * (al * p1 + be * r1 + ga * s1) + z2 * (al * p2 + be * r2 + ga * s2)) by (rewrite <- Z0, <- Z1, <- Z2; reflexivity). unfold ga, al, be. ring. }
      rewrite I in ZZ. apply Rabs_le_inv in ZZ. apply Rabs_le. split; lra. }
    assert (GP : 0 < ga).
    { assert (I : x0 * (y1 * z2 - y2 * z1) - x1 * (y0 * z2 - y2 * z0) + x2 * (y0 * z1 - y1 * z0) = N * M * ga).
      { unfold ga, s0, s1, s2. rewrite X0, X1, X2. clear - Y0 Y1 Y2. clearbody c. rewrite Y0, Y1, Y2. ring. }
      rewrite I in DET. assert (NM : 0 < N * M) by (apply Rmult_lt_0_compat; assumption). clear - DET NM. clearbody ga. destruct (Rle_or_lt ga 0) as [G|G]; [exfalso; nra|exact G]. }
    assert (G1 : Rabs (ga - 1) <= 52 / 1000000) by (clear - GG GP; clearbody ga; apply Rabs_le_inv in GG; apply Rabs_le; split; nra).
    destruct (unit_le _ _ _ PP) as (P0 & P1 & P2). destruct (unit_le _ _ _ RR) as (R0 & R1 & R2). destruct (unit_le _ _ _ SS) as (S0 & S1 & S2).
    exists p0, p1, p2, r0, r1, r2. split; [exact PP|]. split; [exact RR|]. split; [exact PR|]. cbv zeta. fold s0 s1 s2.
    assert (KX : forall x p, x = N * p -> Rabs p <= 1 -> Rabs (x - p) <= 3 / 10000).
    { intros x p -> Hp. replace (N * p - p) with ((N - 1) * p) by ring. eapply Rle_trans; [apply mulb; eassumption|lra]. }
    assert (KY : forall y p r, y = c * p + M * r -> Rabs p <= 1 -> Rabs r <= 1 -> Rabs (y - r) <= 3 / 10000).
    { intros y p r -> Hp Hr. replace (c * p + M * r - r) with (c * p + (M - 1) * r) by ring. eapply Rle_trans; [apply addb; apply mulb; eassumption|lra]. }
    assert (KZ : forall z p r s, z = al * p + be * r + ga * s -> Rabs p <= 1 -> Rabs r <= 1 -> Rabs s <= 1 -> Rabs (z - s) <= 3 / 10000).
    { intros z p r s -> Hp Hr Hs. replace (al * p + be * r + ga * s - s) with (al * p + be * r + (ga - 1) * s) by ring. eapply Rle_trans; [apply addb; [apply addb; apply mulb; eassumption|apply mulb; eassumption]|lra]. }
    split; [repeat split; apply KX; assumption|]. split; [repeat split; [apply (KY y0 p0)|apply (KY y1 p1)|apply (KY y2 p2)]; assumption|].
    split; [|exact SS]. repeat split; [apply (KZ z0 p0 r0)|apply (KZ z1 p1 r1)|apply (KZ z2 p2 r2)]; assumption.
  Qed.
End Near.

(*@ C74_near *)
(** C74: whatever the elements, if [is_so_n] answers yes for a 3 x 3 f32 matrix then some exact rotation matrix (orthonormal rows,
    determinant 1) agrees with it to 3e-4 in every element *)
Lemma l_near :
  forall (lm : Libm) (m : Mat (T (Arith := F32 lm))) (a : nat -> nat -> R), mat_f m 3 3 a -> m_is_so_n m = Ok true ->
  exists q : nat -> nat -> R, (forall i j, (i < 3)%nat -> (j < 3)%nat -> rmul 3 q (rtr q) i j = rid i j) /\ rdet 3 q = 1 /\
    forall i j, (i < 3)%nat -> (j < 3)%nat -> Rabs (a i j - q i j) <= 3 / 10000.
Proof.
  intros lm m a Hm Y. pose proof (l_sound_proper lm m a Hm Y) as D. destruct (l_sound32 lm m 3 3 a Hm (or_introl Y)) as [_ H].
  pose proof (H 0%nat 0%nat ltac:(lia) ltac:(lia)) as H00. pose proof (H 1%nat 1%nat ltac:(lia) ltac:(lia)) as H11. pose proof (H 2%nat 2%nat ltac:(lia) ltac:(lia)) as H22.
  pose proof (H 0%nat 1%nat ltac:(lia) ltac:(lia)) as H01. pose proof (H 1%nat 2%nat ltac:(lia) ltac:(lia)) as H12. pose proof (H 0%nat 2%nat ltac:(lia) ltac:(lia)) as H02. clear H.
  unfold rid, rmul, rtr in H00, H11, H22, H01, H12, H02. cbn [Nat.eqb Rsum] in H00, H11, H22, H01, H12, H02. rewrite ?Rplus_0_l, ?Rminus_0_r in *. rewrite det3 in D.
  destruct (near_frame (a 0 0) (a 0 1) (a 0 2) (a 1 0) (a 1 1) (a 1 2) (a 2 0) (a 2 1) (a 2 2) H00 H11 H22 H01 H02 H12)%nat as (p0 & p1 & p2 & r0 & r1 & r2 & PP & RR & PR & KX & KY & KZ & SS); [apply Rabs_le_inv in D; lra|].
  cbv zeta in KZ, SS. destruct KX as (X0 & X1 & X2), KY as (Y0 & Y1 & Y2), KZ as (Z0 & Z1 & Z2).
  exists (fun i j => match i, j with O, O => p0 | O, S O => p1 | O, _ => p2 | S O, O => r0 | S O, S O => r1 | S O, _ => r2
    | _, O => p1 * r2 - p2 * r1 | _, S O => p2 * r0 - p0 * r2 | _, _ => p0 * r1 - p1 * r0 end).
  split; [|split].
  - intros i j Hi Hj. unfold rmul, rtr, rid. destruct i as [|[|[|i]]], j as [|[|[|j]]]; try lia; cbn [Rsum Nat.eqb]; lra.
  - rewrite det3. lra.
  - intros i j Hi Hj. destruct i as [|[|[|i]]], j as [|[|[|j]]]; try lia; assumption.
Qed.

(*@ C74_near_orthogonal *)
(** C74: likewise, if [is_orthogonal] answers yes then some exactly orthogonal matrix agrees with it to 3e-4 in every element *)
Lemma l_near_orthogonal :
  forall (lm : Libm) (m : Mat (T (Arith := F32 lm))) (a : nat -> nat -> R), mat_f m 3 3 a -> m_is_orthogonal m = Ok true ->
  exists q : nat -> nat -> R, (forall i j, (i < 3)%nat -> (j < 3)%nat -> rmul 3 q (rtr q) i j = rid i j) /\
    0 < rdet 3 q * rdet 3 a /\ forall i j, (i < 3)%nat -> (j < 3)%nat -> Rabs (a i j - q i j) <= 3 / 10000.
Proof.
  intros lm m a Hm Y. pose proof (l_sound_det lm m a Hm (or_intror Y)) as D. destruct (l_sound32 lm m 3 3 a Hm (or_intror Y)) as [_ H].
  pose proof (H 0%nat 0%nat ltac:(lia) ltac:(lia)) as H00. pose proof (H 1%nat 1%nat ltac:(lia) ltac:(lia)) as H11. pose proof (H 2%nat 2%nat ltac:(lia) ltac:(lia)) as H22.
  pose proof (H 0%nat 1%nat ltac:(lia) ltac:(lia)) as H01. pose proof (H 1%nat 2%nat ltac:(lia) ltac:(lia)) as H12. pose proof (H 0%nat 2%nat ltac:(lia) ltac:(lia)) as H02. clear H.
  unfold rid, rmul, rtr in H00, H11, H22, H01, H12, H02. cbn [Nat.eqb Rsum] in H00, H11, H22, H01, H12, H02. rewrite ?Rplus_0_l, ?Rminus_0_r in *.
  assert (E : exists e, e * e = 1 /\ 0 < e * rdet 3 a).
  { apply Rabs_le_inv in D. destruct (Rle_or_lt 0 (rdet 3 a)) as [K|K]; [exists 1; rewrite Rabs_pos_eq in D by exact K|exists (-1); rewrite Rabs_left in D by exact K]; split; lra. }
  destruct E as (e & EE & ED). assert (E1 : Rabs e = 1) by (destruct (Rle_or_lt 0 e); [rewrite Rabs_pos_eq by assumption|rewrite Rabs_left by assumption]; nra).
  destruct (near_frame (a 0 0) (a 0 1) (a 0 2) (a 1 0) (a 1 1) (a 1 2) (e * a 2 0) (e * a 2 1) (e * a 2 2))%nat as (p0 & p1 & p2 & r0 & r1 & r2 & PP & RR & PR & KX & KY & KZ & SS); try assumption.
  { replace (e * a 2%nat 0%nat * (e * a 2%nat 0%nat) + e * a 2%nat 1%nat * (e * a 2%nat 1%nat) + e * a 2%nat 2%nat * (e * a 2%nat 2%nat)) with ((e * e) * (a 2%nat 0%nat * a 2%nat 0%nat + a 2%nat 1%nat * a 2%nat 1%nat + a 2%nat 2%nat * a 2%nat 2%nat)) by ring.
    rewrite EE, Rmult_1_l. exact H22. }
  { replace (a 0%nat 0%nat * (e * a 2%nat 0%nat) + a 0%nat 1%nat * (e * a 2%nat 1%nat) + a 0%nat 2%nat * (e * a 2%nat 2%nat)) with (e * (a 0%nat 0%nat * a 2%nat 0%nat + a 0%nat 1%nat * a 2%nat 1%nat + a 0%nat 2%nat * a 2%nat 2%nat)) by ring.
    rewrite Rabs_mult, E1, Rmult_1_l. exact H02. }
  { replace (a 1%nat 0%nat * (e * a 2%nat 0%nat) + a 1%nat 1%nat * (e * a 2%nat 1%nat) + a 1%nat 2%nat * (e * a 2%nat 2%nat)) with (e * (a 1%nat 0%nat * a 2%nat 0%nat + a 1%nat 1%nat * a 2%nat 1%nat + a 1%nat 2%nat * a 2%nat 2%nat)) by ring.
    rewrite Rabs_mult, E1, Rmult_1_l. exact H12. }
  { rewrite det3 in ED. lra. }
  cbv zeta in KZ, SS. destruct KX as (X0 & X1 & X2), KY as (Y0 & Y1 & Y2), KZ as (Z0 & Z1 & Z2).
  assert (BACK : forall z s c, Rabs (e * z - s) <= c -> Rabs (z - e * s) <= c).
  { intros z s c K. replace (z - e * s) with (e * (e * z - s)) by (replace (e * (e * z - s)) with (e * e * z - e * s) by ring; rewrite EE; ring). rewrite Rabs_mult, E1, Rmult_1_l. exact K. }
  apply BACK in Z0, Z1, Z2.
  exists (fun i j => match i, j with O, O => p0 | O, S O => p1 | O, _ => p2 | S O, O => r0 | S O, S O => r1 | S O, _ => r2
    | _, O => e * (p1 * r2 - p2 * r1) | _, S O => e * (p2 * r0 - p0 * r2) | _, _ => e * (p0 * r1 - p1 * r0) end).
  split; [|split].
  - assert (SE : e * e * ((p1 * r2 - p2 * r1) * (p1 * r2 - p2 * r1) + (p2 * r0 - p0 * r2) * (p2 * r0 - p0 * r2) + (p0 * r1 - p1 * r0) * (p0 * r1 - p1 * r0)) = 1) by (rewrite EE, SS; ring).
    intros i j Hi Hj. unfold rmul, rtr, rid. destruct i as [|[|[|i]]], j as [|[|[|j]]]; try lia; cbn [Rsum Nat.eqb]; lra.
  - rewrite (det3 (fun i j => match i, j with O, O => p0 | O, S O => p1 | O, _ => p2 | S O, O => r0 | S O, S O => r1 | S O, _ => r2
    | _, O => e * (p1 * r2 - p2 * r1) | _, S O => e * (p2 * r0 - p0 * r2) | _, _ => e * (p0 * r1 - p1 * r0) end)).
    match goal with |- 0 < ?x * _ => replace x with (e * ((p1 * r2 - p2 * r1) * (p1 * r2 - p2 * r1) + (p2 * r0 - p0 * r2) * (p2 * r0 - p0 * r2) + (p0 * r1 - p1 * r0) * (p0 * r1 - p1 * r0))) by ring end.
    rewrite SS, Rmult_1_r. exact ED.
  - intros i j Hi Hj. destruct i as [|[|[|i]]], j as [|[|[|j]]]; try lia; assumption.
Qed.

Lemma near_ex : forall lm : Libm, let m := mk_mat (A := F32 lm) 3 3 (map z32 [0; 0; 1; 1; 0; 0; 0; 1; 0]%Z) in
  mat_f (lm := lm) m 3 3 (fun i j => IZR (nth (i * 3 + j) [0; 0; 1; 1; 0; 0; 0; 1; 0]%Z 0%Z)) /\ m_is_so_n m = Ok true.
Proof.
  intros lm m. split; [apply (mat_z lm 3 3); [lia|lia|reflexivity|repeat constructor; cbn; lia]|]. vm_compute. reflexivity.
Qed.
(*@ example *)
(** test: the turn carrying each axis to the next one is recognised *)
Example C74_example_near : forall lm : Libm, let m := mk_mat (A := F32 lm) 3 3 (map z32 [0; 0; 1; 1; 0; 0; 0; 1; 0]%Z) in
  mat_f (lm := lm) m 3 3 (fun i j => IZR (nth (i * 3 + j) [0; 0; 1; 1; 0; 0; 0; 1; 0]%Z 0%Z)) /\ m_is_so_n m = Ok true.
Proof. exact near_ex. Qed.
