(** C74: a 3 x 3 f32 matrix recognised as a rotation is a proper one. *)
(*@+*)
From Coq Require Import List Arith ZArith Reals Lia Bool Lra SpecFloat.
From Flocq Require Import Core BinarySingleNaN.
From Verif Require Import M_Base M_Arith M_Utils M_Vector M_Matrix M_F32 M_RX
  S_Spec S_Linalg S_Norm S_Lu S_F32 P_Inst P_InstF.
Import ListNotations.
Local Open Scope R_scope.
(*@-*)
From Coq Require Import Psatz.
From Verif Require Import S_Compare P_Compare S_Lu32 P_Hoare P_Cont P_Loops P_Access P_Pointwise P_Trans P_Float P_Product P_Norm P_Dot P_FErr P_Norm32 P_FAcc P_F32App P_Lup P_Lup32 P_Det P_So P_Chol32 P_Qr32 P_Eig P_Recog P_Sound.

(** the pivots stay where they are, and none of them is below EPSILON *)
Lemma steps_pivots {A : Arith} n k (F0 F : nat -> nat -> T) pi : (k < n)%nat -> steps n k F0 F pi ->
  forall j, (j < k)%nat -> fltb (fabs (F (pi j) j)) EPSILON = false.
Proof.
  revert F pi. induction k as [|k IH]; intros F pi Hk St j Hj; [lia|]. destruct St as (F1 & pi1 & P1 & St & (r & Hr & Epi & EP & EF)).
  rewrite EF by lia. unfold elim. replace (k <? j)%nat with false by (symmetry; apply Nat.ltb_ge; lia).
  destruct (Nat.eq_dec j k) as [->|N]; [exact EP|]. rewrite Epi by lia. unfold exch. destruct (Nat.eqb_spec j k), (Nat.eqb_spec j r); try lia. apply (IH F1 pi1); [lia|exact St|lia].
Qed.

Section Core.
  Variables b00 b01 b02 b10 b11 b12 b20 b21 b22 p s t l q v m n w k : R.
  Notation d := (2 / 10000000).
  Hypothesis B : Rabs b00 <= 101 / 100 /\ Rabs b01 <= 101 / 100 /\ Rabs b02 <= 101 / 100 /\ Rabs b10 <= 101 / 100 /\ Rabs b11 <= 101 / 100 /\ Rabs b12 <= 101 / 100 /\
    Rabs b20 <= 101 / 100 /\ Rabs b21 <= 101 / 100 /\ Rabs b22 <= 101 / 100.
  Hypothesis P0 : 99 / 1000000 <= Rabs p.
  Hypothesis Q0 : 99 / 1000000 <= Rabs q.
  Hypothesis K0 : 0 <= k <= 3 / 100000.
  Hypothesis E00 : Rabs (b00 - p) <= d * Rabs p + k.
  Hypothesis E01 : Rabs (b01 - s) <= d * Rabs s + k.
  Hypothesis E02 : Rabs (b02 - t) <= d * Rabs t + k.
  Hypothesis E10 : Rabs (b10 - l * p) <= d * (Rabs l * Rabs p) + k.
  Hypothesis E11 : Rabs (b11 - (l * s + q)) <= d * (Rabs l * Rabs s + Rabs q) + k.
  Hypothesis E12 : Rabs (b12 - (l * t + v)) <= d * (Rabs l * Rabs t + Rabs v) + k.
  Hypothesis E20 : Rabs (b20 - m * p) <= d * (Rabs m * Rabs p) + k.
  Hypothesis E21 : Rabs (b21 - (m * s + n * q)) <= d * (Rabs m * Rabs s + Rabs n * Rabs q) + k.
  Hypothesis E22 : Rabs (b22 - (m * t + n * v + w)) <= d * (Rabs m * Rabs t + Rabs n * Rabs v + Rabs w) + k.

  Lemma close_1 x y w0 e : Rabs (x - y) <= d * Rabs y + e -> Rabs x <= w0 -> 0 <= e -> 0 <= w0 -> Rabs y <= 100001 / 100000 * (w0 + e).
  Proof. intros H1 H2 H3 H4. pose proof (Rabs_pos y). pose proof (Rabs_triang_inv y x) as H5. rewrite <- (Rabs_Ropp (x - y)) in H1. replace (- (x - y)) with (y - x) in H1 by ring. lra. Qed.
  Lemma close_2 x y z w0 M e : Rabs (x - (y + z)) <= d * (M + Rabs z) + e -> Rabs x <= w0 -> Rabs y <= M -> 0 <= e -> 0 <= w0 -> Rabs z <= 100001 / 100000 * (w0 + e + 100001 / 100000 * M).
  Proof.
    intros H1 H2 H3 H4 H5. pose proof (Rabs_pos z). pose proof (Rabs_pos y).
    assert (Rabs z <= Rabs (x - (y + z)) + Rabs x + Rabs y). { replace z with (- (x - (y + z)) + x + - y) at 1 by ring. eapply Rle_trans; [apply Rabs_triang|]. eapply Rle_trans; [apply Rplus_le_compat_r, Rabs_triang|]. rewrite !Rabs_Ropp. lra. }
    lra.
  Qed.
  (** sizes of the factors *)
  Lemma core_sizes : Rabs p <= 102 / 100 /\ Rabs s <= 102 / 100 /\ Rabs t <= 102 / 100 /\ Rabs l * Rabs p <= 102 / 100 /\ Rabs m * Rabs p <= 102 / 100 /\
    Rabs p * Rabs q <= 209 / 100 /\ Rabs p * Rabs v <= 209 / 100 /\ Rabs p * Rabs (n * q) <= 209 / 100.
  Proof using B P0 Q0 K0 E00 E01 E02 E10 E11 E12 E20 E21 E22.
    destruct B as (B00 & B01 & B02 & B10 & B11 & B12 & B20 & B21 & B22).
    pose proof (close_1 _ _ _ _ E00 B00 ltac:(lra) ltac:(lra)) as S1. pose proof (close_1 _ _ _ _ E01 B01 ltac:(lra) ltac:(lra)) as S2. pose proof (close_1 _ _ _ _ E02 B02 ltac:(lra) ltac:(lra)) as S3.
    assert (E10' := E10). assert (E20' := E20). rewrite <- Rabs_mult in E10', E20'.
    pose proof (close_1 _ _ _ _ E10' B10 ltac:(lra) ltac:(lra)) as S4. pose proof (close_1 _ _ _ _ E20' B20 ltac:(lra) ltac:(lra)) as S5. rewrite Rabs_mult in S4, S5.
    assert (E21' := E21). rewrite <- (Rabs_mult n q) in E21'.
    pose proof (close_2 _ _ _ _ _ _ E11 B11 ltac:(rewrite Rabs_mult; lra) ltac:(lra) ltac:(lra)) as S6. pose proof (close_2 _ _ _ _ _ _ E12 B12 ltac:(rewrite Rabs_mult; lra) ltac:(lra) ltac:(lra)) as S7.
    pose proof (close_2 _ _ _ _ _ _ E21' B21 ltac:(rewrite Rabs_mult; lra) ltac:(lra) ltac:(lra)) as S8.
    assert (P1 : Rabs p <= 10111 / 10000) by lra. assert (L1 : Rabs l * Rabs p <= 10111 / 10000) by lra. assert (M1 : Rabs m * Rabs p <= 10111 / 10000) by lra.
    assert (MUL : forall x y c, 0 <= x -> 0 <= y -> x * Rabs p <= 10111 / 10000 -> y <= 10111 / 10000 -> c <= 100001 / 100000 * (101 / 100 + k + 100001 / 100000 * (x * y)) -> Rabs p * c <= 209 / 100).
    { intros x y c X0 Y0 X1 Y1 HC. assert (XY : Rabs p * (x * y) <= 10111 / 10000 * (10111 / 10000)).
      { replace (Rabs p * (x * y)) with ((x * Rabs p) * y) by ring. apply Rmult_le_compat; try lra. apply Rmult_le_pos; [lra|apply Rabs_pos]. }
      assert (PK : Rabs p * (101 / 100 + k) <= 10111 / 10000 * (101 / 100 + 3 / 100000)) by (apply Rmult_le_compat; try lra).
      assert (PC : Rabs p * c <= Rabs p * (100001 / 100000 * (101 / 100 + k + 100001 / 100000 * (x * y)))) by (apply Rmult_le_compat_l; lra).
      replace (Rabs p * (100001 / 100000 * (101 / 100 + k + 100001 / 100000 * (x * y)))) with (100001 / 100000 * (Rabs p * (101 / 100 + k)) + 100001 / 100000 * (100001 / 100000 * (Rabs p * (x * y)))) in PC by ring. lra. }
    split; [lra|]. split; [lra|]. split; [lra|]. split; [lra|]. split; [lra|].
    split; [|split]; [apply (MUL (Rabs l) (Rabs s))|apply (MUL (Rabs l) (Rabs t))|apply (MUL (Rabs m) (Rabs s))]; auto using Rabs_pos; lra.
  Qed.
  Lemma core_sizes2 : Rabs l <= 10 ^ 13 /\ Rabs m <= 10 ^ 13 /\ Rabs q <= 21200 /\ Rabs v <= 21200 /\ Rabs (n * q) <= 21200 /\ Rabs n <= 10 ^ 13 /\ Rabs w <= 10 ^ 13.
  Proof using B P0 Q0 K0 E00 E01 E02 E10 E11 E12 E20 E21 E22.
    destruct core_sizes as (S1 & S2 & S3 & S4 & S5 & S6 & S7 & S8). destruct B as (B00 & B01 & B02 & B10 & B11 & B12 & B20 & B21 & B22).
    assert (T13 : 10 ^ 13 = 10000000000000) by (cbn [pow]; ring). rewrite T13.
    assert (DIV : forall x y c, 0 <= y -> 99 / 1000000 <= x -> x * y <= c -> y <= c * (1000000 / 99)) by (intros x y c Y0 X0 H; nra).
    pose proof (DIV _ (Rabs l) _ (Rabs_pos _) P0 ltac:(rewrite Rmult_comm; exact S4)) as L1. pose proof (DIV _ (Rabs m) _ (Rabs_pos _) P0 ltac:(rewrite Rmult_comm; exact S5)) as M1.
    pose proof (DIV _ (Rabs q) _ (Rabs_pos _) P0 S6) as Q1. pose proof (DIV _ (Rabs v) _ (Rabs_pos _) P0 S7) as V1. pose proof (DIV _ (Rabs (n * q)) _ (Rabs_pos _) P0 S8) as Y1.
    pose proof (DIV _ (Rabs n) (21200) (Rabs_pos _) Q0 ltac:(rewrite Rmult_comm, <- Rabs_mult; lra)) as N1.
    assert (MT : Rabs m * Rabs t <= 11000 * 2) by (apply Rmult_le_compat; auto using Rabs_pos; lra). assert (NV : Rabs n * Rabs v <= 220000000 * 21200) by (apply Rmult_le_compat; auto using Rabs_pos; lra).
    pose proof (close_2 _ _ _ _ _ _ E22 B22 ltac:(eapply Rle_trans; [apply Rabs_triang|]; rewrite !Rabs_mult; lra) ltac:(lra) ltac:(lra)) as W1.
    repeat split; lra.
  Qed.

  Hypothesis K1 : k <= / 10 ^ 14.
  Hypothesis D1 : Rabs (p * q * w) <= 101 / 100.
  Lemma mulb x y a c : Rabs x <= a -> Rabs y <= c -> Rabs (x * y) <= a * c.
  Proof. intros H1 H2. rewrite Rabs_mult. apply Rmult_le_compat; auto using Rabs_pos. Qed.
  Lemma addb x y a c : Rabs x <= a -> Rabs y <= c -> Rabs (x + y) <= a + c.
  Proof. intros H1 H2. eapply Rle_trans; [apply Rabs_triang|lra]. Qed.
  Lemma divb x c : Rabs (p * x) <= c -> Rabs x <= c * (1000000 / 99).
  Proof. rewrite Rabs_mult. intros H. pose proof (Rabs_pos x) as X. revert H X P0. clear. intros H X P0. nra. Qed.
  Lemma gdiv x y c : 0 <= y -> 99 / 1000000 <= x -> x * y <= c -> y <= c * (1000000 / 99).
  Proof. clear. intros Y0 X0 H. nra. Qed.
  Lemma core_det : Rabs (b00 * (b11 * b22 - b12 * b21) - b01 * (b10 * b22 - b12 * b20) + b02 * (b10 * b21 - b11 * b20) - p * q * w) <= 2 / 10.
  Proof using B P0 Q0 K0 E00 E01 E02 E10 E11 E12 E20 E21 E22 K1 D1.
    destruct core_sizes as (S1 & S2 & S3 & S4 & S5 & S6 & S7 & S8). destruct core_sizes2 as (_ & _ & T1 & T2 & T3 & _ & _).
    destruct B as (B00 & B01 & B02 & _ & _ & _ & _ & _ & B22). clear B.
    assert (KK : k <= 1 / 100000000000000) by (cbn [pow] in K1; lra). clear K1.
    set (y := n * q) in *. set (z := n * v + w) in *.
    set (g0 := b10 - l * b00). set (g1 := b11 - l * b01 - q). set (g2 := b12 - l * b02 - v).
    set (e0 := b20 - m * b00). set (e1 := b21 - m * b01 - y). set (e2 := b22 - m * b02 - z). set (ep := b00 - p) in *.
    assert (PW : Rabs p * Rabs w <= 10203).
    { rewrite !Rabs_mult in D1. apply Rle_trans with (101 / 100 * (1000000 / 99)); [|lra]. apply (gdiv (Rabs q)); [apply Rmult_le_pos; apply Rabs_pos|exact Q0|lra]. }
    assert (NV : Rabs n * Rabs v <= Rabs z + Rabs w).
    { rewrite <- Rabs_mult. replace (n * v) with (z + - w) by (unfold z; ring). eapply Rle_trans; [apply Rabs_triang|]. rewrite Rabs_Ropp. lra. }
    assert (P1 : 0 <= Rabs p) by apply Rabs_pos. assert (L0 := Rabs_pos l). assert (M0 := Rabs_pos m).
    assert (L1 : Rabs l <= 11000) by (apply Rle_trans with (102 / 100 * (1000000 / 99)); [apply (gdiv (Rabs p)); lra|lra]). assert (M1 : Rabs m <= 11000) by (apply Rle_trans with (102 / 100 * (1000000 / 99)); [apply (gdiv (Rabs p)); lra|lra]).
    assert (LK : Rabs l * k <= 11000 * (1 / 100000000000000)) by (apply Rmult_le_compat; lra). assert (MK : Rabs m * k <= 11000 * (1 / 100000000000000)) by (apply Rmult_le_compat; lra).
    assert (LPS : forall x, Rabs x <= 102 / 100 -> Rabs p * (Rabs l * Rabs x) <= 10405 / 10000).
    { intros x X. assert (Rabs l * Rabs p * Rabs x <= 102 / 100 * (102 / 100)) by (apply Rmult_le_compat; auto using Rabs_pos; apply Rmult_le_pos; auto). lra. }
    assert (MPS : forall x, Rabs x <= 102 / 100 -> Rabs p * (Rabs m * Rabs x) <= 10405 / 10000).
    { intros x X. assert (Rabs m * Rabs p * Rabs x <= 102 / 100 * (102 / 100)) by (apply Rmult_le_compat; auto using Rabs_pos; apply Rmult_le_pos; auto). lra. }
    assert (PKL : Rabs p * (Rabs l * k) <= 102 / 100 * (11000 * (1 / 100000000000000))) by (apply Rmult_le_compat; auto; apply Rmult_le_pos; lra).
    assert (PKM : Rabs p * (Rabs m * k) <= 102 / 100 * (11000 * (1 / 100000000000000))) by (apply Rmult_le_compat; auto; apply Rmult_le_pos; lra).
    assert (PK : Rabs p * k <= 102 / 100 * (1 / 100000000000000)) by (apply Rmult_le_compat; lra).
    pose proof (LPS s S2) as LS. pose proof (LPS t S3) as LT. pose proof (MPS s S2) as MS. pose proof (MPS t S3) as MT.
    assert (GEN : forall x c, Rabs x <= c -> Rabs (p * x) <= Rabs p * c) by (intros x c H; rewrite Rabs_mult; apply Rmult_le_compat_l; auto).
    (* z *)
    assert (Z1 : Rabs (p * z) <= 21 / 10).
    { assert (H : Rabs z <= (101 / 100 + Rabs m * Rabs t) + (d * (Rabs m * Rabs t + Rabs n * Rabs v + Rabs w) + k)).
      { replace z with (b22 + - (m * t) + - (b22 - (m * t + n * v + w))) at 1 by (unfold z; ring). apply addb; [apply addb; [exact B22|rewrite Rabs_Ropp, Rabs_mult; lra]|rewrite Rabs_Ropp; exact E22]. }
      apply GEN in H. rewrite Rabs_mult in H |- *. assert (PNV := Rmult_le_compat_l _ _ _ P1 NV). lra. }
    pose proof (divb _ _ Z1) as Z2.
    assert (G0 : Rabs g0 <= 42 / 100000000).
    { replace g0 with ((b10 - l * p) + - (l * ep)) by (unfold g0, ep; ring). eapply Rle_trans; [apply addb; [exact E10|rewrite Rabs_Ropp, Rabs_mult; apply Rmult_le_compat_l; [exact L0|exact E00]]|]. lra. }
    assert (H0 : Rabs e0 <= 42 / 100000000).
    { replace e0 with ((b20 - m * p) + - (m * ep)) by (unfold e0, ep; ring). eapply Rle_trans; [apply addb; [exact E20|rewrite Rabs_Ropp, Rabs_mult; apply Rmult_le_compat_l; [exact M0|exact E00]]|]. lra. }
    assert (G1 : Rabs (p * g1) <= 86 / 100000000).
    { replace g1 with ((b11 - (l * s + q)) + - (l * (b01 - s))) by (unfold g1; ring). eapply Rle_trans; [apply GEN, addb; [exact E11|rewrite Rabs_Ropp, Rabs_mult; apply Rmult_le_compat_l; [exact L0|exact E01]]|]. lra. }
    assert (G2 : Rabs (p * g2) <= 86 / 100000000).
    { replace g2 with ((b12 - (l * t + v)) + - (l * (b02 - t))) by (unfold g2; ring). eapply Rle_trans; [apply GEN, addb; [exact E12|rewrite Rabs_Ropp, Rabs_mult; apply Rmult_le_compat_l; [exact L0|exact E02]]|]. lra. }
    assert (H1 : Rabs (p * e1) <= 86 / 100000000).
    { assert (E21' := E21). rewrite <- (Rabs_mult n q) in E21'. fold y in E21'.
      replace e1 with ((b21 - (m * s + y)) + - (m * (b01 - s))) by (unfold e1; ring). eapply Rle_trans; [apply GEN, addb; [exact E21'|rewrite Rabs_Ropp, Rabs_mult; apply Rmult_le_compat_l; [exact M0|exact E01]]|]. lra. }
    assert (H2 : Rabs (p * e2) <= 86 / 100000000 + 4 / 10000000 * (Rabs p * Rabs w)).
    { replace e2 with ((b22 - (m * t + n * v + w)) + - (m * (b02 - t))) by (unfold e2, z; ring). eapply Rle_trans; [apply GEN, addb; [exact E22|rewrite Rabs_Ropp, Rabs_mult; apply Rmult_le_compat_l; [exact M0|exact E02]]|].
      assert (PNV := Rmult_le_compat_l _ _ _ P1 NV). rewrite Rabs_mult in Z1. lra. }
    assert (H2' : Rabs (p * e2) <= 42 / 10000) by lra. pose proof (divb _ _ H2') as H2''. pose proof (divb _ _ G1) as G1'. pose proof (divb _ _ G2) as G2'. pose proof (divb _ _ H1) as H1'.
    assert (EP : Rabs ep <= 21 / 100000000 * Rabs p) by (fold ep in E00; lra).
    rewrite <- Rabs_mult in S6, S7.
    assert (Q2 : Rabs (q * (p * e2)) <= 184 / 10000).
    { rewrite (Rabs_mult q). assert (Rabs q * Rabs (p * e2) <= Rabs q * (86 / 100000000 + 4 / 10000000 * (Rabs p * Rabs w))) by (apply Rmult_le_compat_l; [apply Rabs_pos|exact H2]).
      rewrite !Rabs_mult in D1. lra. }
    assert (X2 : Rabs ((p * g1) * z) <= 184 / 10000) by (eapply Rle_trans; [apply mulb; eassumption|lra]).
    assert (X3 : Rabs ((p * g1) * e2) <= 1 / 10000) by (eapply Rle_trans; [apply mulb; eassumption|lra]).
    assert (X4 : Rabs ((p * e1) * v) <= 184 / 10000) by (eapply Rle_trans; [apply mulb; eassumption|lra]).
    assert (X5 : Rabs ((p * g2) * y) <= 184 / 10000) by (eapply Rle_trans; [apply mulb; eassumption|lra]).
    assert (X6 : Rabs ((p * g2) * e1) <= 1 / 10000) by (eapply Rle_trans; [apply mulb; eassumption|lra]).
    assert (EPX : forall x c, Rabs (p * x) <= c -> Rabs (ep * x) <= 21 / 100000000 * c).
    { intros x c H. rewrite Rabs_mult in H |- *. assert (Rabs ep * Rabs x <= 21 / 100000000 * Rabs p * Rabs x) by (apply Rmult_le_compat_r; [apply Rabs_pos|exact EP]). lra. }
    assert (X7 : Rabs ((ep * (q + g1)) * (z + e2)) <= 96 / 10000).
    { eapply Rle_trans; [apply mulb; [apply EPX; rewrite Rmult_plus_distr_l; apply addb; eassumption|apply addb; eassumption]|lra]. }
    assert (X8 : Rabs ((ep * (v + g2)) * (y + e1)) <= 96 / 10000).
    { eapply Rle_trans; [apply mulb; [apply EPX; rewrite Rmult_plus_distr_l; apply addb; eassumption|apply addb; eassumption]|lra]. }
    assert (X9 : Rabs (b01 * (g0 * (z + e2))) <= 96 / 10000) by (eapply Rle_trans; [apply mulb; [eassumption|apply mulb; [eassumption|apply addb; eassumption]]|lra]).
    assert (X10 : Rabs (b01 * ((v + g2) * e0)) <= 96 / 10000) by (eapply Rle_trans; [apply mulb; [eassumption|apply mulb; [apply addb; eassumption|eassumption]]|lra]).
    assert (X11 : Rabs (b02 * (g0 * (y + e1))) <= 96 / 10000) by (eapply Rle_trans; [apply mulb; [eassumption|apply mulb; [eassumption|apply addb; eassumption]]|lra]).
    assert (X12 : Rabs (b02 * ((q + g1) * e0)) <= 96 / 10000) by (eapply Rle_trans; [apply mulb; [eassumption|apply mulb; [apply addb; eassumption|eassumption]]|lra]).
    replace (b00 * (b11 * b22 - b12 * b21) - b01 * (b10 * b22 - b12 * b20) + b02 * (b10 * b21 - b11 * b20) - p * q * w) with
      (q * (p * e2) + (p * g1) * z + (p * g1) * e2 + - ((p * e1) * v) + - ((p * g2) * y) + - ((p * g2) * e1) + (ep * (q + g1)) * (z + e2) + - ((ep * (v + g2)) * (y + e1))
       + - (b01 * (g0 * (z + e2))) + b01 * ((v + g2) * e0) + b02 * (g0 * (y + e1)) + - (b02 * ((q + g1) * e0))) by (unfold ep, g0, g1, g2, e0, e1, e2, z, y; ring).
    eapply Rle_trans; [repeat (apply addb; [|first [eassumption|rewrite Rabs_Ropp; eassumption]]); eassumption|]. lra.
  Qed.
End Core.

(** the product of the pivots from a finite rounded one *)
Lemma prod_inv (o x y z : f32) : B2R o = 1 -> let d := Bmult mode_NE (Bmult mode_NE (Bmult mode_NE o x) y) z in
  is_finite d = true -> Rabs (B2R d) <= 1001 / 1000 -> Rabs (B2R x * B2R y * B2R z - B2R d) <= 1 / 1000.
Proof.
  intros O1 d Fd Bd. unfold d in *. destruct (fin_mult _ _ Fd) as (F2 & _ & E3). destruct (fin_mult _ _ F2) as (F1 & _ & E2). destruct (fin_mult _ _ F1) as (_ & _ & E1).
  rewrite O1, Rmult_1_l, rnd_self in E1. rewrite E1 in E2. set (D := B2R (Bmult mode_NE (Bmult mode_NE (Bmult mode_NE o x) y) z)) in *.
  destruct (rnd32_err (B2R x * B2R y)) as (e & h & He & Hh & R2). rewrite R2 in E2. rewrite E2 in E3. clear R2 E2 E1.
  destruct (rnd32_err ((B2R x * B2R y * (1 + e) + h) * B2R z)) as (e' & h' & He' & Hh' & R3). rewrite R3 in E3. clear R3.
  assert (HZ : Rabs (h * B2R z) <= 1 / 1000000).
  { rewrite Rabs_mult. apply Rle_trans with (bpow radix2 (-150) * bpow radix2 128); [apply Rmult_le_compat; auto using Rabs_pos; left; apply (abs_B2R_lt_emax prec emax)|].
    rewrite <- bpow_plus. apply Rle_trans with (bpow radix2 (-22)); [apply bpow_le; lia|cbn; lra]. }
  assert (H1 : Rabs h' <= 1 / 1000000) by (destruct eta_tau as [T0 T1]; unfold tau in *; lra).
  set (P := B2R x * B2R y * B2R z) in *. set (H := h * B2R z) in *. clearbody D.
  replace ((B2R x * B2R y * (1 + e) + h) * B2R z * (1 + e') + h') with ((P * (1 + e) + H) * (1 + e') + h') in E3 by (unfold P, H; ring).
  clearbody P H. clear - E3 HZ H1 He He' Bd. unfold u in *. apply Rabs_le_inv in HZ, H1, He, He', Bd. set (X := P * (1 + e) + H) in *.
  assert (X * (1 + e') = D - h') as EX by lra.
  assert (BX : -1002 / 1000 <= X <= 1002 / 1000) by (clearbody X; split; nra).
  assert (X1 : -1 / 10000 <= X * e' <= 1 / 10000) by (clearbody X; split; nra).
  assert (BP : -1003 / 1000 <= P <= 1003 / 1000) by (unfold X in *; clear - BX HZ He; split; nra).
  assert (P1 : -1 / 10000 <= P * e <= 1 / 10000) by (clear - BP He; split; nra).
  assert (X = P + P * e + H) by (unfold X; ring). apply Rabs_le. lra.
Qed.

(** the recognised matrix, its factors and the determinant the code tested *)
Lemma proper_sign lm (m : Mat (T (Arith := F32 lm))) (a : nat -> nat -> R) : mat_f m 3 3 a -> m_is_so_n m = Ok true -> Rabs (rdet 3 a - 1) <= 1 / 2.
Proof.
  intros HM Y. destruct (l_sound32 lm m 3 3 a HM (or_introl Y)) as [_ HO].
  assert (HB : forall i j, (i < 3)%nat -> (j < 3)%nat -> Rabs (a i j) <= 101 / 100).
  { intros i j Hi Hj. pose proof (HO i i Hi Hi) as K. unfold rid in K. rewrite Nat.eqb_refl in K. unfold rmul, rtr in K.
    pose proof (rnorm_sqr 3 (a i)) as SQ. unfold rdot in SQ. rewrite <- SQ in K. apply Rabs_le_inv in K. pose proof (rnorm_pos 3 (a i)). pose proof (rnorm_bound 3 (a i) j Hj). nra. }
  clear HO. destruct HM as (F0 & Hm & Ea). destruct (l_recognise (F32 lm) _ m 3 3 F0 Hm) as [Y1 _]. destruct (Y1 Y) as (_ & (d & Ed & Wd) & _). clear Y1 Y.
  destruct (within32_inv lm d (f1 (A := F32 lm)) 1) as [Fd Bd]; [apply one32|exact Wd|]. clear Wd.
  destruct (lup m) as [[lu p]|e|] eqn:El; [|exfalso; unfold m_det in Ed; rewrite (m_guard_square_is _ _ _ _ Hm), Nat.eqb_refl in Ed; cbn [rbind] in Ed; rewrite El in Ed; cbn [rbind] in Ed; discriminate..].
  pose proof (lup_wp (A := F32 lm) m 3 F0 Hm) as W. rewrite El in W. cbn [rwp] in W. destruct W as (F & pi & (H1 & H2 & Pp) & St). cbn [fst snd] in *. pose proof Pp as [PL PI].
  assert (FF : forall i j, (i < 3)%nat -> (j < 3)%nat -> is_finite (F i j : f32) = true) by (intros i j Hi Hj; apply (valid_finite lm); eapply mat_is_valid; eauto).
  set (f := fun i j => B2R (F (pi i) j : f32)). set (b := fun i j => a (pi i) j).
  pose proof (steps_F lm 3 (3 - 1) F0 F pi ltac:(lia) Pp FF St) as I.
  assert (E : forall i j, (i < 3)%nat -> (j < 3)%nat -> Rabs (b i j - rmul 3 (ulow f) (upp f) i j) <= 2 / 10000000 * Rsum 3 (fun t => amp (ulow f i t) * amp (upp f t j))).
  { intros i j Hi Hj. unfold b. rewrite <- Ea by (auto; apply PL, Hi). eapply Rle_trans; [apply (lu_err_end 3 _ _ pi ltac:(lia) I i j Hi Hj)|].
    apply Rmult_le_compat_r; [|pose proof gam_3; lra]. apply Rsum_nonneg. intros t Ht. apply Rmult_le_pos; left; apply amp_pos. }
  assert (PV : forall j, (j < 2)%nat -> 99 / 1000000 <= Rabs (f j j)).
  { intros j Hj. pose proof (steps_pivots (A := F32 lm) 3 2 F0 F pi ltac:(lia) St j Hj) as K. destruct (eps32 lm) as [FE [EL _]].
    change (Bltb (Babs (F (pi j) j : f32)) (EPSILON (A := F32 lm) : f32) = false) in K. rewrite Bltb_ok in K by first [exact FE|rewrite is_finite_Babs; apply FF; [apply PL|]; lia].
    rewrite B2R_Babs in K. destruct (Rlt_bool_spec (Rabs (B2R (F (pi j) j : f32))) (B2R (EPSILON (A := F32 lm) : f32))) as [|K2]; [discriminate|]. unfold f. lra. }
  assert (HB' : forall i j, (i < 3)%nat -> (j < 3)%nat -> Rabs (b i j) <= 101 / 100) by (intros i j Hi Hj; apply HB; auto).
  assert (HF : forall i j, (i < 3)%nat -> (j < 3)%nat -> Rabs (f i j) <= bpow radix2 128) by (intros i j Hi Hj; unfold f; left; apply (abs_B2R_lt_emax prec emax)).
  pose proof (m_det_ok (A := F32 lm) m 3 F0 lu p F pi Hm El H1 H2 Pp) as D. cbv zeta in D. cbn [range Nat.sub Nat.add seq fold_left] in D.
  set (d0 := Bmult mode_NE (Bmult mode_NE (Bmult mode_NE (f1 (A := F32 lm) : f32) (F (pi 0%nat) 0%nat)) (F (pi 1%nat) 1%nat)) (F (pi 2%nat) 2%nat)).
  assert (D' : m_det m = Ok (if flips 3 pi then Bopp d0 else d0 : f32)) by exact D. clear D. rewrite Ed in D'.
  assert (DD : (d : f32) = (if flips 3 pi then Bopp d0 else d0)) by (injection D' as D'; exact D'). clear D'.
  assert (F0' : is_finite d0 = true) by (rewrite DD in Fd; destruct (flips 3 pi); [rewrite is_finite_Bopp in Fd|]; exact Fd).
  assert (B0 : Rabs (B2R d0 - (if flips 3 pi then -1 else 1)) <= 10001 / 100000000).
  { rewrite DD in Bd. destruct (flips 3 pi); [|exact Bd]. rewrite B2R_Bopp in Bd. rewrite <- Rabs_Ropp. replace (- (B2R d0 - -1)) with (- B2R d0 - 1) by ring. exact Bd. }
  assert (B1 : Rabs (B2R d0) <= 1001 / 1000) by (clear - B0; apply Rabs_le_inv in B0; apply Rabs_le; destruct (flips 3 pi); split; lra).
  pose proof (prod_inv _ _ _ _ (one32 lm) F0' B1) as PR. fold d0 in PR. change (Rabs (f 0%nat 0%nat * f 1%nat 1%nat * f 2%nat 2%nat - B2R d0) <= 1 / 1000) in PR.
  assert (BD : Rabs (f 0%nat 0%nat * f 1%nat 1%nat * f 2%nat 2%nat) <= 101 / 100) by (clear - B1 PR; apply Rabs_le_inv in B1, PR; apply Rabs_le; split; lra).
  destruct (det_perm 3 pi a ltac:(lia) Pp) as [D1 D2]. cbn [Nat.eqb andb] in D2. rewrite Rmult_1_r in D2. fold b in D1. rewrite <- D2 in D1.
  assert (G : Rabs (rdet 3 b - f 0%nat 0%nat * f 1%nat 1%nat * f 2%nat 2%nat) <= 2 / 10).
  { clear D1 D2 PR B1 B0 F0' DD Fd Bd d0 d Ed El St I H1 H2 FF Hm Ea HB. clearbody f b. pose proof (PV 0%nat ltac:(lia)) as P0. pose proof (PV 1%nat ltac:(lia)) as Q0. clear PV.
    destruct least_small as [[L0 L1] L2]. pose proof (pow_lt 10 33 ltac:(lra)) as PW.
    assert (CC : forall X, 0 <= X <= 20 -> (forall i j, (i < 3)%nat -> (j < 3)%nat -> least * Rabs (f i j) <= X) -> least <= X -> least * least <= X ->
      forall i j, (i < 3)%nat -> (j < 3)%nat -> Rabs (b i j - rmul 3 (ulow f) (upp f) i j) <= 2 / 10000000 * Rsum 3 (fun t => Rabs (ulow f i t) * Rabs (upp f t j)) + 18 / 10000000 * X).
    { intros X PX HX X1 X2 i j Hi Hj. apply (cells b f E X PX); auto. intros i' j' Hi' Hj'. apply amp_sum; auto; lra. }
    assert (NINE : forall k, (forall i j, (i < 3)%nat -> (j < 3)%nat -> Rabs (b i j - rmul 3 (ulow f) (upp f) i j) <= 2 / 10000000 * Rsum 3 (fun t => Rabs (ulow f i t) * Rabs (upp f t j)) + k) ->
      let p := f 0%nat 0%nat in let s := f 0%nat 1%nat in let t := f 0%nat 2%nat in let l := f 1%nat 0%nat in let q := f 1%nat 1%nat in let v := f 1%nat 2%nat in let m := f 2%nat 0%nat in let n := f 2%nat 1%nat in let w := f 2%nat 2%nat in
      Rabs (b 0%nat 0%nat - p) <= 2 / 10000000 * Rabs p + k /\ Rabs (b 0%nat 1%nat - s) <= 2 / 10000000 * Rabs s + k /\ Rabs (b 0%nat 2%nat - t) <= 2 / 10000000 * Rabs t + k /\
      Rabs (b 1%nat 0%nat - l * p) <= 2 / 10000000 * (Rabs l * Rabs p) + k /\ Rabs (b 1%nat 1%nat - (l * s + q)) <= 2 / 10000000 * (Rabs l * Rabs s + Rabs q) + k /\
      Rabs (b 1%nat 2%nat - (l * t + v)) <= 2 / 10000000 * (Rabs l * Rabs t + Rabs v) + k /\ Rabs (b 2%nat 0%nat - m * p) <= 2 / 10000000 * (Rabs m * Rabs p) + k /\
      Rabs (b 2%nat 1%nat - (m * s + n * q)) <= 2 / 10000000 * (Rabs m * Rabs s + Rabs n * Rabs q) + k /\
      Rabs (b 2%nat 2%nat - (m * t + n * v + w)) <= 2 / 10000000 * (Rabs m * Rabs t + Rabs n * Rabs v + Rabs w) + k).
    { intros k C. cbv zeta. unfold rmul, ulow, upp, Nat.ltb in C. cbn [Rsum] in C.
      repeat split; [pose proof (C 0 0 ltac:(lia) ltac:(lia))%nat as K|pose proof (C 0 1 ltac:(lia) ltac:(lia))%nat as K|pose proof (C 0 2 ltac:(lia) ltac:(lia))%nat as K
        |pose proof (C 1 0 ltac:(lia) ltac:(lia))%nat as K|pose proof (C 1 1 ltac:(lia) ltac:(lia))%nat as K|pose proof (C 1 2 ltac:(lia) ltac:(lia))%nat as K
        |pose proof (C 2 0 ltac:(lia) ltac:(lia))%nat as K|pose proof (C 2 1 ltac:(lia) ltac:(lia))%nat as K|pose proof (C 2 2 ltac:(lia) ltac:(lia))%nat as K];
      cbn [Nat.eqb Nat.leb] in K; rewrite ?Rabs_R0, ?Rabs_R1, ?Rmult_0_l, ?Rmult_0_r, ?Rmult_1_l, ?Rplus_0_l, ?Rplus_0_r in K; exact K. }
    assert (BB : Rabs (b 0%nat 0%nat) <= 101 / 100 /\ Rabs (b 0%nat 1%nat) <= 101 / 100 /\ Rabs (b 0%nat 2%nat) <= 101 / 100 /\ Rabs (b 1%nat 0%nat) <= 101 / 100 /\ Rabs (b 1%nat 1%nat) <= 101 / 100 /\
      Rabs (b 1%nat 2%nat) <= 101 / 100 /\ Rabs (b 2%nat 0%nat) <= 101 / 100 /\ Rabs (b 2%nat 1%nat) <= 101 / 100 /\ Rabs (b 2%nat 2%nat) <= 101 / 100) by (repeat split; apply HB'; lia).
    assert (C1 := CC 16 ltac:(lra) ltac:(intros i j Hi Hj; rewrite <- L2; apply Rmult_le_compat_l; [lra|auto]) ltac:(cbn [pow] in L1; lra) ltac:(cbn [pow] in L1; nra)).
    assert (K16 : 0 <= 18 / 10000000 * 16 <= 3 / 100000) by lra.
    apply NINE in C1. cbv zeta in C1. destruct C1 as (E00 & E01 & E02 & E10 & E11 & E12 & E20 & E21 & E22).
    pose proof (core_sizes _ _ _ _ _ _ _ _ _ _ _ _ _ _ _ _ _ _ _ BB P0 Q0 K16 E00 E01 E02 E10 E11 E12 E20 E21 E22) as (Z1 & Z2 & Z3 & _).
    pose proof (core_sizes2 _ _ _ _ _ _ _ _ _ _ _ _ _ _ _ _ _ _ _ BB P0 Q0 K16 E00 E01 E02 E10 E11 E12 E20 E21 E22) as (Z4 & Z5 & Z6 & Z7 & _ & Z8 & Z9).
    clear E00 E01 E02 E10 E11 E12 E20 E21 E22.
    assert (ALL : forall i j, (i < 3)%nat -> (j < 3)%nat -> Rabs (f i j) <= 10 ^ 13).
    { assert (T13 : 10 ^ 13 = 10000000000000) by (cbn [pow]; ring). rewrite T13 in *. intros i j Hi Hj. destruct i as [|[|[|i]]], j as [|[|[|j]]]; try lia; lra. }
    assert (C2 := CC (/ 10 ^ 20)).
    assert (LL : / 10 ^ 33 * 10 ^ 13 = / 10 ^ 20) by (cbn [pow]; field).
    assert (I20 : 0 < / 10 ^ 20 <= 1 / 100000000000000000000) by (cbn [pow]; lra).
    assert (I33 : / 10 ^ 33 <= / 10 ^ 20) by (cbn [pow]; lra).
    specialize (C2 ltac:(lra) ltac:(intros i j Hi Hj; rewrite <- LL; apply Rmult_le_compat; auto using Rabs_pos; lra) ltac:(lra)).
    specialize (C2 ltac:(apply Rle_trans with (least * 1); [apply Rmult_le_compat_l; lra|lra])).
    assert (K20 : 0 <= 18 / 10000000 * / 10 ^ 20 <= 3 / 100000) by lra. assert (K14 : 18 / 10000000 * / 10 ^ 20 <= / 10 ^ 14) by (cbn [pow] in I20 |- *; lra).
    apply NINE in C2. cbv zeta in C2. destruct C2 as (E00 & E01 & E02 & E10 & E11 & E12 & E20 & E21 & E22).
    rewrite det3. exact (core_det _ _ _ _ _ _ _ _ _ _ _ _ _ _ _ _ _ _ _ BB P0 Q0 K20 E00 E01 E02 E10 E11 E12 E20 E21 E22 K14 BD). }
  rewrite D1 in G. clear - G PR B0. apply Rabs_le_inv in G, PR, B0. apply Rabs_le. destruct (flips 3 pi); split; lra.
Qed.

(*@ C74_sound_proper *)
(** C74: and for 3 x 3 the answer yes of [is_so_n] excludes reflections: the determinant itself, computed exactly, is within
    1.6e-4 of 1, however small the pivots were (the determinant the code tests may be off by far more than EPSILON) *)
Lemma l_sound_proper :
  forall (lm : Libm) (m : Mat (T (Arith := F32 lm))) (a : nat -> nat -> R), mat_f m 3 3 a ->
  m_is_so_n m = Ok true -> Rabs (rdet 3 a - 1) <= 16 / 100000.
Proof.
  intros lm m a Hm Y. pose proof (l_sound_det lm m a Hm (or_introl Y)) as D. pose proof (proper_sign lm m a Hm Y) as S1.
  apply Rabs_le_inv in S1. rewrite (Rabs_pos_eq (rdet 3 a)) in D by lra. exact D.
Qed.

(*@ C74_reflection *)
(** C74: so a reflection (determinant not positive) is never recognised, whatever its elements *)
Lemma l_reflection :
  forall (lm : Libm) (m : Mat (T (Arith := F32 lm))) (a : nat -> nat -> R), mat_f m 3 3 a -> rdet 3 a <= 0 -> m_is_so_n m <> Ok true.
Proof. intros lm m a Hm D Y. pose proof (l_sound_proper lm m a Hm Y) as K. apply Rabs_le_inv in K. lra. Qed.

Lemma proper_ex : forall lm : Libm, let m := mk_mat (A := F32 lm) 3 3 (map z32 [0; -1; 0; 1; 0; 0; 0; 0; -1]%Z) in
  mat_f (lm := lm) m 3 3 (fun i j => IZR (nth (i * 3 + j) [0; -1; 0; 1; 0; 0; 0; 0; -1]%Z 0%Z)) /\
  rdet 3 (fun i j => IZR (nth (i * 3 + j) [0; -1; 0; 1; 0; 0; 0; 0; -1]%Z 0%Z)) = -1 /\ m_is_orthogonal m = Ok true /\ m_is_so_n m = Ok false.
Proof.
  intros lm m. split; [apply (mat_z lm 3 3); [lia|lia|reflexivity|repeat constructor; cbn; lia]|]. split; [rewrite det3; cbn; lra|]. split; vm_compute; reflexivity.
Qed.
(*@ example *)
(** test: a quarter turn about z followed by a reflection is orthogonal but not recognised as a rotation *)
Example C74_example_reflection : forall lm : Libm, let m := mk_mat (A := F32 lm) 3 3 (map z32 [0; -1; 0; 1; 0; 0; 0; 0; -1]%Z) in
  mat_f (lm := lm) m 3 3 (fun i j => IZR (nth (i * 3 + j) [0; -1; 0; 1; 0; 0; 0; 0; -1]%Z 0%Z)) /\
  rdet 3 (fun i j => IZR (nth (i * 3 + j) [0; -1; 0; 1; 0; 0; 0; 0; -1]%Z 0%Z)) = -1 /\ m_is_orthogonal m = Ok true /\ m_is_so_n m = Ok false.
Proof. exact proper_ex. Qed.
