(** C74: recognising rotations and the determinant in f32. *)
(*@+*)
From Coq Require Import List Arith ZArith Reals Lia Bool Lra SpecFloat.
From Flocq Require Import Core BinarySingleNaN.
From Verif Require Import M_Base M_Arith M_Utils M_Vector M_Matrix M_F32 M_RX
  S_Spec S_Linalg S_Norm S_Lu S_F32 P_Inst P_InstF.
Import ListNotations.
Local Open Scope R_scope.
(*@-*)
From Coq Require Import Psatz.
From Verif Require Import S_Compare P_Compare P_Hoare P_Cont P_Loops P_Access P_Pointwise P_Trans P_Float P_Product P_Norm P_Dot P_FErr P_FAcc P_F32App P_Lup P_Lup32 P_Det P_So P_Chol32 P_Qr32 S_Lu32.

(** ** the exact course of [lup] *)
Section Run.
  Context {A : Arith} {OK : ArithOk A}.
  Implicit Types (F G : nat -> nat -> T) (pi : nat -> nat).
  Local Open Scope nat_scope.
  Fixpoint runs (n k : nat) F0 F pi : Prop :=
    match k with
    | 0 => (forall i j, i < n -> j < n -> F i j = F0 i j) /\ (forall i, i < n -> pi i = i)
    | S k' => exists F1 pi1, perm n pi1 /\ runs n k' F0 F1 pi1 /\ step_run n k' F1 pi1 F pi
    end.
  Lemma lup_run m n F0 : mat_is m n n F0 ->
    rwp (lup m)
      (fun s => exists F pi, st_is n s F pi /\ runs n (n - 1) F0 F pi)
      (fun e => exists k F pi, S k < n /\ perm n pi /\ runs n k F0 F pi /\ let pi' := exch pi k (piv n F pi k) in
        ((e = Singular /\ (fabs (F (pi' k) k) <? EPSILON)%F = true) \/
         exists u i j, e = UtilsErr u /\ i < n /\ j < n /\ (fabs (F (pi' k) k) <? EPSILON)%F = false /\ bad (elim k (fun a b => F (pi' a) b) i j) = Some u)) False.
  Proof.
    intros Hm. destruct (mat_is_dim _ _ _ _ Hm) as [Dn _].
    unfold lup, m_get_rows, m_get_cols. rewrite (mi_init _ _ _ _ Hm), (mi_rows _ _ _ _ Hm), (mi_cols _ _ _ _ Hm). cbn [negb rbind].
    destruct (m_init_new n n Dn Dn) as (m0 & E0 & H0). rewrite (exec_step _ _ _ _ E0).
    destruct (m_copy_from_ok m0 m n n _ _ H0 Hm) as (m1 & E1 & H1). unfold exec at 1. rewrite E1. cbn [rbind].
    destruct (idx_init n Dn) as (p & Ep & Hp). rewrite Ep. cbn [rbind].
    apply wp_exec. apply wp_for with (I := fun k s => exists F pi, st_is n s F pi /\ runs n k F0 F pi).
    - exists F0, (fun i => i). split; [|cbn; auto]. split; [exact H1|]. split; [exact Hp|apply perm_id].
    - intros k s Hk (F & pi & Hs & St). eapply wp_conseq; [apply lup_step_run with (1 := Hs); lia| | |tauto].
      + intros [] s' (F' & pi' & Hs' & R'). exists F', pi'. split; auto. cbn [runs]. exists F, pi. split; [apply Hs|]. auto.
      + intros e s' K. exists k, F, pi. split; [lia|]. split; [apply Hs|]. split; [exact St|]. exact K.
    - intros s H. rewrite Nat.max_0_l in H. exact H.
  Qed.
  (** 3 x 3: no exchange in the first step, and the exchange of the second step picks an element that is too small *)
  Lemma refused m f : mat_is m 3 3 f -> (f 1 0 >? f 0 0)%F = false -> (f 2 0 >? f 0 0)%F = false -> (fabs (f 0 0) <? EPSILON)%F = false ->
    let g := elim 0 f in (forall i j, i < 3 -> j < 3 -> valid (g i j)) -> (g 2 1 >? g 1 0)%F = true -> (fabs (g 2 1) <? EPSILON)%F = true ->
    lup m = Err Singular.
  Proof.
    intros Hm C1 C2 P0 g V C3 P1. pose proof (lup_run m 3 f Hm) as W.
    assert (K0 : forall F pi, runs 3 0 f F pi -> piv 3 F pi 0 = 0).
    { intros F pi [EF Ep]. unfold piv. cbn [Nat.add Nat.sub srch].
      assert (I1 : (F (pi 1%nat) 0%nat >? F (pi 0%nat) 0%nat)%F = false) by (rewrite !Ep by lia; rewrite !EF by lia; exact C1).
      assert (I2 : (F (pi 2%nat) 0%nat >? F (pi 0%nat) 0%nat)%F = false) by (rewrite !Ep by lia; rewrite !EF by lia; exact C2).
      rewrite I1, I2. reflexivity. }
    assert (X0 : forall pi i, (forall i, i < 3 -> pi i = i) -> i < 3 -> exch pi 0 0 i = i).
    { intros pi i Ep Hi. unfold exch. destruct (Nat.eqb_spec i 0); [subst; apply Ep; lia|]. apply Ep, Hi. }
    assert (E0 : forall F pi, runs 3 0 f F pi -> forall i j, i < 3 -> j < 3 -> elim 0 (fun a b => F (exch pi 0 (piv 3 F pi 0) a) b) i j = g i j).
    { intros F pi R i j Hi Hj. rewrite (K0 F pi R). destruct R as [EF Ep]. unfold g, elim. rewrite !(X0 pi) by (auto; lia). rewrite !EF by lia. reflexivity. }
    assert (K1 : forall F pi, runs 3 1 f F pi -> (forall i, i < 3 -> pi i = i) /\ (forall i j, i < 3 -> j < 3 -> F i j = g i j)).
    { intros F pi (F1 & pi1 & Pp & R0 & S1 & S2 & S3). assert (Ei : forall i, i < 3 -> pi i = i) by (intros i Hi; rewrite S1, (K0 _ _ R0) by exact Hi; apply X0; [apply R0|exact Hi]). split; [exact Ei|]. 
      intros i j Hi Hj. rewrite <- (Ei i Hi) at 1. rewrite S3 by auto. rewrite <- (E0 F1 pi1 R0 i j Hi Hj). unfold elim. rewrite <- !S1 by lia. reflexivity. }
    assert (K2 : forall F pi, runs 3 1 f F pi -> F (exch pi 1 (piv 3 F pi 1) 1) 1 = g 2 1).
    { intros F pi R. destruct (K1 F pi R) as [Ei EF]. assert (EP : piv 3 F pi 1 = 2).
      { unfold piv. cbn [Nat.add Nat.sub srch].
        assert (I : (F (pi 2%nat) 1%nat >? F (pi 1%nat) 0%nat)%F = true) by (rewrite !Ei by lia; rewrite !EF by lia; exact C3). rewrite I. reflexivity. }
      rewrite EP. unfold exch. cbn [Nat.eqb]. rewrite Ei by lia. apply EF; lia. }
    destruct (lup m) as [s|e|]; cbn [rwp] in W; [| |tauto].
    - destruct W as (F & pi & _ & R). change (3 - 1) with 2 in R. destruct R as (F1 & pi1 & Pp & R & S1 & S2 & S3). rewrite S1 in S2 by lia. rewrite (K2 F1 pi1 R) in S2. congruence.
    - destruct W as (k & F & pi & Hk & Pp & R & W). cbv zeta in W. assert (k = 0 \/ k = 1) as [-> | ->] by lia.
      + exfalso. assert (P0' : (fabs (F (exch pi 0 (piv 3 F pi 0) 0) 0) <? EPSILON)%F = false).
        { rewrite (K0 F pi R). destruct R as [EF Ep]. rewrite (X0 pi) by (auto; lia). rewrite EF by lia. exact P0. }
        destruct W as [(_ & W)|(u & i & j & _ & Hi & Hj & _ & W)]; [congruence|]. rewrite (E0 F pi R i j Hi Hj) in W.
        specialize (V i j Hi Hj). apply bad_None in V. congruence.
      + rewrite (K2 F pi R) in W. destruct W as [(-> & _)|(u & i & j & _ & _ & _ & W & _)]; [reflexivity|congruence].
  Qed.
End Run.

(** ** what [refused] means for the callers *)
Lemma refused_all {A : Arith} {OK : ArithOk A} m n f : mat_is m n n f -> lup m = Err Singular ->
  m_det m = Err Singular /\ m_is_so_n m = Err Singular /\ m_is_orthogonal m = Err Singular /\ m_log m = Err Singular /\ m_invert m = (m, Err NotInversible).
Proof.
  intros Hm E. destruct (mat_is_dim _ _ _ _ Hm) as [Dn _].
  assert (D : m_det m = Err Singular) by (unfold m_det; rewrite (m_guard_square_is _ _ _ _ Hm), Nat.eqb_refl; cbn [rbind]; rewrite E; reflexivity).
  assert (S : m_is_so_n m = Err Singular) by (unfold m_is_so_n; rewrite D; reflexivity).
  split; [exact D|]. split; [exact S|]. split; [unfold m_is_orthogonal; rewrite D; reflexivity|]. split; [unfold m_log; rewrite S; reflexivity|].
  unfold m_invert, sbind at 1, reads. rewrite (m_guard_square_is _ _ _ _ Hm), Nat.eqb_refl. cbn [rbind].
  destruct (v_init_new (A := A) n Dn) as (v & Ev & Hv). unfold sbind, lift, exec. rewrite (mi_rows _ _ _ _ Hm), Ev, E. reflexivity.
Qed.

Lemma rnd_self (x : f32) : rnd32 (B2R x) = B2R x.
Proof. unfold rnd32. apply round_generic; [apply valid_rnd_N|]. apply generic_format_B2R. Qed.
Lemma rnd_0 : rnd32 0 = 0.
Proof. unfold rnd32. apply round_0. apply valid_rnd_N. Qed.

(*@ C74_refused *)
(** C74, violation for a whole class, every libm: a 3 x 3 matrix with zero in the lower left corner, a first element that is not
    too small, nothing positive below it and at most 9e-5 in the middle of the last row (but more than below the first
    element) is refused by [det], [is_so_n], [is_orthogonal], [log] and [invert], whatever the other elements are.  Every
    clockwise turn about z below a right angle (a10 < 0 = a21) and every counterclockwise turn about x by at most 9e-5 rad
    (a10 = 0 < a21) is such a matrix *)
Lemma l_refused32 :
  forall (lm : Libm) (m : Mat (T (Arith := F32 lm))) (a : nat -> nat -> R), mat_f m 3 3 a ->
  (forall i j, (i < 3)%nat -> (j < 3)%nat -> Rabs (a i j) <= 2) -> 2 / 10000 <= a 0%nat 0%nat -> a 2%nat 0%nat = 0 ->
  a 1%nat 0%nat <= 0 <= a 2%nat 1%nat -> a 1%nat 0%nat + / 10 ^ 30 <= a 2%nat 1%nat <= 9 / 100000 ->
  m_det m = Err Singular /\ m_is_so_n m = Err Singular /\ m_is_orthogonal m = Err Singular /\ m_log m = Err Singular /\ m_invert m = (m, Err NotInversible).
Proof.
  intros lm m a (F & Hm & Ea) HB A0 A2 A1 A21. apply (refused_all m 3 F Hm).
  assert (FF : forall i j, (i < 3)%nat -> (j < 3)%nat -> is_finite (F i j : f32) = true) by (intros i j Hi Hj; apply (valid_finite lm); eapply mat_is_valid; eauto).
  destruct (eps32 lm) as [FE [EL EU]]. destruct eta_tau as [T0 T1]. assert (T2 : tau = / 10 ^ 30) by (unfold tau; f_equal; cbn [pow]; lra). rewrite <- T2 in A21.
  assert (B127 : 1000000 <= bpow radix2 127) by (apply Rle_trans with (bpow radix2 20); [cbn; lra|apply bpow_le; lia]).
  pose proof (Ea 0 0 ltac:(lia) ltac:(lia))%nat as E00. pose proof (Ea 1 0 ltac:(lia) ltac:(lia))%nat as E10. pose proof (Ea 2 0 ltac:(lia) ltac:(lia))%nat as E20. pose proof (Ea 2 1 ltac:(lia) ltac:(lia))%nat as E21.
  assert (I0 : 0 < / a 0%nat 0%nat <= 5000) by (split; [apply Rinv_0_lt_compat; lra|replace 5000 with (/ (2 / 10000)) by lra; apply Rinv_le; lra]).
  assert (Q : forall i, (i < 3)%nat -> is_finite (Bdiv mode_NE (F i 0%nat) (F 0%nat 0%nat) : f32) = true /\ B2R (Bdiv mode_NE (F i 0%nat) (F 0%nat 0%nat) : f32) = rnd32 (a i 0%nat / a 0%nat 0%nat) /\ Rabs (B2R (Bdiv mode_NE (F i 0%nat) (F 0%nat 0%nat) : f32)) <= 20000).
  { intros i Hi. pose proof (HB i 0%nat Hi ltac:(lia)) as Bi. assert (Bq : Rabs (a i 0%nat / a 0%nat 0%nat) <= 10000).
    { unfold Rdiv. rewrite Rabs_mult, (Rabs_pos_eq (/ _)) by lra. pose proof (Rabs_pos (a i 0%nat)). nra. }
    destruct (div_ok (F i 0%nat) (F 0%nat 0%nat)) as [K1 K2]; [apply FF; lia|rewrite E00; lra|rewrite E00, Ea by lia; lra|]. rewrite E00, Ea in K2 by lia.
    split; [exact K1|]. split; [exact K2|]. rewrite K2. eapply Rle_trans; [apply (rnd32_bound _ 14); [lia|cbn; lra]|]. cbn. lra. }
  assert (G : forall i j, (1 <= i < 3)%nat -> (1 <= j < 3)%nat -> is_finite (Bmult mode_NE (F 0%nat j) (Bdiv mode_NE (F i 0%nat) (F 0%nat 0%nat)) : f32) = true /\
    B2R (Bmult mode_NE (F 0%nat j) (Bdiv mode_NE (F i 0%nat) (F 0%nat 0%nat)) : f32) = rnd32 (a 0%nat j * B2R (Bdiv mode_NE (F i 0%nat) (F 0%nat 0%nat) : f32)) /\
    is_finite (Bminus mode_NE (F i j) (Bmult mode_NE (F 0%nat j) (Bdiv mode_NE (F i 0%nat) (F 0%nat 0%nat))) : f32) = true /\
    B2R (Bminus mode_NE (F i j) (Bmult mode_NE (F 0%nat j) (Bdiv mode_NE (F i 0%nat) (F 0%nat 0%nat))) : f32) = rnd32 (a i j - B2R (Bmult mode_NE (F 0%nat j) (Bdiv mode_NE (F i 0%nat) (F 0%nat 0%nat)) : f32))).
  { intros i j Hi Hj. destruct (Q i ltac:(lia)) as (Q1 & _ & Q3). pose proof (HB 0%nat j ltac:(lia) ltac:(lia)) as Bj. pose proof (HB i j ltac:(lia) ltac:(lia)) as Bij.
    set (qq := Bdiv mode_NE (F i 0%nat) (F 0%nat 0%nat) : f32) in *.
    assert (BP : Rabs (a 0%nat j * B2R qq) <= 40000) by (rewrite Rabs_mult; pose proof (Rabs_pos (a 0%nat j)); pose proof (Rabs_pos (B2R qq)); nra).
    destruct (mult_ok (F 0%nat j) qq) as [K1 K2]; [apply FF; lia|exact Q1|rewrite Ea by lia; lra|]. rewrite Ea in K2 by lia.
    assert (BM : Rabs (B2R (Bmult mode_NE (F 0%nat j) qq)) <= 70000) by (rewrite K2; eapply Rle_trans; [apply (rnd32_bound _ 16); [lia|cbn; lra]|]; cbn; lra).
    split; [exact K1|]. split; [exact K2|]. set (p := Bmult mode_NE (F 0%nat j) qq) in *.
    destruct (minus_ok (F i j) p) as [K3 K4]; [apply FF; lia|exact K1| |].
    - rewrite Ea by lia. eapply Rle_trans; [apply Rabs_triang|]. rewrite Rabs_Ropp. lra.
    - rewrite Ea in K4 by lia. split; [exact K3|exact K4]. }
  assert (G21 : B2R (elim (A := F32 lm) 0 F 2 1 : f32) = a 2%nat 1%nat).
  { destruct (G 2 1 ltac:(lia) ltac:(lia))%nat as (_ & G2 & _ & G4). destruct (Q 2%nat ltac:(lia)) as (_ & Q2 & _). change (elim (A := F32 lm) 0 F 2 1) with (Bminus mode_NE (F 2%nat 1%nat) (Bmult mode_NE (F 0%nat 1%nat) (Bdiv mode_NE (F 2%nat 0%nat) (F 0%nat 0%nat))) : f32).
    rewrite G4, G2, Q2, A2. unfold Rdiv. rewrite Rmult_0_l, rnd_0, Rmult_0_r, rnd_0, Rminus_0_r, <- E21. apply rnd_self. }
  assert (F21 : is_finite (elim (A := F32 lm) 0 F 2 1 : f32) = true) by (apply (G 2 1 ltac:(lia) ltac:(lia))%nat).
  assert (G10 : B2R (elim (A := F32 lm) 0 F 1 0 : f32) < a 2%nat 1%nat).
  { destruct (Q 1%nat ltac:(lia)) as (_ & Q2 & _). change (elim (A := F32 lm) 0 F 1 0) with (Bdiv mode_NE (F 1%nat 0%nat) (F 0%nat 0%nat) : f32). rewrite Q2.
    pose proof (HB 0 0 ltac:(lia) ltac:(lia))%nat as B0. apply Rabs_le_inv in B0. assert (I1 : / 2 <= / a 0%nat 0%nat) by (apply Rinv_le; lra).
    assert (X : a 1%nat 0%nat / a 0%nat 0%nat <= a 1%nat 0%nat * / 2) by (unfold Rdiv; nra). set (x := a 1%nat 0%nat / a 0%nat 0%nat) in *.
    destruct (rnd32_err x) as (e & h & He & Hh & ->). apply Rabs_le_inv in He. apply Rabs_le_inv in Hh. assert (x * (1 + e) <= a 1%nat 0%nat * (49 / 100)) by (unfold u in He; nra). lra. }
  apply (refused (A := F32 lm) m F Hm).
  - change (Bltb (F 0%nat 0%nat : f32) (F 1%nat 0%nat) = false). rewrite Bltb_ok by (apply FF; lia). rewrite E00, E10. apply Rlt_bool_false. lra.
  - change (Bltb (F 0%nat 0%nat : f32) (F 2%nat 0%nat) = false). rewrite Bltb_ok by (apply FF; lia). rewrite E00, E20. apply Rlt_bool_false. lra.
  - change (Bltb (Babs (F 0%nat 0%nat : f32)) (EPSILON (A := F32 lm)) = false). rewrite Bltb_ok by (try exact FE; rewrite is_finite_Babs; apply FF; lia). rewrite B2R_Babs, E00. apply Rlt_bool_false. rewrite Rabs_pos_eq by lra. lra.
  - intros i j Hi Hj. apply (valid_finite lm). destruct i as [|i]; [apply FF; lia|]. destruct j as [|j].
    + apply (Q (S i)). lia.
    + apply (G (S i) (S j)); lia.
  - change (Bltb (elim (A := F32 lm) 0 F 1 0 : f32) (elim (A := F32 lm) 0 F 2 1) = true). rewrite Bltb_ok; [rewrite G21; apply Rlt_bool_true, G10|apply (Q 1%nat); lia|exact F21].
  - change (Bltb (Babs (elim (A := F32 lm) 0 F 2 1 : f32)) (EPSILON (A := F32 lm)) = true). rewrite Bltb_ok by (try exact FE; rewrite is_finite_Babs; exact F21). rewrite B2R_Babs, G21. apply Rlt_bool_true. rewrite Rabs_pos_eq; lra.
Qed.

(** ** over the reals every clockwise turn about z is refused *)
(*@ C74_clockwise *)
(** C74, violation over exact reals: every clockwise turn about z by less than a right angle is refused (until its cosine
    falls below EPSILON), although it is a rotation *)
Lemma l_refused_real :
  forall (m : Mat (T (Arith := RX))) (phi : R), 0 < phi < PI / 2 -> eps <= cos phi ->
  let a := fun i j => nth (i * 3 + j) [cos phi; sin phi; 0; - sin phi; cos phi; 0; 0; 0; 1] 0 in
  mat_r m 3 3 a ->
  req 3 3 (rmul 3 a (rtr a)) rid /\ rdet 3 a = 1 /\
  m_det m = Err Singular /\ m_is_so_n m = Err Singular /\ m_is_orthogonal m = Err Singular /\ m_log m = Err Singular /\ m_invert m = (m, Err NotInversible).
Proof.
  intros m phi Hp Hc a Hm. pose proof (sin2_cos2 phi) as SC. unfold Rsqr in SC. pose proof eps_pos as EP.
  assert (S0 : 0 < sin phi) by (apply sin_gt_0; lra).
  split; [|split].
  - intros i j Hi Hj. unfold a, rmul, rtr, rid. cbn [Rsum]. destruct i as [|[|[|i]]], j as [|[|[|j]]]; try lia; cbn [nth Nat.add Nat.mul Nat.eqb]; lra.
  - unfold a, rdet, Nat.ltb. cbn. lra.
  - apply (refused_all (A := RX) m 3 _ Hm). set (f := fun i j => Some (a i j) : T (Arith := RX)).
    assert (Q : forall x, rx_div (Some x) (Some (cos phi)) = Some (x / cos phi)) by (intros x; unfold rx_div; rewrite Req_bool_false by lra; reflexivity).
    assert (E0 : forall i, (i < 3)%nat -> elim (A := RX) 0 f 0 i = f 0%nat i) by (intros i Hi; reflexivity).
    assert (E1 : forall i, (1 <= i < 3)%nat -> elim (A := RX) 0 f i 0 = Some (a i 0%nat / cos phi)) by (intros i Hi; destruct i as [|i]; [lia|]; apply Q).
    assert (E2 : forall i j, (1 <= i < 3)%nat -> (1 <= j < 3)%nat -> elim (A := RX) 0 f i j = Some (a i j - a 0%nat j * (a i 0%nat / cos phi))).
    { intros i j Hi Hj. destruct i as [|i]; [lia|]. destruct j as [|j]; [lia|]. change (rx2 Rminus (Some (a (S i) (S j))) (rx2 Rmult (Some (a 0%nat (S j))) (rx_div (Some (a (S i) 0%nat)) (Some (cos phi)))) = Some (a (S i) (S j) - a 0%nat (S j) * (a (S i) 0%nat / cos phi))). rewrite Q. reflexivity. }
    apply (refused (A := RX) m f Hm).
    + change (Rlt_bool (cos phi) (- sin phi) = false). apply Rlt_bool_false. lra.
    + change (Rlt_bool (cos phi) 0 = false). apply Rlt_bool_false. lra.
    + change (f 0%nat 0%nat) with (Some (cos phi)). rewrite pivot_RX. apply Rlt_bool_false. rewrite Rabs_pos_eq; lra.
    + intros i j Hi Hj. destruct i as [|i]; [rewrite E0 by lia; apply valid_RX|]. destruct j as [|j]; [rewrite E1 by lia|rewrite E2 by lia]; apply valid_RX.
    + rewrite E1, E2 by lia. change (Rlt_bool (- sin phi / cos phi) (0 - sin phi * (0 / cos phi)) = true). apply Rlt_bool_true.
      assert (0 < sin phi / cos phi) by (apply Rdiv_lt_0_compat; lra). unfold Rdiv in *. lra.
    + rewrite E2 by lia. rewrite pivot_RX. apply Rlt_bool_true. change (Rabs (0 - sin phi * (0 / cos phi)) < eps). unfold Rdiv. rewrite Rmult_0_l, Rmult_0_r, Rminus_0_r, Rabs_R0. exact EP.
Qed.

(** ** the determinant *)
Lemma det3 (g : nat -> nat -> R) : rdet 3 g =
  g 0%nat 0%nat * (g 1%nat 1%nat * g 2%nat 2%nat - g 1%nat 2%nat * g 2%nat 1%nat) - g 0%nat 1%nat * (g 1%nat 0%nat * g 2%nat 2%nat - g 1%nat 2%nat * g 2%nat 0%nat) +
  g 0%nat 2%nat * (g 1%nat 0%nat * g 2%nat 1%nat - g 1%nat 1%nat * g 2%nat 0%nat).
Proof. unfold rdet, Nat.ltb. cbn. ring. Qed.
Lemma abs_mul3 x y z X Y Z : Rabs x <= X -> Rabs y <= Y -> Rabs z <= Z -> Rabs (x * (y * z)) <= X * (Y * Z).
Proof.
  intros H1 H2 H3. rewrite !Rabs_mult. pose proof (Rabs_pos x). pose proof (Rabs_pos y). pose proof (Rabs_pos z).
  apply Rmult_le_compat; auto. apply Rmult_le_pos; auto. apply Rmult_le_compat; auto.
Qed.
Lemma det3_bound g X Y Z : (forall j, (j < 3)%nat -> Rabs (g 0%nat j) <= X) -> (forall j, (j < 3)%nat -> Rabs (g 1%nat j) <= Y) -> (forall j, (j < 3)%nat -> Rabs (g 2%nat j) <= Z) ->
  Rabs (rdet 3 g) <= 6 * (X * (Y * Z)).
Proof.
  intros H0 H1 H2. rewrite det3.
  pose proof (fun i j k Hi Hj Hk => abs_mul3 _ _ _ X Y Z (H0 i Hi) (H1 j Hj) (H2 k Hk)) as K.
  pose proof (K 0 1 2 ltac:(lia) ltac:(lia) ltac:(lia))%nat as K1. pose proof (K 0 2 1 ltac:(lia) ltac:(lia) ltac:(lia))%nat as K2. pose proof (K 1 0 2 ltac:(lia) ltac:(lia) ltac:(lia))%nat as K3.
  pose proof (K 1 2 0 ltac:(lia) ltac:(lia) ltac:(lia))%nat as K4. pose proof (K 2 0 1 ltac:(lia) ltac:(lia) ltac:(lia))%nat as K5. pose proof (K 2 1 0 ltac:(lia) ltac:(lia) ltac:(lia))%nat as K6.
  apply Rabs_le_inv in K1, K2, K3, K4, K5, K6. apply Rabs_le. split; lra.
Qed.
(** changing the rows by [e0], [e1], [e2] *)
Lemma det3_change b g e0 e1 e2 : 0 <= e0 <= 1 / 1000 -> 0 <= e1 <= 1 / 1000 -> 0 <= e2 ->
  (forall i j, (i < 3)%nat -> (j < 3)%nat -> Rabs (b i j) <= 101 / 100) ->
  (forall j, (j < 3)%nat -> Rabs (b 0%nat j - g 0%nat j) <= e0) -> (forall j, (j < 3)%nat -> Rabs (b 1%nat j - g 1%nat j) <= e1) -> (forall j, (j < 3)%nat -> Rabs (b 2%nat j - g 2%nat j) <= e2) ->
  Rabs (rdet 3 b - rdet 3 g) <= 6 * (104 / 100) * (e0 + e1 + e2).
Proof.
  intros P0 P1 P2 B H0 H1 H2.
  set (h := fun k i j => if (i =? k)%nat then b i j - g i j else if (i <? k)%nat then g i j else b i j).
  assert (E : rdet 3 b - rdet 3 g = rdet 3 (h 0%nat) + rdet 3 (h 1%nat) + rdet 3 (h 2%nat)) by (rewrite !det3; unfold h, Nat.ltb; cbn [Nat.eqb Nat.leb]; ring).
  assert (G : forall i e j, (i < 3)%nat -> (j < 3)%nat -> e <= 1 / 1000 -> Rabs (b i j - g i j) <= e -> Rabs (g i j) <= 1011 / 1000).
  { intros i e j Hi Hj He H. specialize (B i j Hi Hj). apply Rabs_le_inv in B, H. apply Rabs_le. split; lra. }
  assert (D0 : Rabs (rdet 3 (h 0%nat)) <= 6 * (e0 * (101 / 100 * (101 / 100)))) by (apply det3_bound; intros j Hj; unfold h, Nat.ltb; cbn [Nat.eqb Nat.leb]; auto).
  assert (D1 : Rabs (rdet 3 (h 1%nat)) <= 6 * (1011 / 1000 * (e1 * (101 / 100)))) by (apply det3_bound; intros j Hj; unfold h, Nat.ltb; cbn [Nat.eqb Nat.leb]; auto; apply (G 0%nat e0); auto; lra || lia).
  assert (D2 : Rabs (rdet 3 (h 2%nat)) <= 6 * (1011 / 1000 * (1011 / 1000 * e2))).
  { apply det3_bound; intros j Hj; unfold h, Nat.ltb; cbn [Nat.eqb Nat.leb]; auto; [apply (G 0%nat e0)|apply (G 1%nat e1)]; auto; lra || lia. }
  rewrite E. eapply Rle_trans; [apply Rabs_triang|]. eapply Rle_trans; [apply Rplus_le_compat_r, Rabs_triang|]. lra.
Qed.

Section Det.
  Variables (b f : nat -> nat -> R).
  Hypothesis HB : forall i j, (i < 3)%nat -> (j < 3)%nat -> Rabs (b i j) <= 101 / 100.
  Hypothesis HF : forall i j, (i < 3)%nat -> (j < 3)%nat -> Rabs (f i j) <= bpow radix2 128.
  Hypothesis HE : forall i j, (i < 3)%nat -> (j < 3)%nat -> Rabs (b i j - rmul 3 (ulow f) (upp f) i j) <= 2 / 10000000 * Rsum 3 (fun t => amp (ulow f i t) * amp (upp f t j)).
  Hypothesis P0 : / 2 <= Rabs (f 0%nat 0%nat).
  Hypothesis P1 : / 2 <= Rabs (f 1%nat 1%nat).
  Notation mag i j := (Rsum 3 (fun t => Rabs (ulow f i t) * Rabs (upp f t j))).
  Lemma amp_sum X : 0 <= X -> (forall i j, (i < 3)%nat -> (j < 3)%nat -> least * Rabs (f i j) <= X) -> least <= X -> least * least <= X ->
    forall i j, (i < 3)%nat -> (j < 3)%nat -> Rsum 3 (fun t => amp (ulow f i t) * amp (upp f t j)) <= mag i j + 9 * X.
  Proof.
    intros PX HX L1 L2 i j Hi Hj. pose proof least_pos as LP.
    assert (U : forall t, (t < 3)%nat -> least * Rabs (ulow f i t) <= X).
    { intros t Ht. unfold ulow. destruct (i =? t)%nat; [rewrite Rabs_R1; lra|]. destruct (t <? i)%nat; [auto|rewrite Rabs_R0; lra]. }
    assert (V : forall t, (t < 3)%nat -> least * Rabs (upp f t j) <= X) by (intros t Ht; unfold upp; destruct (t <=? j)%nat; [auto|rewrite Rabs_R0; lra]).
    assert (K : forall t, (t < 3)%nat -> amp (ulow f i t) * amp (upp f t j) <= Rabs (ulow f i t) * Rabs (upp f t j) + 3 * X).
    { intros t Ht. specialize (U t Ht). specialize (V t Ht). unfold amp. lra. }
    pose proof (K 0%nat ltac:(lia)). pose proof (K 1%nat ltac:(lia)). pose proof (K 2%nat ltac:(lia)). cbn [Rsum]. lra.
  Qed.
  Lemma least_small : 0 < least <= / 10 ^ 33 /\ least * bpow radix2 128 = 16.
  Proof.
    split; [split; [apply least_pos|]|unfold least; rewrite <- bpow_plus; reflexivity].
    unfold least. apply Rle_trans with (bpow radix2 (-110)); [apply bpow_le; lia|]. cbn. lra.
  Qed.
  Notation r i j := (Rabs (f i%nat j%nat)).
  Lemma cells X : 0 <= X <= 20 -> (forall i j, (i < 3)%nat -> (j < 3)%nat -> Rsum 3 (fun t => amp (ulow f i t) * amp (upp f t j)) <= mag i j + 9 * X) ->
    forall i j, (i < 3)%nat -> (j < 3)%nat -> Rabs (b i j - rmul 3 (ulow f) (upp f) i j) <= 2 / 10000000 * mag i j + 18 / 10000000 * X.
  Proof. intros PX H i j Hi Hj. eapply Rle_trans; [apply HE; auto|]. specialize (H i j Hi Hj). lra. Qed.
  Lemma sizes : r 0 0 <= 102 / 100 /\ r 0 1 <= 102 / 100 /\ r 0 2 <= 102 / 100 /\ r 1 0 <= 204 / 100 /\ r 2 0 <= 204 / 100 /\ r 1 1 <= 311 / 100 /\ r 1 2 <= 311 / 100 /\
    r 2 1 <= 622 / 100 /\ r 2 2 <= 225 / 10.
  Proof.
    destruct least_small as [[L0 L1] L2]. pose proof (pow_lt 10 33 ltac:(lra)) as PW.
    assert (C : forall i j, (i < 3)%nat -> (j < 3)%nat -> Rabs (b i j - rmul 3 (ulow f) (upp f) i j) <= 2 / 10000000 * mag i j + 18 / 10000000 * 16).
    { apply cells; [lra|]. apply amp_sum; [lra| | |].
      - intros i j Hi Hj. rewrite <- L2. apply Rmult_le_compat_l; [lra|auto].
      - cbn [pow] in L1. lra.
      - cbn [pow] in L1. nra. }
    unfold rmul, ulow, upp, Nat.ltb in C. cbn [Rsum] in C.
    assert (S : forall x y z w e, Rabs (x - (y + z)) <= e -> Rabs x <= w -> Rabs z <= w + Rabs y + e) by (intros x y z w e H1 H2; pose proof (Rabs_pos y); split_Rabs; lra).
    assert (S' : forall x z w e, Rabs (x - z) <= e -> Rabs x <= w -> Rabs z <= w + e) by (intros x z w e H1 H2; split_Rabs; lra).
    pose proof (Rabs_pos (f 0%nat 0%nat)) as Q00. pose proof (Rabs_pos (f 0%nat 1%nat)) as Q01. pose proof (Rabs_pos (f 0%nat 2%nat)) as Q02. pose proof (Rabs_pos (f 1%nat 0%nat)) as Q10. pose proof (Rabs_pos (f 2%nat 0%nat)) as Q20.
    pose proof (Rabs_pos (f 1%nat 1%nat)) as Q11. pose proof (Rabs_pos (f 1%nat 2%nat)) as Q12. pose proof (Rabs_pos (f 2%nat 1%nat)) as Q21. pose proof (Rabs_pos (f 2%nat 2%nat)) as Q22.
    assert (F0 : forall j, (j < 3)%nat -> Rabs (f 0%nat j) <= 102 / 100).
    { intros j Hj. pose proof (C 0%nat j ltac:(lia) Hj) as K. cbn [Nat.eqb Nat.ltb Nat.leb] in K. destruct j as [|[|[|j]]]; try lia; cbn [Nat.leb] in K;
        rewrite ?Rabs_R0, ?Rabs_R1, ?Rmult_0_l, ?Rmult_0_r, ?Rmult_1_l, ?Rplus_0_l, ?Rplus_0_r in K; apply S' with (w := 101 / 100) in K; auto; lra. }
    pose proof (F0 0 ltac:(lia))%nat as F00. pose proof (F0 1 ltac:(lia))%nat as F01. pose proof (F0 2 ltac:(lia))%nat as F02.
    assert (F1 : forall i, (1 <= i < 3)%nat -> Rabs (f i 0%nat) <= 204 / 100).
    { intros i Hi. pose proof (C i 0%nat ltac:(lia) ltac:(lia)) as K. destruct i as [|[|[|i]]]; try lia; cbn [Nat.eqb Nat.ltb Nat.leb] in K;
        rewrite ?Rabs_R0, ?Rabs_R1, ?Rmult_0_l, ?Rmult_0_r, ?Rmult_1_l, ?Rplus_0_l, ?Rplus_0_r in K; apply S' with (w := 101 / 100) in K; auto; rewrite Rabs_mult in K; nra. }
    pose proof (F1 1 ltac:(lia))%nat as F10. pose proof (F1 2 ltac:(lia))%nat as F20.
    assert (F2 : forall j, (1 <= j < 3)%nat -> Rabs (f 1%nat j) <= 311 / 100).
    { intros j Hj. pose proof (C 1%nat j ltac:(lia) ltac:(lia)) as K. destruct j as [|[|[|j]]]; try lia; cbn [Nat.eqb Nat.ltb Nat.leb] in K;
        rewrite ?Rabs_R0, ?Rabs_R1, ?Rmult_0_l, ?Rmult_0_r, ?Rmult_1_l, ?Rplus_0_l, ?Rplus_0_r in K; apply S with (w := 101 / 100) in K; auto; rewrite Rabs_mult in K; nra. }
    pose proof (F2 1 ltac:(lia))%nat as F11. pose proof (F2 2 ltac:(lia))%nat as F12.
    assert (F21 : r 2 1 <= 622 / 100).
    { pose proof (C 2%nat 1%nat ltac:(lia) ltac:(lia)) as K. cbn [Nat.eqb Nat.ltb Nat.leb] in K.
        rewrite ?Rabs_R0, ?Rabs_R1, ?Rmult_0_l, ?Rmult_0_r, ?Rmult_1_l, ?Rplus_0_l, ?Rplus_0_r in K. apply S with (w := 101 / 100) in K; auto. rewrite !Rabs_mult in K.
        assert (r 2 0 * r 0 1 <= 204 / 100 * (102 / 100)) by (apply Rmult_le_compat; auto). assert (/ 2 * r 2 1 <= r 2 1 * r 1 1) by nra. lra. }
    assert (F22 : r 2 2 <= 225 / 10).
    { pose proof (C 2%nat 2%nat ltac:(lia) ltac:(lia)) as K. cbn [Nat.eqb Nat.ltb Nat.leb] in K.
        rewrite ?Rabs_R0, ?Rabs_R1, ?Rmult_0_l, ?Rmult_0_r, ?Rmult_1_l, ?Rplus_0_l, ?Rplus_0_r in K. apply S with (w := 101 / 100) in K; auto.
        pose proof (Rabs_triang (f 2%nat 0%nat * f 0%nat 2%nat) (f 2%nat 1%nat * f 1%nat 2%nat)) as TR. rewrite !Rabs_mult in TR.
        assert (r 2 0 * r 0 2 <= 204 / 100 * (102 / 100)) by (apply Rmult_le_compat; auto). assert (r 2 1 * r 1 2 <= 622 / 100 * (311 / 100)) by (apply Rmult_le_compat; auto). lra. }
    repeat split; assumption.
  Qed.
  Lemma det_close : Rabs (rdet 3 b - f 0%nat 0%nat * f 1%nat 1%nat * f 2%nat 2%nat) <= 64 / 1000000.
  Proof.
    destruct sizes as (F00 & F01 & F02 & F10 & F20 & F11 & F12 & F21 & F22). destruct least_small as [[L0 L1] L2].
    assert (L3 : least <= / 10 ^ 28) by (eapply Rle_trans; [exact L1|]; cbn [pow]; lra). set (X := 23 * / 10 ^ 28). assert (PX : 0 < X <= / 10 ^ 20) by (unfold X; cbn [pow]; lra).
    assert (B23 : forall i j, (i < 3)%nat -> (j < 3)%nat -> Rabs (f i j) <= 23) by (intros i j Hi Hj; destruct i as [|[|[|i]]], j as [|[|[|j]]]; try lia; lra).
    assert (C : forall i j, (i < 3)%nat -> (j < 3)%nat -> Rabs (b i j - rmul 3 (ulow f) (upp f) i j) <= 2 / 10000000 * mag i j + 18 / 10000000 * X).
    { apply cells; [cbn [pow] in PX; lra|]. apply amp_sum; [lra| | |].
      - intros i j Hi Hj. specialize (B23 i j Hi Hj). pose proof (Rabs_pos (f i j)). unfold X. nra.
      - unfold X. lra.
      - unfold X. nra. }
    assert (M : forall x y X Y, Rabs x <= X -> Rabs y <= Y -> Rabs x * Rabs y <= X * Y) by (intros x y U V H1 H2; apply Rmult_le_compat; auto using Rabs_pos).
    assert (X' : 18 / 10000000 * X <= / 1000000000) by (cbn [pow] in PX; lra).
    pose proof (M _ _ _ _ F10 F00) as M1. pose proof (M _ _ _ _ F10 F01) as M2. pose proof (M _ _ _ _ F10 F02) as M3. pose proof (M _ _ _ _ F20 F00) as M4. pose proof (M _ _ _ _ F20 F01) as M5. pose proof (M _ _ _ _ F20 F02) as M6.
    pose proof (M _ _ _ _ F21 F11) as M7. pose proof (M _ _ _ _ F21 F12) as M8.
    rewrite (Rmult_assoc (f 0%nat 0%nat)), <- (Rmult_assoc (f 0%nat 0%nat)).
    replace (f 0%nat 0%nat * f 1%nat 1%nat * f 2%nat 2%nat) with (rdet 3 (rmul 3 (ulow f) (upp f))) by (rewrite (det_lu 3 f) by lia; cbn [Rprod]; ring).
    eapply Rle_trans; [apply (det3_change b _ (3 / 10000000) (11 / 10000000) (88 / 10000000))|]; try lra; try exact HB.
    - intros j Hj. eapply Rle_trans; [apply C; [lia|exact Hj]|]. unfold ulow, upp, Nat.ltb. cbn [Rsum Nat.eqb Nat.leb]. destruct j as [|[|[|j]]]; try lia; cbn [Nat.leb]; rewrite ?Rabs_R0, ?Rabs_R1; lra.
    - intros j Hj. eapply Rle_trans; [apply C; [lia|exact Hj]|]. unfold ulow, upp, Nat.ltb. cbn [Rsum Nat.eqb Nat.leb]. destruct j as [|[|[|j]]]; try lia; cbn [Nat.leb]; rewrite ?Rabs_R0, ?Rabs_R1; lra.
    - intros j Hj. eapply Rle_trans; [apply C; [lia|exact Hj]|]. unfold ulow, upp, Nat.ltb. cbn [Rsum Nat.eqb Nat.leb]. destruct j as [|[|[|j]]]; try lia; cbn [Nat.leb]; rewrite ?Rabs_R0, ?Rabs_R1; lra.
  Qed.
End Det.

Lemma one32 lm : B2R (f1 (A := F32 lm) : f32) = 1.
Proof. cbn. unfold F2R. cbn. lra. Qed.

(** the product of the three pivots, rounded *)
Lemma prod3 (o x y z : f32) : B2R o = 1 -> is_finite o = true -> is_finite x = true -> is_finite y = true -> is_finite z = true ->
  Rabs (B2R x) <= 102 / 100 -> Rabs (B2R y) <= 311 / 100 -> Rabs (B2R z) <= 225 / 10 -> Rabs (B2R x * B2R y * B2R z) <= 7 ->
  let d := Bmult mode_NE (Bmult mode_NE (Bmult mode_NE o x) y) z in
  is_finite d = true /\ Rabs (B2R d - B2R x * B2R y * B2R z) <= 14 / 10000000.
Proof.
  intros O1 O2 Fx Fy Fz Bx By Bz BP d. destruct eta_tau as [T0 T1].
  assert (B127 : 1000000 <= bpow radix2 127) by (apply Rle_trans with (bpow radix2 20); [cbn; lra|apply bpow_le; lia]).
  destruct (mult_ok o x O2 Fx) as [F1 E1]; [rewrite O1, Rmult_1_l; lra|]. rewrite O1, Rmult_1_l, rnd_self in E1. set (d1 := Bmult mode_NE o x) in *.
  assert (XY : Rabs (B2R x * B2R y) <= 4) by (rewrite Rabs_mult; pose proof (Rabs_pos (B2R x)); pose proof (Rabs_pos (B2R y)); nra).
  destruct (mult_ok d1 y F1 Fy) as [F2 E2]; [rewrite E1; lra|]. rewrite E1 in E2. set (d2 := Bmult mode_NE d1 y) in *.
  destruct (rnd32_err (B2R x * B2R y)) as (e & h & He & Hh & E). rewrite E in E2. 
  assert (H2 : Rabs h <= / 10000000000000) by (eapply Rle_trans; [exact Hh|]; unfold tau in *; lra).
  set (P := B2R x * B2R y) in *. set (Z := B2R z) in *.
  assert (PZ : B2R d2 * Z = P * Z + (P * Z * e + h * Z)) by (rewrite E2; ring).
  assert (K : Rabs (P * Z * e + h * Z) <= 5 / 10000000).
  { eapply Rle_trans; [apply Rabs_triang|]. rewrite !(Rabs_mult _ e), (Rabs_mult h). pose proof (Rabs_pos (P * Z)). pose proof (Rabs_pos e). pose proof (Rabs_pos h). pose proof (Rabs_pos Z). unfold u in He.
    assert (Rabs (P * Z) * Rabs e <= 7 * (1 / 16777216)) by (apply Rmult_le_compat; auto). assert (Rabs h * Rabs Z <= / 10000000000000 * (225 / 10)) by (apply Rmult_le_compat; auto). lra. }
  assert (BD : Rabs (B2R d2 * Z) <= 8) by (rewrite PZ; eapply Rle_trans; [apply Rabs_triang|]; lra).
  destruct (mult_ok d2 z F2 Fz) as [F3 E3]; [fold Z; lra|]. split; [exact F3|]. unfold d. rewrite E3. fold Z. destruct (rnd32_err (B2R d2 * Z)) as (e' & h' & He' & Hh' & ->).
  assert (H3 : Rabs h' <= / 10000000000000) by (eapply Rle_trans; [exact Hh'|]; unfold tau in *; lra).
  replace (B2R d2 * Z * (1 + e') + h' - P * Z) with ((P * Z * e + h * Z) + (B2R d2 * Z * e' + h')) by (rewrite PZ; ring).
  eapply Rle_trans; [apply Rabs_triang|]. assert (Rabs (B2R d2 * Z * e' + h') <= 8 * (1 / 16777216) + / 10000000000000); [|lra].
  eapply Rle_trans; [apply Rabs_triang|]. apply Rplus_le_compat; [|exact H3]. rewrite (Rabs_mult _ e'). unfold u in He'. apply Rmult_le_compat; auto using Rabs_pos.
Qed.

(*@ C74_det *)
(** C74: when [lup] of a 3 x 3 f32 matrix with elements up to 1.01 succeeds and its first two pivots are at least 1/2, the
    determinant is within 7e-5 of the true one *)
Lemma l_det32 :
  forall (lm : Libm) (m lu : Mat (T (Arith := F32 lm))) (p : Vec nat) (a : nat -> nat -> R), mat_f m 3 3 a ->
  (forall i j, (i < 3)%nat -> (j < 3)%nat -> Rabs (a i j) <= 101 / 100) -> lup m = Ok (lu, p) ->
  exists f pi, mat_f lu 3 3 f /\ idx_is p 3 pi /\ perm 3 pi /\
    (/ 2 <= Rabs (f (pi 0%nat) 0%nat) -> / 2 <= Rabs (f (pi 1%nat) 1%nat) ->
     exists d, m_det m = Ok d /\ is_finite (d : f32) = true /\ Rabs (B2R (d : f32) - rdet 3 a) <= 66 / 1000000).
Proof.
  intros lm m lu p a Hm HB El. destruct (l_lup32 lm m lu p 3 a Hm El) as (f & pi & Hl & Hp & Pp & E). cbv zeta in E. exists f, pi.
  split; [exact Hl|]. split; [exact Hp|]. split; [exact Pp|]. intros P0 P1. destruct Hl as (F & Hl & Ef). destruct Hm as (A & Hm & Ea).
  pose proof Pp as [PL PI].
  assert (FF : forall i j, (i < 3)%nat -> (j < 3)%nat -> is_finite (F i j : f32) = true) by (intros i j Hi Hj; apply (valid_finite lm); eapply mat_is_valid; eauto).
  set (b := fun i j => a (pi i) j). set (f' := fun i j => f (pi i) j) in *.
  assert (HB' : forall i j, (i < 3)%nat -> (j < 3)%nat -> Rabs (b i j) <= 101 / 100) by (intros i j Hi Hj; apply HB; auto).
  assert (HF' : forall i j, (i < 3)%nat -> (j < 3)%nat -> Rabs (f' i j) <= bpow radix2 128).
  { intros i j Hi Hj. unfold f'. rewrite <- Ef by auto. left. apply (abs_B2R_lt_emax prec emax). }
  pose proof (sizes b f' HB' HF' E P0 P1) as (S0 & _ & _ & _ & _ & S1 & _ & _ & S2). pose proof (det_close b f' HB' HF' E P0 P1) as DC.
  assert (PD : Rabs (rdet 3 b) <= 6 * (101 / 100 * (101 / 100 * (101 / 100)))) by (apply det3_bound; intros j Hj; apply HB'; auto; lia).
  assert (BP : Rabs (f' 0%nat 0%nat * f' 1%nat 1%nat * f' 2%nat 2%nat) <= 7) by (apply Rabs_le_inv in PD, DC; apply Rabs_le; split; lra).
  pose proof (m_det_ok (A := F32 lm) m 3 A lu p F pi Hm El Hl Hp Pp) as D. cbv zeta in D. cbn [range Nat.sub Nat.add seq fold_left] in D.
  destruct (prod3 (f1 (A := F32 lm)) (F (pi 0%nat) 0%nat) (F (pi 1%nat) 1%nat) (F (pi 2%nat) 2%nat)) as [F3 E3]; [apply one32|reflexivity|..]; try (apply FF; auto; lia); rewrite ?Ef by (auto; lia); auto.
  rewrite !Ef in E3 by (auto; lia). fold (f' 0%nat 0%nat) (f' 1%nat 1%nat) (f' 2%nat 2%nat) in E3.
  change (f (pi 0%nat) 0%nat) with (f' 0%nat 0%nat) in E3. change (f (pi 1%nat) 1%nat) with (f' 1%nat 1%nat) in E3. change (f (pi 2%nat) 2%nat) with (f' 2%nat 2%nat) in E3.
  set (d := Bmult mode_NE (Bmult mode_NE (Bmult mode_NE (f1 (A := F32 lm) : f32) (F (pi 0%nat) 0%nat)) (F (pi 1%nat) 1%nat)) (F (pi 2%nat) 2%nat)) in *.
  assert (D' : m_det m = Ok (if flips 3 pi then Bopp d else d : f32)) by exact D. eexists. split; [exact D'|].
  destruct (det_perm 3 pi a ltac:(lia) Pp) as [D1 D2]. cbn [Nat.eqb andb] in D2. rewrite Rmult_1_r in D2. fold b in D1. rewrite <- D2 in D1.
  assert (G : Rabs (B2R d - rdet 3 b) <= 66 / 1000000).
  { replace (B2R d - rdet 3 b) with ((B2R d - f' 0%nat 0%nat * f' 1%nat 1%nat * f' 2%nat 2%nat) - (rdet 3 b - f' 0%nat 0%nat * f' 1%nat 1%nat * f' 2%nat 2%nat)) by ring.
    eapply Rle_trans; [apply Rabs_triang|]. rewrite Rabs_Ropp. lra. }
  rewrite D1 in G. destruct (flips 3 pi).
  - split; [rewrite is_finite_Bopp; exact F3|]. rewrite B2R_Bopp. replace (- B2R d - rdet 3 a) with (- (B2R d - -1 * rdet 3 a)) by ring. rewrite Rabs_Ropp. exact G.
  - split; [exact F3|]. rewrite Rmult_1_l in G. exact G.
Qed.

(** [within EPSILON] in f32 *)
Lemma within32 lm (x y : f32) c : is_finite x = true -> is_finite y = true -> B2R y = c -> Rabs c <= 1 -> Rabs (B2R x - c) <= 98 / 1000000 ->
  within (A := F32 lm) EPSILON x y.
Proof.
  intros Fx Fy Ey Bc H. destruct (eps32 lm) as [FE [EL EU]]. destruct eta_tau as [T0 T1]. assert (B127 : 1000000 <= bpow radix2 127) by (apply Rle_trans with (bpow radix2 20); [cbn; lra|apply bpow_le; lia]).
  destruct (minus_ok x y Fx Fy) as [F1 E1]; [rewrite Ey; lra|]. rewrite Ey in E1.
  unfold within. change (Bleb (Babs (Bminus mode_NE x y)) (EPSILON (A := F32 lm) : f32) = true). rewrite Bleb_ok by (try exact FE; rewrite is_finite_Babs; exact F1).
  rewrite B2R_Babs, E1. apply Rle_bool_true. destruct (rnd32_err (B2R x - c)) as (e & h & He & Hh & ->).
  eapply Rle_trans; [apply Rabs_triang|]. rewrite Rabs_mult. assert (Rabs (1 + e) <= 1001 / 1000) by (apply Rabs_le_inv in He; unfold u in He; apply Rabs_le; split; lra).
  assert (Rabs (B2R x - c) * Rabs (1 + e) <= 98 / 1000000 * (1001 / 1000)) by (apply Rmult_le_compat; auto using Rabs_pos). unfold tau in *. lra.
Qed.

(*@ C74_recognised *)
(** C74: a 3 x 3 f32 matrix whose rows are orthonormal up to 9e-5 and whose determinant is 1 up to 3e-5 is recognised as a
    rotation (and as orthogonal) whenever [lup] accepts it with first pivots of at least 1/2 *)
Lemma l_recognised32 :
  forall (lm : Libm) (m lu : Mat (T (Arith := F32 lm))) (p : Vec nat) (a : nat -> nat -> R), mat_f m 3 3 a ->
  (forall i j, (i < 3)%nat -> (j < 3)%nat -> Rabs (rmul 3 a (rtr a) i j - rid i j) <= 9 / 100000) -> Rabs (rdet 3 a - 1) <= 3 / 100000 -> lup m = Ok (lu, p) ->
  exists f pi, mat_f lu 3 3 f /\ idx_is p 3 pi /\ perm 3 pi /\
    (/ 2 <= Rabs (f (pi 0%nat) 0%nat) -> / 2 <= Rabs (f (pi 1%nat) 1%nat) -> m_is_so_n m = Ok true /\ m_is_orthogonal m = Ok true).
Proof.
  intros lm m lu p a Hm HO HD El.
  assert (HN : forall i, (i < 3)%nat -> 0 <= rnorm 3 (a i) <= 1001 / 1000).
  { intros i Hi. split; [apply rnorm_pos|]. pose proof (HO i i Hi Hi) as K. unfold rid in K. rewrite Nat.eqb_refl in K. unfold rmul, rtr in K.
    pose proof (rnorm_sqr 3 (a i)) as SQ. unfold rdot in SQ. rewrite <- SQ in K. apply Rabs_le_inv in K. pose proof (rnorm_pos 3 (a i)). nra. }
  assert (HB : forall i j, (i < 3)%nat -> (j < 3)%nat -> Rabs (a i j) <= 101 / 100) by (intros i j Hi Hj; pose proof (rnorm_bound 3 (a i) j Hj); specialize (HN i Hi); lra).
  destruct (l_det32 lm m lu p a Hm HB El) as (f & pi & Hl & Hp & Pp & D). exists f, pi. split; [exact Hl|]. split; [exact Hp|]. split; [exact Pp|].
  intros P0 P1. destruct (D P0 P1) as (d & Ed & Fd & Bd). destruct Hm as (A & Hm & Ea). destruct eta_tau as [T0 T1].
  assert (FF : forall i j, (i < 3)%nat -> (j < 3)%nat -> is_finite (A i j : f32) = true) by (intros i j Hi Hj; apply (valid_finite lm); eapply mat_is_valid; eauto).
  assert (W : forall i j, (i < 3)%nat -> (j < 3)%nat -> is_finite (fsum (A := F32 lm) 3 (fun t => Bmult mode_NE (A i t) (A j t))) = true /\
     within (A := F32 lm) EPSILON (fsum (A := F32 lm) 3 (fun t => Bmult mode_NE (A i t) (A j t))) (if (i =? j)%nat then f1 else f0)).
  { intros i j Hi Hj. assert (EN : forall i, (i < 3)%nat -> rnorm 3 (fun t => B2R (A i t : f32)) = rnorm 3 (a i)) by (intros k Hk; apply rnorm_ext; intros t Ht; apply Ea; auto).
    pose proof (HN i Hi) as Ni. pose proof (HN j Hj) as Nj. assert (NN : rnorm 3 (a i) * rnorm 3 (a j) <= 2) by nra.
    destruct (prod_sum lm 3 (fun t => A i t : f32) (fun t => A j t : f32)) as [F1 E1]; [lia|intros t Ht; split; apply FF; auto|rewrite !EN by auto; unfold huge; apply Rle_trans with (bpow radix2 2); [cbn; lra|apply bpow_le; lia]|].
    split; [exact F1|]. rewrite !EN in E1 by auto.
    assert (ED : rdot 3 (fun t => B2R (A i t : f32)) (fun t => B2R (A j t : f32)) = rmul 3 a (rtr a) i j).
    { unfold rdot, rmul, rtr. apply Rsum_ext. intros t Ht. rewrite !Ea by auto. reflexivity. }
    rewrite ED in E1. specialize (HO i j Hi Hj). unfold rid in HO.
    assert (LE : forall c, (if (i =? j)%nat then 1 else 0) = c -> Rabs (B2R (fsum (A := F32 lm) 3 (fun t => Bmult mode_NE (A i t) (A j t))) - c) <= 98 / 1000000).
    { intros c <-. apply Rabs_le_inv in HO, E1. apply Rabs_le. unfold tau in *. split; lra. }
    destruct (Nat.eqb_spec i j); [apply within32 with (c := 1)|apply within32 with (c := 0)]; auto; try reflexivity; try apply one32; rewrite ?Rabs_R1, ?Rabs_R0; lra. }
  assert (TT : m_times_transpose_is_identity m = Ok true).
  { pose proof (tti_rwp (A := F32 lm) m 3 3 A Hm) as K. destruct (m_times_transpose_is_identity m) as [[|]|e|]; cbn [rwp] in K; [reflexivity| | |tauto].
    - f_equal. apply K. intros i j Hi Hj. apply (W i j Hi Hj).
    - exfalso. destruct K as (i & j & n & u & Hi & Hj & Hn & Hb & _).
      assert (V : valid (A := F32 lm) (fsum (A := F32 lm) n (fun t => fmul (Arith := F32 lm) (A i t) (A j t)))); [|apply bad_None in V; congruence].
      apply (valid_finite lm). destruct (W i j Hi Hj) as [K _]. change (is_finite (fsum (A := F32 lm) n (fun t => Bmult mode_NE (A i t : f32) (A j t))) = true).
      assert (PF : forall k (g : nat -> f32), is_finite (fsum (A := F32 lm) (S k) g) = true -> is_finite (fsum (A := F32 lm) k g) = true) by (intros k g H; cbn [fsum] in H; apply fin_plus in H; tauto).
      assert (n = 3 \/ n = 2 \/ n = 1)%nat as [-> | [-> | ->]] by lia; auto. }
  assert (A1 : allclose_l (A := F32 lm) d f1 EPSILON = Ok true).
  { destruct (allclose_ok (A := F32 lm) d f1 EPSILON) as (b & -> & Hb); [apply (valid_finite lm), Fd|apply ok_f1|]. f_equal. apply Hb.
    apply (within32 lm d (f1 (A := F32 lm)) 1); try reflexivity; [exact Fd|apply one32|rewrite Rabs_R1; lra|]. apply Rabs_le_inv in HD, Bd. apply Rabs_le. split; lra. }
  assert (A2 : allclose_l (A := F32 lm) (fabs d) f1 EPSILON = Ok true).
  { destruct (allclose_ok (A := F32 lm) (fabs d) f1 EPSILON) as (b & -> & Hb); [apply (valid_finite lm); change (is_finite (Babs (d : f32)) = true); rewrite is_finite_Babs; exact Fd|apply ok_f1|]. f_equal. apply Hb.
    apply (within32 lm (Babs (d : f32)) (f1 (A := F32 lm)) 1); try reflexivity; [rewrite is_finite_Babs; exact Fd|apply one32|rewrite Rabs_R1; lra|]. rewrite B2R_Babs. apply Rabs_le_inv in HD, Bd. rewrite (Rabs_pos_eq (B2R (d : f32))) by lra. apply Rabs_le. split; lra. }
  split; [unfold m_is_so_n|unfold m_is_orthogonal]; rewrite Ed; cbn [rbind]; [rewrite A1|rewrite A2]; cbn [rbind negb]; exact TT.
Qed.

(** ** witness and example *)
Definition rot6561 : list Z := [1; -5552; 3496; -3632; 2911; 4624; -5464; -1936; -3073]%Z.
(*@ C74_answer_no_refuted *)
(** C74, violation for every libm: the rotation of the unit quaternion (40, -41, 56, 12)/81, stored as the nearest f32 matrix,
    is answered "no": it is 1e-7 close to an exact rotation, but the first pivot of 1/6561 costs the determinant more than
    EPSILON *)
Lemma l_so32_w :
  exists m : Mat f32, forall lm : Libm, exists a, mat_f (lm := lm) m 3 3 a /\
  let r := fun i j => IZR (nth (i * 3 + j) [1; -5552; 3496; -3632; 2911; 4624; -5464; -1936; -3073]%Z 0%Z) / 6561 in
  req 3 3 (rmul 3 r (rtr r)) rid /\ rdet 3 r = 1 /\ (forall i j, (i < 3)%nat -> (j < 3)%nat -> Rabs (a i j - r i j) <= / 10000000) /\
  m_is_so_n (A := F32 lm) m = Ok false /\ m_is_orthogonal (A := F32 lm) m = Ok false.
Proof.
  exists (mk_mat (A := F32 lm_id) 3 3 (map (fun k => lit32 k 6561) rot6561)). intros lm.
  exists (fun i j => B2R (nth (i * 3 + j) (map (fun k => lit32 k 6561) rot6561) (B754_zero false) : f32)).
  split; [|cbv zeta; split; [|split; [|split]]].
  - eexists. split; [apply (fmat_is lm 3 3); try lia; [reflexivity|repeat constructor]|]. reflexivity.
  - intros i j Hi Hj. unfold rmul, rtr, rid. cbn [Rsum]. destruct i as [|[|[|i]]], j as [|[|[|j]]]; try lia; cbn [nth Nat.add Nat.mul Nat.eqb]; lra.
  - rewrite det3. cbn [nth Nat.add Nat.mul]. lra.
  - intros i j Hi Hj. assert (K : (i * 3 + j < 9)%nat) by lia. set (k := (i * 3 + j)%nat) in *. clearbody k. clear Hi Hj.
    do 9 (destruct k as [|k]; [unfold rot6561; cbn; unfold F2R; cbn; apply Rabs_le; lra|]). lia.
  - repeat split; vm_compute; reflexivity.
Qed.

Lemma ex_recog :
  let A := F32 lm_id in let m := mk_mat (A := A) 3 3 (map (fun k => lit32 k 1048576) [699051; -349525; 699051; 699051; 699051; -349525; -349525; 699051; 699051]%Z) in
  let a := fun i j => IZR (nth (i * 3 + j) [699051; -349525; 699051; 699051; 699051; -349525; -349525; 699051; 699051]%Z 0%Z) / 1048576 in
  mat_f (lm := lm_id) m 3 3 a /\ (forall i j, (i < 3)%nat -> (j < 3)%nat -> Rabs (rmul 3 a (rtr a) i j - rid i j) <= 9 / 100000) /\ Rabs (rdet 3 a - 1) <= 3 / 100000 /\
  rmap (fun p => (show_m (fst p), v_elems (snd p))) (lup m) = Ok
    ((3%nat, 3%nat, true, [S754_finite false 11184816 (-24); S754_finite true 11184800 (-25); S754_finite false 11184816 (-24); S754_finite false 8388608 (-23); S754_finite false 8388608 (-23);
       S754_finite true 8388608 (-23); S754_finite true 16777192 (-25); S754_finite false 8388620 (-24); S754_finite false 12582918 (-23)]), [0; 1; 2; 0]%nat) /\ m_is_so_n m = Ok true.
Proof.
  cbv zeta. split; [|split; [|split; [|split]]].
  - eexists. split; [apply (fmat_is lm_id 3 3); try lia; [reflexivity|repeat constructor]|].
    intros i j Hi Hj. cbv beta. assert (K : (i * 3 + j < 9)%nat) by lia. set (k := (i * 3 + j)%nat) in *. clearbody k. clear Hi Hj.
    rewrite <- (SF2R_B2SF prec emax), <- (map_nth (@B2SF prec emax)).
    assert (E : map (@B2SF prec emax) (map (fun k => lit32 k 1048576) [699051; -349525; 699051; 699051; 699051; -349525; -349525; 699051; 699051]%Z) =
      [S754_finite false 11184816 (-24); S754_finite true 11184800 (-25); S754_finite false 11184816 (-24); S754_finite false 11184816 (-24); S754_finite false 11184816 (-24); S754_finite true 11184800 (-25);
       S754_finite true 11184800 (-25); S754_finite false 11184816 (-24); S754_finite false 11184816 (-24)]) by (vm_compute; reflexivity).
    rewrite E. clear E. assert (G : forall z e b, (e < 0)%Z -> SF2R radix2 (S754_finite b z e) = IZR (cond_Zopp b (Zpos z)) / IZR (2 ^ (- e))).
    { intros z e b He. unfold SF2R, F2R, Fnum, Fexp, Rdiv. f_equal. destruct e; try lia. reflexivity. }
    do 9 (destruct k as [|k]; [cbn [nth]; rewrite G by lia; cbn [cond_Zopp Z.opp Z.pow Z.pow_pos Pos.iter Z.mul Pos.mul]; lra|]). lia.
  - intros i j Hi Hj. unfold rmul, rtr, rid. cbn [Rsum]. apply Rabs_le. destruct i as [|[|[|i]]], j as [|[|[|j]]]; try lia; cbn [nth Nat.add Nat.mul Nat.eqb]; lra.
  - rewrite det3. cbn [nth Nat.add Nat.mul]. apply Rabs_le. lra.
  - vm_compute. reflexivity.
  - vm_compute. reflexivity.
Qed.

(*@ example *)
(** Test: a third of a turn about (1,1,1), with elements rounded to 20 bits; the first pivots are 0.67 and 1 *)
Example C74_example :
  let A := F32 lm_id in let m := mk_mat (A := A) 3 3 (map (fun k => lit32 k 1048576) [699051; -349525; 699051; 699051; 699051; -349525; -349525; 699051; 699051]%Z) in
  let a := fun i j => IZR (nth (i * 3 + j) [699051; -349525; 699051; 699051; 699051; -349525; -349525; 699051; 699051]%Z 0%Z) / 1048576 in
  mat_f (lm := lm_id) m 3 3 a /\ (forall i j, (i < 3)%nat -> (j < 3)%nat -> Rabs (rmul 3 a (rtr a) i j - rid i j) <= 9 / 100000) /\ Rabs (rdet 3 a - 1) <= 3 / 100000 /\
  rmap (fun p => (show_m (fst p), v_elems (snd p))) (lup m) = Ok
    ((3%nat, 3%nat, true, [S754_finite false 11184816 (-24); S754_finite true 11184800 (-25); S754_finite false 11184816 (-24); S754_finite false 8388608 (-23); S754_finite false 8388608 (-23);
       S754_finite true 8388608 (-23); S754_finite true 16777192 (-25); S754_finite false 8388620 (-24); S754_finite false 12582918 (-23)]), [0; 1; 2; 0]%nat) /\ m_is_so_n m = Ok true.
Proof. exact ex_recog. Qed.
