(** C14, C74: exactly which matrices [lup] refuses. *)
(*@+*)
From Coq Require Import List Arith ZArith Reals Lia Bool Lra SpecFloat.
From Flocq Require Import Core BinarySingleNaN.
From Verif Require Import M_Base M_Arith M_Utils M_Vector M_Matrix M_F32 M_RX
  S_Spec S_Linalg S_Norm S_Lu S_Decomp S_Pivot P_Inst P_InstF.
Import ListNotations.
Local Open Scope R_scope.
(*@-*)
From Coq Require Import Psatz.
From Verif Require Import S_Compare P_Compare P_Hoare P_Cont P_Loops P_Access P_Lup P_Product P_So P_Recog.

Section Gen.
  Context {A : Arith} {OK : ArithOk A}.
  Local Open Scope nat_scope.
  Implicit Types (f F : nat -> nat -> T) (pi : nat -> nat).

  Definition sw (p i : nat) : nat := if i =? 0 then p else if i =? p then 0 else i.
  Lemma run0 n f F pi : runs n 0 f F pi -> 1 <= n <= 3 -> forall p, piv n f (fun i => i) 0 = p -> p < n -> piv n F pi 0 = p /\ (forall i, i < n -> exch pi 0 p i = sw p i).
  Proof.
    intros [EF Ep] Hn p Hp Lp. split.
    - rewrite <- Hp. unfold piv. assert (n = 1 \/ n = 2 \/ n = 3) as [-> | [-> | -> ]] by lia; cbn [Nat.sub Nat.add srch]; [reflexivity| |].
      + rewrite !Ep by lia. rewrite !EF by lia. reflexivity.
      + rewrite !(Ep 0), !(Ep 1), !(Ep 2) by lia. rewrite !(EF 0 0), !(EF 1 0), !(EF 2 0) by lia. destruct (f 1 0 >? f 0 0)%F; rewrite ?Ep by lia; rewrite !EF by lia; reflexivity.
    - intros i Hi. unfold exch, sw. rewrite !Ep by lia. reflexivity.
  Qed.
  Lemma run1 n f F pi : runs n 1 f F pi -> 1 <= n <= 3 -> let p := piv n f (fun i => i) 0 in
    (forall i, i < n -> pi i = sw p i) /\ (fabs (f p 0) <? EPSILON)%F = false /\ forall i j, i < n -> j < n -> F (sw p i) j = elim 0 (fun a b => f (sw p a) b) i j.
  Proof.
    intros (F1 & pi1 & Pp & R0 & S1 & S2 & S3) Hn p.
    assert (Lp : p < n) by (pose proof (srch_range f (fun i => i) 0 (n - (0 + 1))); unfold p, piv; lia).
    destruct (run0 n f F1 pi1 R0 Hn p eq_refl Lp) as [E0 EX]. pose proof R0 as [EF Ep].
    assert (Ei : forall i, i < n -> pi i = sw p i) by (intros i Hi; rewrite S1, E0 by exact Hi; apply EX; exact Hi).
    assert (Ls : forall i, i < n -> sw p i < n) by (intros i Hi; unfold sw; destruct (i =? 0), (i =? p); lia).
    split; [exact Ei|]. split.
    - rewrite Ei in S2 by lia. unfold sw in S2. cbn [Nat.eqb] in S2. rewrite EF in S2 by lia. exact S2.
    - intros i j Hi Hj. rewrite <- Ei by exact Hi. rewrite S3 by auto. unfold elim. rewrite !Ei by lia. rewrite !EF by (try apply Ls; lia). reflexivity.
  Qed.
  Lemma first2 f : piv 2 f (fun i => i) 0 = fst (order2 f).
  Proof. unfold piv, order2. cbn [Nat.sub Nat.add srch]. destruct (f 1 0 >? f 0 0)%F; reflexivity. Qed.
  Lemma first3 f : let '(p, q, r) := order3 f in piv 3 f (fun i => i) 0 = p /\ sw p 1 = q /\ sw p 2 = r.
  Proof.
    unfold piv, order3, order2. cbn [Nat.sub Nat.add srch]. destruct (f 1 0 >? f 0 0)%F; [destruct (f 2 0 >? f 1 0)%F|destruct (f 2 0 >? f 0 0)%F]; conjs; reflexivity.
  Qed.
  Lemma step0 n f F pi e : runs n 0 f F pi -> 1 <= n <= 3 ->
    (let pi' := exch pi 0 (piv n F pi 0) in
        ((e = Singular /\ (fabs (F (pi' 0) 0) <? EPSILON)%F = true) \/
         exists u i j, e = UtilsErr u /\ i < n /\ j < n /\ (fabs (F (pi' 0) 0) <? EPSILON)%F = false /\ bad (elim 0 (fun a b => F (pi' a) b) i j) = Some u)) ->
    let p := piv n f (fun i => i) 0 in
    (e = Singular /\ (fabs (f p 0) <? EPSILON)%F = true) \/
    exists u i j, e = UtilsErr u /\ i < n /\ j < n /\ (fabs (f p 0) <? EPSILON)%F = false /\ bad (elim 0 (fun a b => f (sw p a) b) i j) = Some u.
  Proof.
    intros R0 Hn W p. assert (Lp : p < n) by (pose proof (srch_range f (fun i => i) 0 (n - (0 + 1))); unfold p, piv; lia).
    destruct (run0 n f F pi R0 Hn p eq_refl Lp) as [E0 EX]. pose proof R0 as [EF Ep]. rewrite E0 in W. cbv zeta in W.
    assert (Ls : forall i, i < n -> sw p i < n) by (intros i Hi; unfold sw; destruct (i =? 0), (i =? p); lia).
    assert (P0 : F (exch pi 0 p 0) 0 = f p 0) by (rewrite EX by lia; unfold sw; cbn [Nat.eqb]; apply EF; lia). rewrite P0 in W.
    destruct W as [W | (u & i & j & W1 & W2 & W3 & W4 & W5)]; [left; exact W|]. right. exists u, i, j. conjs; auto.
    rewrite <- W5. f_equal. unfold elim. rewrite !EX by lia. rewrite !EF by (try apply Ls; lia). reflexivity.
  Qed.

  Lemma two m f : mat_is m 2 2 f -> (lup m = Err Singular <-> (fabs (f (fst (order2 f)) 0) <? EPSILON)%F = true).
  Proof.
    intros Hm. pose proof (lup_run m 2 f Hm) as W. rewrite <- first2. destruct (lup m) as [s|e|]; cbn [rwp] in W; [| |tauto].
    - destruct W as (F & pi & _ & R). change (2 - 1) with 1 in R. destruct (run1 2 f F pi R ltac:(lia)) as (_ & K & _). split; [discriminate|congruence].
    - destruct W as (k & F & pi & Hk & Pp & R & W). assert (k = 0) by lia. subst k. destruct (step0 2 f F pi e R ltac:(lia) W) as [(-> & K)|(u & i & j & -> & _ & _ & K & _)].
      + split; auto.
      + split; [discriminate|congruence].
  Qed.
  Lemma three m f : mat_is m 3 3 f -> let '(p, q, r) := order3 f in
    ((fabs (f p 0) <? EPSILON)%F = false -> forall i, i = q \/ i = r -> valid (f i 0 / f p 0)%F /\ forall j, j = 1 \/ j = 2 -> valid (cleared f p i j)) ->
    (lup m = Err Singular <-> (fabs (f p 0) <? EPSILON)%F = true \/
      (fabs (if (cleared f p r 1 >? f q 0 / f p 0)%F then cleared f p r 1 else cleared f p q 1) <? EPSILON)%F = true /\ (fabs (f p 0) <? EPSILON)%F = false).
  Proof.
    intros Hm. pose proof (first3 f) as O. destruct (order3 f) as [[p q] r]. destruct O as (Op & Oq & Or). intros V.
    pose proof (lup_run m 3 f Hm) as W.
    assert (S0 : sw p 0 = p) by reflexivity.
    assert (K2 : forall F pi, runs 3 1 f F pi -> F (exch pi 1 (piv 3 F pi 1) 1) 1 = if (cleared f p r 1 >? f q 0 / f p 0)%F then cleared f p r 1 else cleared f p q 1).
    { intros F pi R. destruct (run1 3 f F pi R ltac:(lia)) as (Ei & K & EF). rewrite Op in *.
      assert (G2 : F (pi 2) 1 = cleared f p r 1) by (rewrite Ei, EF by lia; unfold elim; cbn [Nat.ltb Nat.leb Nat.eqb]; rewrite S0, Or; reflexivity).
      assert (G1 : F (pi 1) 1 = cleared f p q 1) by (rewrite Ei, EF by lia; unfold elim; cbn [Nat.ltb Nat.leb Nat.eqb]; rewrite S0, Oq; reflexivity).
      assert (G0 : F (pi 1) 0 = (f q 0 / f p 0)%F) by (rewrite Ei, EF by lia; unfold elim; cbn [Nat.ltb Nat.leb Nat.eqb]; rewrite S0, Oq; reflexivity).
      unfold piv. cbn [Nat.sub Nat.add srch]. rewrite G2, G0. destruct (cleared f p r 1 >? f q 0 / f p 0)%F; unfold exch; cbn [Nat.eqb]; assumption. }
    destruct (lup m) as [s|e|]; cbn [rwp] in W; [| |tauto].
    - destruct W as (F & pi & _ & R). change (3 - 1) with 2 in R. destruct R as (F1 & pi1 & Pp & R & S1 & S2 & S3). rewrite S1 in S2 by lia. rewrite (K2 F1 pi1 R) in S2.
      destruct (run1 3 f F1 pi1 R ltac:(lia)) as (_ & K & _). rewrite Op in K. split; [discriminate|]. intros [H | [H _]]; congruence.
    - destruct W as (k & F & pi & Hk & Pp & R & W). assert (k = 0 \/ k = 1) as [-> | ->] by lia.
      + destruct (step0 3 f F pi e R ltac:(lia) W) as [(-> & K)|(u & i & j & -> & Hi & Hj & K & B)]; rewrite Op in *; [tauto|]. exfalso.
        apply bad_Some_not in B. apply B. unfold elim. rewrite S0.
        destruct i as [|[|[|i]]]; try lia; cbn [Nat.ltb Nat.leb].
        * assert (Lp : p < 3) by (rewrite <- Op; pose proof (srch_range f (fun i => i) 0 2); unfold piv; cbn [Nat.sub Nat.add]; lia). eapply mat_is_valid; eauto.
        * rewrite Oq. destruct (V K q (or_introl eq_refl)) as [V1 V2]. destruct j as [|[|[|j]]]; try lia; cbn [Nat.eqb]; [exact V1|apply (V2 1); auto|apply (V2 2); auto].
        * rewrite Or. destruct (V K r (or_intror eq_refl)) as [V1 V2]. destruct j as [|[|[|j]]]; try lia; cbn [Nat.eqb]; [exact V1|apply (V2 1); auto|apply (V2 2); auto].
      + destruct (run1 3 f F pi R ltac:(lia)) as (_ & K & _). rewrite Op in K. cbv zeta in W. rewrite (K2 F pi R) in W. destruct W as [(-> & W)|(u & i & j & -> & _ & _ & W & _)]; [tauto|].
        split; [discriminate|]. intros [H | [H _]]; congruence.
  Qed.
End Gen.

(*@ C14_two *)
(** C14, in every arithmetic (binary32 included): a 2 x 2 matrix is reported Singular exactly when the larger (not the larger in
    magnitude) of the two elements of its first column is below EPSILON in magnitude *)
Lemma l_two :
  forall (A : Arith) (OK : ArithOk A) (m : Mat T) (f : nat -> nat -> T), mat_is m 2 2 f ->
  (lup m = Err Singular <-> (fabs (f (fst (order2 f)) 0%nat) <? EPSILON)%F = true).
Proof. intros A OK m f Hm. apply two, Hm. Qed.

(*@ C14_three *)
(** C14, in every arithmetic (binary32 included), when the first elimination step stays finite: a 3 x 3 matrix is reported
    Singular exactly when the largest element of its first column, or the element taken as second pivot, is below EPSILON in
    magnitude; the second pivot comes from the last row if its candidate exceeds the multiplier of the other row *)
Lemma l_three :
  forall (A : Arith) (OK : ArithOk A) (m : Mat T) (f : nat -> nat -> T), mat_is m 3 3 f -> let '(p, q, r) := order3 f in
    ((fabs (f p 0%nat) <? EPSILON)%F = false ->
     forall i, i = q \/ i = r -> valid (f i 0%nat / f p 0%nat)%F /\ forall j, j = 1%nat \/ j = 2%nat -> valid (cleared f p i j)) ->
    (lup m = Err Singular <-> (fabs (f p 0%nat) <? EPSILON)%F = true \/
      (fabs (if (cleared f p r 1 >? f q 0%nat / f p 0%nat)%F then cleared f p r 1 else cleared f p q 1) <? EPSILON)%F = true /\
      (fabs (f p 0%nat) <? EPSILON)%F = false).
Proof. intros A OK m f Hm. apply three, Hm. Qed.

Lemma lup_dich (m : Mat (T (Arith := RX))) n a : mat_r m n n a -> (exists lu p, lup m = Ok (lu, p)) \/ lup m = Err Singular.
Proof. intros Hm. destruct (l_lup m n a Hm) as [(lu & p & _ & _ & E & _)|E]; eauto. Qed.

(*@ C14_three_real *)
(** C14 over exact reals: the same with real inequalities; in every other case [lup] succeeds *)
Lemma l_three_real :
  forall (m : Mat (T (Arith := RX))) (a : nat -> nat -> R) (p q r : nat) (x : R), mat_r m 3 3 a -> leads3 a p q r -> second3 a p q r x ->
  (lup m = Err Singular <-> Rabs (a p 0%nat) < eps \/ Rabs x < eps) /\
  (eps <= Rabs (a p 0%nat) -> eps <= Rabs x -> exists lu pv, lup m = Ok (lu, pv)).
Proof.
  intros m a p q r x Hm HL HS.
  assert (G : lup m = Err Singular <-> Rabs (a p 0%nat) < eps \/ Rabs x < eps /\ eps <= Rabs (a p 0%nat)).
  { set (f := fun i j => Some (a i j) : T (Arith := RX)). pose proof (three (A := RX) m f Hm) as K.
    assert (GT : forall i j k l, fltb (Arith := RX) (f k l) (f i j) = Rlt_bool (a k l) (a i j)) by reflexivity.
    assert (O : order3 (A := RX) f = (p, q, r)).
    { unfold order3, order2. rewrite !GT. destruct HL as [((-> & -> & ->) & H1 & H2)|[((-> & -> & ->) & H1 & H2)|((-> & -> & ->) & H1 & H2)]].
      - rewrite (Rlt_bool_false _ _ H1). rewrite GT, (Rlt_bool_false _ _ H2). reflexivity.
      - rewrite (Rlt_bool_true _ _ H1). rewrite GT, (Rlt_bool_false _ _ H2). reflexivity.
      - destruct (Rlt_bool (a 0%nat 0%nat) (a 1%nat 0%nat)); rewrite GT, Rlt_bool_true by assumption; reflexivity. }
    rewrite O in K. clear O HL. unfold f in K at 1. rewrite pivot_RX in K.
    destruct (Rlt_bool_spec (Rabs (a p 0%nat)) eps) as [L|L].
    { assert (K' := K ltac:(discriminate)). split; [left; exact L|]. intros _. apply K'. left. unfold f. rewrite pivot_RX. apply Rlt_bool_true, L. }
    assert (Nz : a p 0%nat <> 0) by (intros E; rewrite E, Rabs_R0 in L; pose proof eps_pos; lra).
    assert (Q : forall i, fdiv (Arith := RX) (f i 0%nat) (f p 0%nat) = Some (a i 0%nat / a p 0%nat)) by (intros i; unfold f; cbn [fdiv RX rx_div]; rewrite Req_bool_false by exact Nz; reflexivity).
    assert (C : forall i j, cleared (A := RX) f p i j = Some (rcleared a p i j)) by (intros i j; unfold cleared; rewrite Q; reflexivity).
    assert (K' := K ltac:(intros _ i _; rewrite Q; split; [apply valid_RX|intros j _; rewrite C; apply valid_RX])). clear K. rewrite !C, Q in K'.
    change (fltb (Arith := RX) (Some (a q 0%nat / a p 0%nat)) (Some (rcleared a p r 1))) with (Rlt_bool (a q 0%nat / a p 0%nat) (rcleared a p r 1)) in K'.
    unfold f in K'. rewrite pivot_RX in K'.
    assert (X : (fabs (Arith := RX) (if Rlt_bool (a q 0%nat / a p 0%nat) (rcleared a p r 1) then Some (rcleared a p r 1) else Some (rcleared a p q 1)) <? EPSILON)%F = Rlt_bool (Rabs x) eps).
    { destruct HS as [[S1 ->]|[S1 ->]]; [rewrite Rlt_bool_true by exact S1|rewrite Rlt_bool_false by exact S1]; apply pivot_RX. }
    rewrite X in K'. rewrite (Rlt_bool_false (Rabs (a p 0%nat)) eps L) in K'. rewrite K'.
    destruct (Rlt_bool_spec (Rabs x) eps) as [Lx|Lx]; split; intros H; try tauto; try lra. }
  split.
  - rewrite G. destruct (Rlt_le_dec (Rabs (a p 0%nat)) eps); tauto.
  - intros H1 H2. destruct (lup_dich m 3 a Hm) as [H|H]; [exact H|]. apply G in H. lra.
Qed.

Lemma verdict_ok (m : Mat (T (Arith := RX))) a (P : Prop) : mat_r m 3 3 a -> req 3 3 (rmul 3 a (rtr a)) rid -> rdet 3 a = 1 ->
  (lup m = Err Singular <-> P) -> verdict m P.
Proof.
  intros Hm HO HD E. split.
  - intros H. apply (refused_all (A := RX) m 3 _ Hm). apply E, H.
  - intros H. destruct (l_so_complete m 3 a Hm ltac:(lia) HO HD) as [K|K]; [exact K|]. exfalso. apply H, E.
    destruct (lup_dich m 3 a Hm) as [(lu & p & L)|L]; [|exact L]. exfalso.
    destruct (l_recognise_real m 3 a Hm ltac:(lia) (ex_intro _ lu (ex_intro _ p L))) as [[b [D _]] _]. congruence.
Qed.

Lemma second_ex a p q r : exists x, second3 a p q r x.
Proof. unfold second3. destruct (Rlt_le_dec (a q 0%nat / a p 0%nat) (rcleared a p r 1)); eauto. Qed.
Lemma quot_sign x y : 0 < y -> (x / y < 0 <-> x < 0) /\ (0 <= x / y <-> 0 <= x).
Proof.
  intros H. assert (0 < / y) by (apply Rinv_0_lt_compat, H). unfold Rdiv. split; split; intros K; nra.
Qed.
Lemma lead_big x y : x * x + y * y = 1 -> y <= x -> - y <= x -> / 1000 < x.
Proof. intros E H1 H2. destruct (Rlt_le_dec (/ 1000) x) as [|L]; [assumption|]. assert (0 <= x) by lra. assert (y * y <= x * x) by nra. nra. Qed.

(*@ C74_about_z *)
(** C74 over exact reals, violation: of the turns about z exactly those from 0 to 90 degrees are recognised; every other one is
    refused by [det], [is_so_n], [is_orthogonal], [log] and [invert] *)
Lemma l_about_z :
  forall (m : Mat (T (Arith := RX))) (t : R), mat_r m 3 3 (rodrigues t 0 0 1) -> verdict m (sin t < 0 \/ cos t < 0).
Proof.
  intros m t Hm. set (a := rodrigues t 0 0 1) in *. pose proof (sin2_cos2 t) as SC. unfold Rsqr in SC.
  assert (V : a 0%nat 0%nat = cos t /\ a 0%nat 1%nat = - sin t /\ a 0%nat 2%nat = 0 /\ a 1%nat 0%nat = sin t /\ a 1%nat 1%nat = cos t /\ a 1%nat 2%nat = 0 /\ a 2%nat 0%nat = 0 /\ a 2%nat 1%nat = 0 /\ a 2%nat 2%nat = 1)
    by (conjs; unfold a, rodrigues; cbn [nth Nat.add Nat.mul]; lra).
  set (c := cos t) in *. set (s := sin t) in *. assert (EP : 0 < eps <= / 1000) by (unfold eps; lra).
  destruct V as (V00 & V01 & V02 & V10 & V11 & V12 & V20 & V21 & V22). clearbody a.
  apply (verdict_ok m a); [exact Hm| | |].
  - intros i j Hi Hj. unfold rmul, rtr, rid. cbn [Rsum]. destruct i as [|[|[|i]]], j as [|[|[|j]]]; try lia; cbn [Nat.eqb]; rewrite ?V00, ?V01, ?V02, ?V10, ?V11, ?V12, ?V20, ?V21, ?V22; lra.
  - rewrite det3, V00, V01, V02, V10, V11, V12, V20, V21, V22. lra.
  - assert (P2 : c < 0 -> s < 0 -> (lup m = Err Singular <-> s < 0 \/ c < 0)).
    { intros H1 H2. assert (HL : leads3 a 2 1 0) by (right; right; rewrite V00, V10, V20; conjs; auto).
      destruct (second_ex a 2 1 0) as [x HS]. destruct (l_three_real m a 2 1 0 x Hm HL HS) as [-> _]. rewrite V20, Rabs_R0. split; intros _; [left|left]; lra. }
    destruct (Rle_lt_dec s c) as [L1|L1].
    + destruct (Rle_lt_dec 0 c) as [L2|L2]; [|apply P2; lra].
      assert (HL : leads3 a 0 1 2) by (left; rewrite V00, V10, V20; conjs; auto).
      destruct (second_ex a 0 1 2) as [x HS]. destruct (l_three_real m a 0 1 2 x Hm HL HS) as [-> _].
      unfold second3, rcleared in HS. rewrite V00, V01, V10, V11, V20, V21 in HS. rewrite V00, (Rabs_pos_eq c) by exact L2.
      destruct (Req_dec c 0) as [C0|C0]; [split; intros _; left; nra|]. assert (C1 : 0 < c) by lra. destruct (quot_sign s c C1) as [Q1 Q2].
      replace (0 - - s * (0 / c)) with 0 in HS by (field; exact C0). replace (c - - s * (s / c)) with (/ c) in HS by (field_simplify_eq; [nra|exact C0]).
      destruct HS as [[H1 ->]|[H1 ->]].
      * rewrite Rabs_R0. split; intros _; [left; apply Q1, H1|right; lra].
      * apply Q2 in H1. assert (I1 : 1 <= / c) by (rewrite <- Rinv_1; apply Rinv_le_contravar; nra). rewrite Rabs_pos_eq by lra. pose proof (lead_big c s ltac:(lra) L1 ltac:(lra)) as LB. split; intros [H|H]; exfalso; lra.
    + destruct (Rle_lt_dec 0 s) as [L2|L2]; [|apply P2; lra].
      assert (HL : leads3 a 1 0 2) by (right; left; rewrite V00, V10, V20; conjs; auto).
      destruct (second_ex a 1 0 2) as [x HS]. destruct (l_three_real m a 1 0 2 x Hm HL HS) as [-> _].
      unfold second3, rcleared in HS. rewrite V00, V01, V10, V11, V20, V21 in HS. rewrite V10, (Rabs_pos_eq s) by exact L2.
      destruct (Req_dec s 0) as [C0|C0]; [split; intros _; [right|left]; lra|]. assert (C1 : 0 < s) by lra. destruct (quot_sign c s C1) as [Q1 Q2].
      replace (0 - c * (0 / s)) with 0 in HS by (field; exact C0). replace (- s - c * (c / s)) with (- / s) in HS by (field_simplify_eq; [nra|exact C0]).
      destruct HS as [[H1 ->]|[H1 ->]].
      * rewrite Rabs_R0. split; intros _; [right; apply Q1, H1|right; lra].
      * apply Q2 in H1. assert (I1 : 1 <= / s) by (rewrite <- Rinv_1; apply Rinv_le_contravar; nra). rewrite Rabs_Ropp, Rabs_pos_eq by lra. pose proof (lead_big s c ltac:(lra) ltac:(lra) ltac:(lra)) as LB. split; intros [H|H]; exfalso; lra.
Qed.

(*@ C74_about_x *)
(** C74 over exact reals: a turn about x is refused exactly when its sine is positive and below EPSILON, or not positive while
    the cosine is below EPSILON in magnitude *)
Lemma l_about_x :
  forall (m : Mat (T (Arith := RX))) (t : R), mat_r m 3 3 (rodrigues t 1 0 0) -> verdict m (0 < sin t < eps \/ sin t <= 0 /\ Rabs (cos t) < eps).
Proof.
  intros m t Hm. set (a := rodrigues t 1 0 0) in *. pose proof (sin2_cos2 t) as SC. unfold Rsqr in SC.
  assert (V : a 0%nat 0%nat = 1 /\ a 0%nat 1%nat = 0 /\ a 0%nat 2%nat = 0 /\ a 1%nat 0%nat = 0 /\ a 1%nat 1%nat = cos t /\ a 1%nat 2%nat = - sin t /\ a 2%nat 0%nat = 0 /\ a 2%nat 1%nat = sin t /\ a 2%nat 2%nat = cos t)
    by (conjs; unfold a, rodrigues; cbn [nth Nat.add Nat.mul]; lra).
  set (c := cos t) in *. set (s := sin t) in *. assert (EP : 0 < eps <= / 1000) by (unfold eps; lra).
  destruct V as (V00 & V01 & V02 & V10 & V11 & V12 & V20 & V21 & V22). clearbody a.
  apply (verdict_ok m a); [exact Hm| | |].
  - intros i j Hi Hj. unfold rmul, rtr, rid. cbn [Rsum]. destruct i as [|[|[|i]]], j as [|[|[|j]]]; try lia; cbn [Nat.eqb]; rewrite ?V00, ?V01, ?V02, ?V10, ?V11, ?V12, ?V20, ?V21, ?V22; lra.
  - rewrite det3, V00, V01, V02, V10, V11, V12, V20, V21, V22. lra.
  - assert (HL : leads3 a 0 1 2) by (left; rewrite V00, V10, V20; conjs; auto; lra).
    destruct (second_ex a 0 1 2) as [x HS]. destruct (l_three_real m a 0 1 2 x Hm HL HS) as [-> _].
    unfold second3, rcleared in HS. rewrite V00, V01, V10, V11, V20, V21 in HS. rewrite V00, Rabs_R1.
    replace (0 / 1) with 0 in HS by field. replace (s - 0 * 0) with s in HS by ring. replace (c - 0 * 0) with c in HS by ring.
    destruct HS as [[H1 ->]|[H1 ->]]; [rewrite (Rabs_pos_eq s) by lra|]; split; intros [H|H]; try lra; auto.
Qed.

(*@ C74_about_y *)
(** C74 over exact reals, violation: a turn about y is refused exactly when neither its cosine nor the negative of its sine
    reaches EPSILON, that is (up to EPSILON) from 90 to 180 degrees *)
Lemma l_about_y :
  forall (m : Mat (T (Arith := RX))) (t : R), mat_r m 3 3 (rodrigues t 0 1 0) -> verdict m (cos t < eps /\ - sin t < eps).
Proof.
  intros m t Hm. set (a := rodrigues t 0 1 0) in *. pose proof (sin2_cos2 t) as SC. unfold Rsqr in SC.
  assert (V : a 0%nat 0%nat = cos t /\ a 0%nat 1%nat = 0 /\ a 0%nat 2%nat = sin t /\ a 1%nat 0%nat = 0 /\ a 1%nat 1%nat = 1 /\ a 1%nat 2%nat = 0 /\ a 2%nat 0%nat = - sin t /\ a 2%nat 1%nat = 0 /\ a 2%nat 2%nat = cos t)
    by (conjs; unfold a, rodrigues; cbn [nth Nat.add Nat.mul]; lra).
  set (c := cos t) in *. set (s := sin t) in *. assert (EP : 0 < eps <= / 1000) by (unfold eps; lra).
  destruct V as (V00 & V01 & V02 & V10 & V11 & V12 & V20 & V21 & V22). clearbody a.
  apply (verdict_ok m a); [exact Hm| | |].
  - intros i j Hi Hj. unfold rmul, rtr, rid. cbn [Rsum]. destruct i as [|[|[|i]]], j as [|[|[|j]]]; try lia; cbn [Nat.eqb]; rewrite ?V00, ?V01, ?V02, ?V10, ?V11, ?V12, ?V20, ?V21, ?V22; lra.
  - rewrite det3, V00, V01, V02, V10, V11, V12, V20, V21, V22. lra.
  - assert (Z : forall z, 0 / z = 0) by (intros z; unfold Rdiv; ring).
    destruct (Rle_lt_dec (- s) c) as [L1|L1]; [destruct (Rle_lt_dec 0 c) as [L2|L2]|destruct (Rle_lt_dec (- s) 0) as [L2|L2]].
    + assert (HL : leads3 a 0 1 2) by (left; rewrite V00, V10, V20; conjs; auto).
      destruct (second_ex a 0 1 2) as [x HS]. destruct (l_three_real m a 0 1 2 x Hm HL HS) as [-> _].
      unfold second3, rcleared in HS. rewrite V00, V01, V10, V11, V20, V21, Z in HS. rewrite V00, (Rabs_pos_eq c) by exact L2.
      assert (x = 1) by lra. subst x. rewrite Rabs_R1. split; [intros [H|H]; lra|lra].
    + assert (HL : leads3 a 1 0 2) by (right; left; rewrite V00, V10, V20; conjs; auto; lra).
      destruct (second_ex a 1 0 2) as [x HS]. destruct (l_three_real m a 1 0 2 x Hm HL HS) as [-> _].
      rewrite V10, Rabs_R0. split; intros _; [lra|left; lra].
    + assert (HL : leads3 a 1 0 2) by (right; left; rewrite V00, V10, V20; conjs; auto; lra).
      destruct (second_ex a 1 0 2) as [x HS]. destruct (l_three_real m a 1 0 2 x Hm HL HS) as [-> _].
      rewrite V10, Rabs_R0. split; intros _; [lra|left; lra].
    + assert (HL : leads3 a 2 1 0) by (right; right; rewrite V00, V10, V20; conjs; auto).
      destruct (second_ex a 2 1 0) as [x HS]. destruct (l_three_real m a 2 1 0 x Hm HL HS) as [-> _].
      unfold second3, rcleared in HS. rewrite V00, V01, V10, V11, V20, V21, Z in HS. rewrite V20, (Rabs_pos_eq (- s)) by lra.
      assert (x = 1) by lra. subst x. rewrite Rabs_R1. split; [intros [H|H]; lra|lra].
Qed.

Lemma ex_regions :
  (let A := F32 lm_id in let m := mk_mat (A := A) 3 3 (map z32 [1; 2; 0; 4; 1; 1; 2; 0; 4]%Z) in
   wfm m /\ order3 (A := A) (fun i j => nth (i * 3 + j) (map z32 [1; 2; 0; 4; 1; 1; 2; 0; 4]%Z) (z32 0)) = (1, 0, 2)%nat /\
   rmap (fun s => v_elems (snd s)) (lup m) = Ok [1; 0; 2; 0]%nat) /\
  (exists m : Mat (T (Arith := RX)), mat_r m 3 3 (rodrigues (2 * (PI / 3)) 0 0 1) /\ m_is_so_n m = Err Singular) /\
  exists m : Mat (T (Arith := RX)), mat_r m 3 3 (rodrigues (PI / 4) 0 0 1) /\ m_is_so_n m = Ok true.
Proof.
  assert (K : forall t, exists m : Mat (T (Arith := RX)), mat_r m 3 3 (rodrigues t 0 0 1)).
  { intros t. exists (rmat 3 3 (map (fun k => rodrigues t 0 0 1 (k / 3) (k mod 3)) (seq 0 9))). eapply mat_is_ext; [apply rmat_is; cbn; lia|].
    intros i j Hi Hj. destruct i as [|[|[|i]]], j as [|[|[|j]]]; try lia; reflexivity. }
  split; [|split].
  - cbv zeta. split; [apply wfm_b_ok; vm_compute; reflexivity|]. split; vm_compute; reflexivity.
  - destruct (K (2 * (PI / 3))) as [m Hm]. exists m. split; [exact Hm|]. apply (l_about_z m _ Hm). right. rewrite cos_2PI3. lra.
  - destruct (K (PI / 4)) as [m Hm]. exists m. split; [exact Hm|]. apply (l_about_z m _ Hm). rewrite sin_PI4, cos_PI4.
    assert (0 < / sqrt 2) by (apply Rinv_0_lt_compat, sqrt_lt_R0; lra). unfold Rdiv. lra.
Qed.
(*@ example *)
(** C14, C74: in f32, [[1,2,0],[4,1,1],[2,0,4]] takes row 1 first and is accepted; the exact turn about z by 120 degrees is
    refused, the one by 45 degrees recognised *)
Example C74_regions_example :
  (let A := F32 lm_id in let m := mk_mat (A := A) 3 3 (map z32 [1; 2; 0; 4; 1; 1; 2; 0; 4]%Z) in
   wfm m /\ order3 (A := A) (fun i j => nth (i * 3 + j) (map z32 [1; 2; 0; 4; 1; 1; 2; 0; 4]%Z) (z32 0)) = (1, 0, 2)%nat /\
   rmap (fun s => v_elems (snd s)) (lup m) = Ok [1; 0; 2; 0]%nat) /\
  (exists m : Mat (T (Arith := RX)), mat_r m 3 3 (rodrigues (2 * (PI / 3)) 0 0 1) /\ m_is_so_n m = Err Singular) /\
  exists m : Mat (T (Arith := RX)), mat_r m 3 3 (rodrigues (PI / 4) 0 0 1) /\ m_is_so_n m = Ok true.
Proof. exact ex_regions. Qed.
