(** C54: the scalar helpers of utils. *)
(*@+*)
From Coq Require Import List Arith ZArith NArith Reals Lia Bool Lra.
From Flocq Require Import Core BinarySingleNaN.
From Verif Require Import M_Base M_Arith M_Utils M_F32 M_RX S_Spec S_Scalar P_Inst.
Local Open Scope R_scope.
(*@-*)
From Verif Require Import S_Ar P_Hoare P_Cont P_Ar P_Norm.

Lemma leb_fle (x y : f32) : Bleb x y = true <-> fle x y.
Proof.
  destruct (is_finite x) eqn:Fx, (is_finite y) eqn:Fy.
  - rewrite Bleb_correct by auto. replace (fle x y) with (B2R x <= B2R y) by (destruct x as [|[]| |], y as [|[]| |]; try discriminate; reflexivity).
    split; [intros H; destruct (Rle_bool_spec (B2R x) (B2R y)); [auto|discriminate]|apply Rle_bool_true].
  - destruct x as [s|s| |s m e Hb], y as [s'|[]| |s' m' e' Hb']; try discriminate; destruct s; cbn; split; intros; auto; try discriminate; tauto.
  - destruct x as [s|[]| |s m e Hb], y as [s'|s'| |s' m' e' Hb']; try discriminate; destruct s'; cbn; split; intros; auto; try discriminate; tauto.
  - destruct x as [s|[]| |s m e Hb], y as [s'|[]| |s' m' e' Hb']; try discriminate; cbn; split; intros; auto; try discriminate; tauto.
Qed.
Lemma ltb_leb (x y : f32) : fnum x -> fnum y -> Bltb x y = negb (Bleb y x).
Proof.
  intros Nx Ny. unfold fnum in *. destruct (is_finite x) eqn:Fx, (is_finite y) eqn:Fy.
  - rewrite Bleb_correct, Bltb_correct by auto. destruct (Rle_bool_spec (B2R y) (B2R x)) as [H|H]; cbn; [apply Rlt_bool_false; exact H|apply Rlt_bool_true; exact H].
  - destruct x as [s|s| |s m e Hb], y as [s'|[]| |s' m' e' Hb']; try discriminate; try (destruct s; reflexivity); cbn in Ny; congruence.
  - destruct x as [s|[]| |s m e Hb], y as [s'|s'| |s' m' e' Hb']; try discriminate; try (destruct s'; reflexivity); cbn in Nx; congruence.
  - destruct x as [s|[]| |s m e Hb], y as [s'|[]| |s' m' e' Hb']; try discriminate; try reflexivity; cbn in Nx, Ny; congruence.
Qed.
Lemma fle_num x y : fle x y -> fnum x /\ fnum y.
Proof. unfold fle, fnum. destruct (ext_of x), (ext_of y); intros H; split; try discriminate; tauto. Qed.
Lemma fle_refl x : fnum x -> fle x x.
Proof. unfold fnum, fle. destruct (ext_of x) as [[]|]; cbn; auto; try congruence; intros _; apply Rle_refl. Qed.
Lemma fle_total x y : fnum x -> fnum y -> fle x y \/ fle y x.
Proof. unfold fnum, fle. destruct (ext_of x) as [[]|], (ext_of y) as [[]|]; cbn; auto; try congruence. intros _ _. lra. Qed.
Lemma ltb_flt x y : Bltb x y = true <-> flt x y.
Proof.
  unfold flt. destruct (ext_of x) eqn:Ex; [destruct (ext_of y) eqn:Ey|].
  - assert (Nx : fnum x) by (unfold fnum; congruence). assert (Ny : fnum y) by (unfold fnum; congruence). rewrite ltb_leb by auto.
    rewrite negb_true_iff. rewrite <- (leb_fle y x). split.
    + intros H. split; [|congruence]. destruct (fle_total x y Nx Ny) as [|C]; auto. apply leb_fle in C. congruence.
    + intros [_ H]. destruct (Bleb y x); auto. congruence.
  - destruct y as [|[]| |]; try discriminate. split; [destruct x as [|[]| |[]]; cbn; discriminate|]. intros [H _]. unfold fle in H. rewrite Ex in H. destruct e; destruct H.
  - destruct x as [|[]| |]; try discriminate. split; [destruct y as [|[]| |[]]; cbn; discriminate|]. intros [H _]. destruct H.
Qed.
Lemma ltb_false x y : fnum x -> fnum y -> Bltb x y = false -> fle y x.
Proof. intros Nx Ny H. rewrite ltb_leb in H by auto. apply negb_false_iff in H. apply leb_fle; auto. Qed.

(*@ C54_in_range *)
(** [in_range] decides membership of the closed interval in the order of the extended reals; a NaN on any
    side is out of range. *)
Lemma l_in_range :
  forall lm (v lo hi : T (Arith := F32 lm)),
  (in_range v lo hi = true <-> fle lo v /\ fle v hi) /\
  (~ fnum v \/ ~ fnum lo \/ ~ fnum hi -> in_range v lo hi = false).
Proof.
  intros lm v lo hi. assert (E : in_range v lo hi = true <-> fle lo v /\ fle v hi).
  { unfold in_range. cbn [fleb F32]. rewrite andb_true_iff. rewrite <- (leb_fle lo v), <- (leb_fle v hi). tauto. }
  split; [exact E|]. intros H. apply not_true_is_false. intros C. apply E in C. destruct C as [C1 C2]. apply fle_num in C1. apply fle_num in C2. tauto.
Qed.

(*@ C54_clip *)
(** [clip] with ordered bounds: a value in the interval is returned as it is, and any other number becomes
    the bound it exceeds; so the result is always in the interval.  A NaN is returned as it is. *)
Lemma l_clip :
  forall lm (v lo hi : T (Arith := F32 lm)), fle lo hi ->
  (fnum v -> let r := clip v lo hi in
     fle lo r /\ fle r hi /\ (fle lo v -> fle v hi -> r = v) /\ (flt v lo -> r = lo) /\ (flt hi v -> r = hi)) /\
  (~ fnum v -> clip v lo hi = v).
Proof.
  intros lm v lo hi B. pose proof (fle_num _ _ B) as [Nl Nh]. split.
  - intros Nv. cbv zeta. unfold clip. cbn [fltb F32].
    destruct (Bltb v lo) eqn:E1.
    + apply ltb_flt in E1. split; [apply fle_refl; auto|]. split; [auto|]. split; [intros H _; destruct E1; tauto|]. split; [auto|].
      intros H. exfalso. destruct E1 as [_ E1], H as [H1 _]. apply E1. revert B H1. unfold fle. destruct (ext_of lo) as [[]|], (ext_of hi) as [[]|], (ext_of v) as [[]|]; cbn; try tauto. lra.
    + pose proof (ltb_false _ _ Nv Nl E1) as L1. destruct (Bltb hi v) eqn:E2.
      * apply ltb_flt in E2. split; [auto|]. split; [apply fle_refl; auto|]. split; [intros _ H; destruct E2; tauto|]. split; [intros [_ H]; tauto|auto].
      * pose proof (ltb_false _ _ Nh Nv E2) as L2. split; [auto|]. split; [auto|]. split; [auto|]. split; intros [_ H]; tauto.
  - intros Nv. assert (v = B754_nan) as ->. { destruct v as [s|[]| |s m e Hb]; auto; exfalso; apply Nv; unfold fnum; discriminate. }
    unfold clip. cbn [fltb F32]. destruct lo as [|[]| |], hi as [|[]| |]; reflexivity.
Qed.

(*@ C54_minmax *)
(** [minf] and [maxf] return the smaller and the larger of two numbers. *)
Lemma l_minmax :
  forall lm (x y : T (Arith := F32 lm)), fnum x -> fnum y ->
  (minf x y = x \/ minf x y = y) /\ fle (minf x y) x /\ fle (minf x y) y /\
  (maxf x y = x \/ maxf x y = y) /\ fle x (maxf x y) /\ fle y (maxf x y).
Proof.
  intros lm x y Nx Ny. unfold minf, maxf. cbn [fltb F32].
  destruct (Bltb x y) eqn:E1, (Bltb y x) eqn:E2.
  - apply ltb_flt in E1. apply ltb_flt in E2. destruct E1 as [H _], E2 as [_ H']. tauto.
  - apply ltb_flt in E1. destruct E1. auto 10 using fle_refl.
  - apply ltb_flt in E2. destruct E2. auto 10 using fle_refl.
  - pose proof (ltb_false _ _ Nx Ny E1). pose proof (ltb_false _ _ Ny Nx E2). auto 10 using fle_refl.
Qed.

(*@ C54_minmax_refuted *)
(** With a NaN they depend on the order of the arguments: the second one is returned. *)
Lemma l_minmax_nan :
  forall lm, exists x n : T (Arith := F32 lm), fnum x /\ ~ fnum n /\
  minf x n = n /\ minf n x = x /\ maxf x n = n /\ maxf n x = x.
Proof.
  intros lm. exists (f1 (A := F32 lm)), (B754_nan : f32).
  split; [vm_compute; discriminate|]. split; [intros H; apply H; reflexivity|]. split; [reflexivity|]. split; [reflexivity|]. split; reflexivity.
Qed.

(*@ C54_sign *)
(** [sign]: 1 for positive values, -1 for negative ones, 0 for both zeros and NaN. *)
Lemma l_sign :
  forall lm (x : T (Arith := F32 lm)),
  let zero : T (Arith := F32 lm) := f0 in
  (flt zero x -> sign x = f1) /\ (flt x zero -> sign x = fm1) /\ (~ flt zero x -> ~ flt x zero -> sign x = f0).
Proof.
  intros lm x. cbv zeta. unfold sign. cbn [fltb F32].
  destruct (Bltb (f0 (A := F32 lm)) x) eqn:E1.
  - apply ltb_flt in E1. split; [auto|]. split; [intros H; destruct E1, H; tauto|]. intros; tauto.
  - assert (N1 : ~ flt (f0 (A := F32 lm)) x) by (intros H; apply ltb_flt in H; congruence).
    destruct (Bltb x (f0 (A := F32 lm))) eqn:E2.
    + apply ltb_flt in E2. split; [tauto|]. split; [auto|]. intros; tauto.
    + assert (N2 : ~ flt x (f0 (A := F32 lm))) by (intros H; apply ltb_flt in H; congruence). split; [tauto|]. split; [tauto|auto].
Qed.
Lemma nfact_is n : Nfact n = nfact n.
Proof. induction n as [|n IH]; [reflexivity|]. cbn [nfact]. rewrite <- IH. reflexivity. Qed.

(*@ C54_factorial *)
(** [factorial] is n! up to 20; above, the u64 product overflows: a panic with overflow checks, n! modulo
    2^64 without them. *)
Lemma l_factorial :
  forall n : nat,
  ((n <= 20)%nat -> forall ck, factorial ck n = Ok (nfact n)) /\
  ((21 <= n)%nat -> factorial true n = Panic /\ (2 ^ 64 <= nfact n)%N) /\
  factorial false n = Ok (nfact n mod 2 ^ 64)%N.
Proof.
  intros n. pose proof (factorial_is true n) as F1. pose proof (factorial_is false n) as F2.
  assert (E2 : factorial false n = Ok (nfact n mod 2 ^ 64)%N).
  { destruct (factorial false n) as [f|e|]; cbn [rwp] in F2; [|tauto|destruct F2; discriminate]. destruct F2 as [-> _]. rewrite nfact_is. reflexivity. }
  split; [|split; [|exact E2]].
  - intros Hn. destruct (factorial true n) as [f|e|] eqn:E1; cbn [rwp] in F1; [|tauto|destruct F1; lia]. destruct F1 as [F1 F3]. destruct (F3 eq_refl) as [F4 _].
    rewrite nfact_is in *. intros [|]; [rewrite E1; congruence|]. rewrite E2. congruence.
  - intros Hn. destruct (factorial true n) as [f|e|] eqn:E1; cbn [rwp] in F1; [|tauto|].
    + destruct F1 as [_ F3]. destruct (F3 eq_refl). lia.
    + split; [reflexivity|]. induction n as [|n IH]; [lia|]. destruct (Nat.eq_dec n 20) as [->|]; [vm_compute; discriminate|].
      cbn [nfact]. assert (H21 : (21 <= n)%nat) by lia.
      assert (G : (2 ^ 64 <= nfact n)%N).
      { clear -H21. induction n as [|n IH]; [lia|]. destruct (Nat.eq_dec n 20) as [->|]; [vm_compute; discriminate|]. cbn [nfact]. assert (2 ^ 64 <= nfact n)%N by (apply IH; lia). nia. }
      nia.
Qed.

(*@ C54_int *)
(** [min] and [max] on integers. *)
Lemma l_int :
  (forall x y : nat, min_u8 x y = Nat.min x y /\ max_u8 x y = Nat.max x y) /\ forall x y : Z, min_i8 x y = Z.min x y.
Proof.
  split.
  - intros x y. unfold min_u8, max_u8. split; [destruct (Nat.ltb_spec x y)|destruct (Nat.ltb_spec y x)]; lia.
  - intros x y. unfold min_i8. destruct (Z.ltb_spec x y); lia.
Qed.

(*@ C54_allclose *)
(** [allclose] compares finite values only, and decides |x - y| <= d in exact arithmetic. *)
Lemma l_allclose :
  (forall (A : Arith) (x y d : T) e, bad x = Some e -> allclose x y d = Err e) /\
  (forall (A : Arith) (x y d : T) e, valid x -> bad y = Some e -> allclose x y d = Err e) /\
  (forall x y d : R, exists b, allclose (A := RX) (Some x) (Some y) (Some d) = Ok b /\ (b = true <-> Rabs (x - y) <= d)).
Proof.
  split; [|split].
  - intros A x y d e B. unfold allclose. rewrite is_valid_value_bad, B. reflexivity.
  - intros A x y d e V B. unfold allclose. rewrite is_valid_value_ok by auto. cbn [rbind]. rewrite is_valid_value_bad, B. reflexivity.
  - intros x y d. eexists. split; [reflexivity|]. cbn. destruct (Rle_bool_spec (Rabs (x - y)) d); split; auto; try discriminate. lra.
Qed.

Lemma sc_ex lm : fle (f0 (A := F32 lm)) (f1 (A := F32 lm)) /\ fnum (f2 (A := F32 lm)) /\ flt (f1 (A := F32 lm)) (f2 (A := F32 lm)) /\ clip (A := F32 lm) f2 f0 f1 = f1 /\ factorial true 20 = Ok 2432902008176640000%N.
Proof.
  split; [apply leb_fle; vm_compute; reflexivity|]. split; [vm_compute; discriminate|]. split; [apply ltb_flt; vm_compute; reflexivity|]. split; [reflexivity|]. reflexivity.
Qed.
(*@ example *)
(** the interval [0, 1] and the value 2; 20! is the largest one that fits *)
Example C54_example : forall lm, fle (f0 (A := F32 lm)) (f1 (A := F32 lm)) /\ fnum (f2 (A := F32 lm)) /\ flt (f1 (A := F32 lm)) (f2 (A := F32 lm)) /\
  clip (A := F32 lm) f2 f0 f1 = f1 /\ factorial true 20 = Ok 2432902008176640000%N.
Proof. exact sc_ex. Qed.
