(** C55: the "random" attitudes of open_ahrs. *)
(*@+*)
From Coq Require Import List Arith ZArith NArith Reals Lia Bool Lra.
From Verif Require Import M_Base M_Arith M_Utils M_Vector M_Matrix M_Quaternion M_Ar M_RX S_Spec S_Linalg.
Local Open Scope R_scope.
(*@-*)
From Flocq Require Import Core.
From Verif Require Import S_Quat S_Norm P_Hoare P_Cont P_Loops P_Pointwise P_Trans P_Norm P_Product P_Quat P_Dot P_Dcm P_Interp P_Inst P_InstQ P_Ar P_Aqua.

Lemma for_ext {S E} l (b b' : nat -> ST S E unit) : (forall i, In i l -> b i = b' i) -> for_ l b = for_ l b'.
Proof.
  induction l as [|i l IH]; intros H; [reflexivity|]. cbn [for_]. rewrite H by (left; auto). rewrite IH; [reflexivity|]. intros; apply H; right; auto.
Qed.
Lemma draw_ext (A : Arith) d d' i : (d i < u64_max)%N -> (d' i < u64_max)%N -> gra_draw d i = gra_draw d' i.
Proof. intros H H'. unfold gra_draw. rewrite !N.div_small by auto. reflexivity. Qed.

(*@ C55_stream *)
(** The attitudes do not depend on the random generator: any two streams of 64-bit words below u64::MAX
    give the same result, whatever the arithmetic (only the words consumed matter). *)
Lemma l_gra_stream :
  forall (A : Arith) (draws draws' : nat -> N) (number : nat),
  (forall i, (i < 3 * number)%nat -> (draws i < 2 ^ 64 - 1)%N /\ (draws' i < 2 ^ 64 - 1)%N) ->
  generate_random_attitudes draws number = generate_random_attitudes draws' number.
Proof.
  intros A d d' number H. unfold generate_random_attitudes. change (2 ^ 64 - 1)%N with u64_max in H.
  rewrite (for_ext _ (gra_step d) (gra_step d')); [reflexivity|]. intros n Hn. apply in_range_ in Hn.
  unfold gra_step. rewrite (draw_ext A d d' (3 * n)), (draw_ext A d d' (3 * n + 1)), (draw_ext A d d' (3 * n + 2)) by (apply H; lia). reflexivity.
Qed.

(** pi as written in linalg/src/common.rs *)
Definition PIc : R := 3141592653589793 / 1000000000000000.
Definition pitch (n : nat) : R := INR n * (PIc / 64).
Lemma pitch_S n : pitch (S n) = pitch n + PIc / 64.
Proof. unfold pitch. rewrite S_INR. ring. Qed.
Lemma pitch_rng n : (n <= 4)%nat -> 0 <= pitch n <= 4 * (PIc / 64).
Proof. intros H. pose proof (pos_INR n). pose proof (le_INR _ _ H) as H4. cbn in H4. unfold pitch, PIc. split; nra. Qed.
Definition gq (n : nat) (i : nat) : R := quad (cos (pitch n)) 0 (sin (pitch n)) 0 i.

Lemma draw0 d i : (d i < 2 ^ 64 - 1)%N -> gra_draw (A := RX) d i = Some 0.
Proof. intros H. unfold gra_draw. rewrite N.div_small by auto. unfold fofN. cbn. f_equal. lra. Qed.

Lemma slerp_step n : (n < 4)%nat ->
  0 < PI / 2 - pitch n < PI /\ PIc / 64 < PI / 2 - pitch n /\
  forall i, (i < 4)%nat -> let th := PI / 2 - pitch n in let al := (PIc / 64) / th in
    sin ((1 - al) * th) / sin th * gq n i + sin (al * th) / sin th * (quad 0 0 1 0 i) = gq (S n) i.
Proof.
  intros H. pose proof (pitch_rng n ltac:(lia)) as R. pose proof PI2_3_2 as P.
  assert (D : PIc / 64 < 1 / 20) by (unfold PIc; lra). assert (D0 : 0 < PIc / 64) by (unfold PIc; lra).
  split; [lra|]. split; [lra|]. intros i Hi th al.
  assert (T0 : th <> 0) by (unfold th; lra).
  replace (al * th) with (PIc / 64) by (unfold al; field; auto).
  replace ((1 - al) * th) with (th - PIc / 64) by (unfold al; field; auto).
  assert (C0 : 0 < cos (pitch n)) by (apply cos_gt_0; lra).
  assert (S1 : sin th = cos (pitch n)) by (unfold th; apply sin_shift).
  assert (S2 : sin (th - PIc / 64) = cos (pitch (S n))) by (rewrite pitch_S; unfold th; replace (PI / 2 - pitch n - PIc / 64) with (PI / 2 - (pitch n + PIc / 64)) by ring; apply sin_shift).
  rewrite S1, S2. unfold gq. destruct i as [|[|[|[|i]]]]; [| | | |lia]; cbn [quad].
  - field. lra.
  - field. lra.
  - replace (PIc / 64) with (pitch (S n) - pitch n) by (rewrite pitch_S; ring). rewrite sin_minus. field. lra.
  - field. lra.
Qed.
Lemma gq_dot n : rdot 4 (quad 0 0 1 0) (gq n) = sin (pitch n).
Proof. unfold rdot, gq. cbn. ring. Qed.
Lemma rdot_sym n a b : rdot n a b = rdot n b a.
Proof. unfold rdot. induction n as [|n IH]; cbn; [reflexivity|]. rewrite IH. ring. Qed.
Lemma gq_norm n : rnorm 4 (gq n) = 1.
Proof.
  unfold rnorm. rewrite <- sqrt_1. f_equal. unfold rdot, gq. cbn. pose proof (sin2_cos2 (pitch n)) as H. unfold Rsqr in H. lra.
Qed.

Lemma step_ok d number n m p g :
  (n < number)%nat -> (number <= 4)%nat -> (forall i, (i < 3 * number)%nat -> (d i < 2 ^ 64 - 1)%N) ->
  mat_r m 4 number g -> vec_r p 4 (gq n) ->
  exists m' p', gra_step (A := RX) d n (m, p) = ((m', p'), Ok tt) /\ vec_r p' 4 (gq (S n)) /\
    mat_r m' 4 number (fun i j => if (j =? n)%nat then gq (S n) i else g i j).
Proof.
  intros Hn Hnum Hd Hm Hp. unfold gra_step. rewrite !draw0 by (apply Hd; lia).
  destruct (slerp_step n ltac:(lia)) as (TH & GT & SL).
  rewrite f1_RX, f2_RX.
  replace (fsqrt (Arith := RX) (fsub (Arith := RX) (Some 1) (Some 0))) with (Some 1 : T (Arith := RX)).
  2:{ cbn. rewrite Rlt_bool_false by lra. rewrite Rminus_0_r, sqrt_1. reflexivity. }
  replace (fsqrt (Arith := RX) (Some 0)) with (Some 0 : T (Arith := RX)).
  2:{ cbn. rewrite Rlt_bool_false by lra. rewrite sqrt_0. reflexivity. }
  replace (fmul (Arith := RX) (fmul (Arith := RX) (Some 2) PI_) (Some 0)) with (Some 0 : T (Arith := RX)).
  2:{ cbn. rewrite Rmult_0_r. reflexivity. }
  replace (fcos (Arith := RX) (Some 0)) with (Some 1 : T (Arith := RX)) by (cbn; rewrite cos_0; reflexivity).
  replace (fsin (Arith := RX) (Some 0)) with (Some 0 : T (Arith := RX)) by (cbn; rewrite sin_0; reflexivity).
  replace (fmul (Arith := RX) (Some 0) (Some 1)) with (Some 0 : T (Arith := RX)) by (cbn; f_equal; ring).
  replace (fmul (Arith := RX) (Some 1) (Some 0)) with (Some 0 : T (Arith := RX)) by (cbn; f_equal; ring).
  replace (fmul (Arith := RX) (Some 1) (Some 1)) with (Some 1 : T (Arith := RX)) by (cbn; f_equal; ring).
  replace (fmul (Arith := RX) (Some 0) (Some 0)) with (Some 0 : T (Arith := RX)) by (cbn; f_equal; ring).
  cbv zeta.
  destruct (v_init_new (A := RX) 4 ltac:(lia)) as (a0 & E0 & A0).
  destruct (q_fillq_ok (A := RX) a0 _ (Some 0) (Some 0) (Some 1) (Some 0) A0) as (a1 & E1 & A1); try apply valid_RX.
  assert (A2 : vec_r a1 4 (quad 0 0 1 0)).
  { eapply vec_is_ext; [exact A1|]. intros i Hi. destruct i as [|[|[|[|i]]]]; try reflexivity; lia. }
  erewrite sbind_ok. 2:{ apply lift_ok. rewrite (exec_step _ _ _ _ E0). unfold exec. rewrite E1. reflexivity. }
  erewrite sbind_ok by reflexivity. cbn [snd].
  erewrite sbind_ok. 2:{ apply lift_ok. apply (l_dot_real _ _ 4 _ _ A2 Hp). }
  rewrite gq_dot.
  assert (TE : facos (Arith := RX) (Some (sin (pitch n))) = Some (PI / 2 - pitch n)).
  { cbn. unfold in_unit. pose proof (SIN_bound (pitch n)). rewrite !Rle_bool_true by lra. cbn. f_equal.
    rewrite <- (cos_shift (pitch n)). apply acos_cos. lra. }
  rewrite TE. set (th := PI / 2 - pitch n) in *.
  assert (AB : fabs (Arith := RX) (Some th) = Some th) by (cbn; rewrite Rabs_pos_eq by lra; reflexivity). rewrite AB.
  assert (MA : fdiv (Arith := RX) PI_ (lit (Arith := RX) 64 1) = Some (PIc / 64)).
  { cbn. rewrite Req_bool_false by lra. unfold PIc. f_equal. lra. }
  rewrite MA.
  assert (CM : fltb (Arith := RX) (Some (PIc / 64)) (Some th) = true) by (cbn; apply Rlt_bool_true; lra). rewrite CM.
  assert (DV : fdiv (Arith := RX) (Some (PIc / 64)) (Some th) = Some (PIc / 64 / th)) by (cbn; rewrite Req_bool_false by lra; reflexivity). rewrite DV.
  destruct (v_init_new (A := RX) 4 ltac:(lia)) as (b0 & F0 & B0).
  assert (B1 : vec_r b0 4 (fun _ => 0)) by (eapply vec_is_ext; [exact B0|]; intros; apply f0_RX).
  assert (AL : 0 <= PIc / 64 / th <= 1).
  { assert (0 < PIc / 64) by (unfold PIc; lra). split; [apply Rlt_le, Rdiv_lt_0_compat; lra|]. apply Rmult_le_reg_r with th; [lra|]. unfold Rdiv at 1. rewrite Rmult_assoc, Rinv_l by lra. lra. }
  assert (NA : rnorm 4 (quad 0 0 1 0) = 1).
  { unfold rnorm. transitivity (sqrt 1); [|apply sqrt_1]. f_equal. unfold rdot. cbn. ring. }
  assert (DT : rdot 4 (gq n) (quad 0 0 1 0) = cos th) by (rewrite rdot_sym, gq_dot; unfold th; symmetry; apply cos_shift).
  destruct (l_slerp b0 p a1 4 _ _ _ _ th B1 Hp A2 AL (gq_norm n) NA TH DT) as (s' & s & E2 & Hs & Es & _).
  assert (Hs2 : vec_r s' 4 (gq (S n))).
  { eapply vec_is_ext; [exact Hs|]. intros i Hi. cbn beta. f_equal. rewrite Es by auto. apply SL; auto. }
  destruct (v_copy_from_ok (A := RX) p s' 4 _ _ Hp Hs2) as (p' & E3 & Hp').
  erewrite sbind_ok.
  2:{ erewrite sbind_ok. 2:{ apply lift_ok. rewrite (exec_step _ _ _ _ F0). unfold exec. rewrite E2. reflexivity. }
      unfold q_get_qw, q_get_qx, q_get_qy, q_get_qz. rewrite !(q_get_is _ _ _ Hs2) by lia.
      erewrite sbind_ok by reflexivity. erewrite sbind_ok by reflexivity. erewrite sbind_ok by reflexivity. erewrite sbind_ok by reflexivity.
      erewrite sbind_ok. 2:{ unfold zoom. cbn [snd fst]. rewrite E3. reflexivity. } reflexivity. }
  unfold zoom. cbn [fst snd]. 
  destruct (m_set_in (A := RX) m 4 number _ 0 n (Some (gq (S n) 0)) Hm ltac:(lia) Hn (valid_RX _)) as (m1 & M1 & K1).
  destruct (m_set_in (A := RX) m1 4 number _ 1 n (Some (gq (S n) 1)) K1 ltac:(lia) Hn (valid_RX _)) as (m2 & M2 & K2).
  destruct (m_set_in (A := RX) m2 4 number _ 2 n (Some (gq (S n) 2)) K2 ltac:(lia) Hn (valid_RX _)) as (m3 & M3 & K3).
  destruct (m_set_in (A := RX) m3 4 number _ 3 n (Some (gq (S n) 3)) K3 ltac:(lia) Hn (valid_RX _)) as (m4 & M4 & K4).
  rewrite (sbind_ok _ _ _ _ _ M1). rewrite (sbind_ok _ _ _ _ _ M2). rewrite (sbind_ok _ _ _ _ _ M3). rewrite M4.
  eexists _, _. split; [reflexivity|]. split; [exact Hp'|].
  eapply mat_is_ext; [exact K4|]. intros i j Hi Hj. unfold fupd2. destruct (Nat.eqb_spec j n); [|rewrite !andb_false_r; reflexivity]. rewrite !andb_true_r.
  destruct i as [|[|[|[|i]]]]; try reflexivity; lia.
Qed.

(*@ C55_value *)
(** What they are, in exact arithmetic: for 1 to 4 attitudes the n-th one is always the same rotation
    about the y axis, starting one step of pi/64 from the identity and adding pi/64 (of half-angle) at each
    step; other numbers of attitudes are refused. *)
Lemma l_gra_value :
  forall (draws : nat -> N) (number : nat), (forall i, (i < 3 * number)%nat -> (draws i < 2 ^ 64 - 1)%N) ->
  (number = 0%nat -> generate_random_attitudes (A := RX) draws number = Err ColsNumberNull) /\
  ((4 < number)%nat -> generate_random_attitudes (A := RX) draws number = Err ColsNumberOverflow) /\
  ((1 <= number <= 4)%nat ->
    exists m, generate_random_attitudes (A := RX) draws number = Ok m /\
      let angle n := INR (n + 1) * (3141592653589793 / 1000000000000000 / 64) in
      mat_r m 4 number (fun i n => match i with 0%nat => cos (angle n) | 2%nat => sin (angle n) | _ => 0 end)).
Proof.
  intros d number Hd. unfold generate_random_attitudes, is_valid_cols_number, N_MAX.
  split; [intros ->; reflexivity|]. split; [intros H; rewrite (proj2 (Nat.ltb_lt 4 number)) by auto; reflexivity|]. intros [L1 L2].
  rewrite (proj2 (Nat.ltb_ge 4 number)) by auto. rewrite (proj2 (Nat.eqb_neq number 0)) by lia. cbn [rbind].
  destruct (m_init_new (A := RX) 4 number ltac:(lia) ltac:(lia)) as (m0 & E0 & H0). unfold exec at 1. rewrite E0. cbn [rbind].
  destruct (identity_q (A := RX)) as (p0 & E1 & H1). rewrite E1. cbn [rbind].
  assert (P0 : vec_r p0 4 (gq 0)).
  { eapply vec_is_ext; [exact H1|]. intros i Hi. unfold gq, pitch. cbn [INR]. rewrite Rmult_0_l, cos_0, sin_0.
    destruct i as [|[|[|[|i]]]]; [| | | |lia]; cbn [quad]; rewrite ?f1_RX, ?f0_RX; reflexivity. }
  assert (W : wp (for_ (range 0 number) (gra_step (A := RX) d)) (m0, p0)
     (fun _ s => mat_r (fst s) 4 number (fun i j => gq (S j) i)) (fun _ _ => False) False).
  { apply (wp_for (fun n s => vec_r (snd s) 4 (gq n) /\ mat_r (fst s) 4 number (fun i j => if (j <? n)%nat then gq (S j) i else 0))).
    - split; [exact P0|]. eapply mat_is_ext; [exact H0|]. intros; apply f0_RX.
    - intros n [m p] Hn [Hp Hm]. cbn [fst snd] in *.
      destruct (step_ok d number n m p _ ltac:(lia) L2 Hd Hm Hp) as (m' & p' & E & Hp' & Hm'). unfold wp. rewrite E. cbn [fst snd]. split; [exact Hp'|].
      eapply mat_is_ext; [exact Hm'|]. intros i j _ _. cbn beta. f_equal.
      destruct (Nat.eqb_spec j n) as [->|]; [rewrite (proj2 (Nat.ltb_lt n (S n))) by lia; reflexivity|].
      destruct (Nat.ltb_spec j n); destruct (Nat.ltb_spec j (S n)); try lia; reflexivity.
    - intros [m p] [_ Hm]. cbn [fst snd] in *. eapply mat_is_ext; [exact Hm|]. intros i j _ Hj. cbn beta. f_equal. rewrite (proj2 (Nat.ltb_lt j _)) by lia. reflexivity. }
  unfold wp in W. unfold exec. destruct (for_ (range 0 number) (gra_step (A := RX) d) (m0, p0)) as [[m p] [[]|e|]]; [|destruct W|destruct W].
  exists m. split; [reflexivity|]. cbv zeta. eapply mat_is_ext; [exact W|]. intros i j Hi Hj. cbn beta. unfold gq, pitch, PIc. replace (j + 1)%nat with (S j) by lia.
  destruct i as [|[|[|[|i]]]]; [| | | |lia]; reflexivity.
Qed.

(*@ C55_refuted *)
(** So two generators that produce different words give the same four attitudes. *)
Lemma l_gra_refuted :
  exists draws draws' : nat -> N, (forall i, (draws i < 2 ^ 64)%N /\ (draws' i < 2 ^ 64)%N /\ draws i <> draws' i) /\
  forall A : Arith, generate_random_attitudes draws 4 = generate_random_attitudes draws' 4.
Proof.
  exists (fun _ => 0%N), (fun i => (2 ^ 63 + N.of_nat i mod 1000)%N).
  assert (B : forall i, (2 ^ 63 + N.of_nat i mod 1000 < 2 ^ 64 - 1)%N).
  { intros i. pose proof (N.mod_lt (N.of_nat i) 1000 ltac:(lia)). change (2 ^ 64 - 1)%N with 18446744073709551615%N. change (2 ^ 63)%N with 9223372036854775808%N. lia. }
  split.
  - intros i. cbv beta. specialize (B i). revert B. generalize (N.of_nat i mod 1000)%N. intros k B. change (2 ^ 63)%N with 9223372036854775808%N in *. change (2 ^ 64 - 1)%N with 18446744073709551615%N in *. change (2 ^ 64)%N with 18446744073709551616%N. lia.
  - intros A. apply l_gra_stream. intros i _. split; [reflexivity|apply B].
Qed.
