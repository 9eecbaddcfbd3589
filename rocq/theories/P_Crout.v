(** C19, C20: the LR decomposition of 4 x 4 matrices, and what the Crout decomposition returns when it succeeds. *)
(*@+*)
From Coq Require Import List Arith ZArith Reals Lia Bool Lra.
From Flocq Require Import Core BinarySingleNaN.
From Verif Require Import M_Base M_Arith M_Utils M_Vector M_Matrix M_F32 M_RX
  S_Spec S_Linalg S_Norm S_Lu P_Inst.
Import ListNotations.
Local Open Scope R_scope.
(*@-*)
From Verif Require Import S_Compare P_Hoare P_Cont P_Loops P_Access P_Pointwise P_Trans P_Float P_Product P_Norm P_Lup P_Uninit P_Diag P_Compare P_Lr.

Lemma Rdiv_mul x y : y <> 0 -> x / y * y = x.
Proof. intros H. field. exact H. Qed.
(** keep the new element as a variable, with its equation *)
Ltac keepv := match goal with E : ?x = Some ?v |- _ => rewrite ?f0_RX in E; cbn [fsub fmul fadd fdiv RX rx2 rx_div andb Nat.eqb] in E; rewrite ?Rminus_0_r, ?Rplus_0_l in E;
   first [injection E as E
         |match type of E with (if Req_bool ?d 0 then _ else Some (?a / _)) = _ =>
            let K := fresh "K" in let Z := fresh "NZ" in destruct (Req_bool_spec d 0) as [Z|Z]; [discriminate|injection E as E; pose proof (Rdiv_mul a d Z) as K; rewrite E in K; clear E] end] end.
Ltac kstep :=
  match goal with
  | |- wp (on_l (m_set _ _ _)) _ _ _ _ => apply wp_zoom; cbn [lr_l lr_r lr_sum]; eapply wp_m_set_r; [eassumption|lia|lia|intros ?v ?m' ?E ?H; keepv|intros ?E; exact I]
  | |- wp (on_r (m_set _ _ _)) _ _ _ _ => apply wp_zoom; cbn [lr_l lr_r lr_sum]; eapply wp_m_set_r; [eassumption|lia|lia|intros ?v ?m' ?E ?H; keepv|intros ?E; exact I]
  | |- wp (if negb ?b then _ else _) _ _ _ _ => destruct b; cbn [negb]; [|apply wp_sthrow; exact I]
  | |- _ => lrstep
  end.
Lemma below4 (P : nat -> Prop) : P 0%nat -> P 1%nat -> P 2%nat -> P 3%nat -> forall i, (i < 4)%nat -> P i.
Proof. intros H H1 H2 H3 i Hi. destruct i as [|[|[|[|i]]]]; auto. lia. Qed.
Lemma sq4 (P : nat -> nat -> Prop) : P 0%nat 0%nat -> P 0%nat 1%nat -> P 0%nat 2%nat -> P 0%nat 3%nat -> P 1%nat 0%nat -> P 1%nat 1%nat -> P 1%nat 2%nat -> P 1%nat 3%nat ->
  P 2%nat 0%nat -> P 2%nat 1%nat -> P 2%nat 2%nat -> P 2%nat 3%nat -> P 3%nat 0%nat -> P 3%nat 1%nat -> P 3%nat 2%nat -> P 3%nat 3%nat ->
  forall i j, (i < 4)%nat -> (j < 4)%nat -> P i j.
Proof. intros. destruct i as [|[|[|[|i]]]], j as [|[|[|[|j]]]]; first [assumption|lia]. Qed.
Ltac sq4 := refine (sq4 _ _ _ _ _ _ _ _ _ _ _ _ _ _ _ _ _); cbv beta.

Definition lr4_clean (l r : nat -> nat -> R) : Prop :=
  l 1%nat 0%nat * r 0%nat 1%nat = 0 /\ l 1%nat 0%nat * r 0%nat 2%nat = 0 /\ l 3%nat 0%nat * r 0%nat 1%nat = 0 /\
  l 2%nat 0%nat * r 0%nat 2%nat + l 2%nat 1%nat * r 1%nat 2%nat = 0 /\ l 3%nat 0%nat * r 0%nat 2%nat + l 3%nat 1%nat * r 1%nat 2%nat = 0.

Lemma lr4_rwp m a : mat_r m 4 4 a ->
  rwp (m_lr m) (fun s => exists l r, mat_r (fst s) 4 4 l /\ mat_r (snd s) 4 4 r /\ lr_shape 4 l r /\ (req 4 4 (rmul 4 l r) a <-> lr4_clean l r))
    (fun _ => True) True.
Proof.
  intros Hm. lrstart Hm 4%nat. repeat kstep.
  do 2 eexists. cbn [lr_l lr_r fst snd]. split; [eassumption|]. split; [eassumption|].
  repeat match goal with H : mat_r _ _ _ _ |- _ => clear H end.
  match goal with K : ?v * ?d = a 0%nat 0%nat, Z : ?d <> 0 |- _ => assert (U1 : v = 1) by (apply (Rmult_eq_reg_r d); [lra|exact Z]); rewrite U1 in * end.
  unfold lr_shape, lower, upper, req, lr4_clean. conjs.
  - apply below4; reflexivity.
  - sq4; intros; try lia; reflexivity.
  - sq4; intros; try lia; reflexivity.
  - split.
    + intros HH. pose proof (HH 1%nat 2%nat ltac:(lia) ltac:(lia)) as H12. pose proof (HH 1%nat 3%nat ltac:(lia) ltac:(lia)) as H13.
      pose proof (HH 2%nat 2%nat ltac:(lia) ltac:(lia)) as H22. pose proof (HH 2%nat 3%nat ltac:(lia) ltac:(lia)) as H23. pose proof (HH 3%nat 3%nat ltac:(lia) ltac:(lia)) as H33.
      clear HH. cbn in H12, H13, H22, H23, H33 |- *. repeat split; lra.
    + cbn. intros (Y1 & Y2 & Y3 & Y4 & Y5). sq4; cbn; lra.
Qed.

(*@ C19_four *)
(** C19, violation for every 4 x 4 matrix: when [lr] succeeds the factors are triangular, and L R = A holds if and only if
    five sums of products of their elements, which the accumulator carries over, all vanish *)
Lemma l_lr_four :
  forall (m ml mr : Mat (T (Arith := RX))) (a : nat -> nat -> R), mat_r m 4 4 a -> m_lr m = Ok (ml, mr) ->
  exists l r, mat_r ml 4 4 l /\ mat_r mr 4 4 r /\ (forall i, (i < 4)%nat -> l i i = 1) /\ lower 4 l /\ upper 4 r /\
    (req 4 4 (rmul 4 l r) a <->
     l 1%nat 0%nat * r 0%nat 1%nat = 0 /\ l 1%nat 0%nat * r 0%nat 2%nat = 0 /\ l 3%nat 0%nat * r 0%nat 1%nat = 0 /\
     l 2%nat 0%nat * r 0%nat 2%nat + l 2%nat 1%nat * r 1%nat 2%nat = 0 /\
     l 3%nat 0%nat * r 0%nat 2%nat + l 3%nat 1%nat * r 1%nat 2%nat = 0).
Proof.
  intros m ml mr a Hm E. pose proof (lr4_rwp m a Hm) as W. rewrite E in W. cbn [rwp fst snd] in W.
  destruct W as (l & r & Hl & Hr & (S1 & S2 & S3) & Q). exists l, r. auto 10.
Qed.

Ltac crstart Hm n :=
  unfold m_lu_crout; rewrite (m_guard_square_is _ _ _ _ Hm), Nat.eqb_refl; cbn [rbind];
  rewrite (mi_rows _ _ _ _ Hm); let l0 := fresh "l0" in let E0 := fresh "E0" in let L0 := fresh "L0" in
  destruct (init_r n ltac:(lia)) as (l0 & E0 & L0);
  rewrite E0; cbn [rbind]; apply rwp_bind; apply wp_exec;
  apply wp_bind; apply wp_zoom; cbn [lr_l lr_r lr_sum];
  let l1 := fresh "l1" in let E1 := fresh "E1" in let L1 := fresh "L1" in
  destruct (fill_identity_r l0 n _ L0) as (l1 & E1 & L1); unfold wp at 1; rewrite E1; cbn [lr_l lr_r lr_sum].
Lemma crout_rwp1 m a : mat_r m 1 1 a ->
  rwp (m_lu_crout m) (fun s => exists l u, mat_r (fst s) 1 1 l /\ mat_r (snd s) 1 1 u /\ lr_shape 1 l u /\ req 1 1 (rmul 1 l u) a) (fun _ => True) True.
Proof.
  intros Hm. crstart Hm 1%nat. repeat kstep.
  do 2 eexists. cbn [lr_l lr_r fst snd]. split; [eassumption|]. split; [eassumption|].
  repeat match goal with H : mat_r _ _ _ _ |- _ => clear H end.
  repeat match goal with E : context [rid] |- _ => unfold rid in E; cbn in E end.
  unfold lr_shape, lower, upper, req. conjs.
  - apply below1; reflexivity.
  - intros; lia.
  - intros; lia.
  - sq1. cbn. lra.
Qed.
Lemma crout_rwp2 m a : mat_r m 2 2 a ->
  rwp (m_lu_crout m) (fun s => exists l u, mat_r (fst s) 2 2 l /\ mat_r (snd s) 2 2 u /\ lr_shape 2 l u /\ req 2 2 (rmul 2 l u) a) (fun _ => True) True.
Proof.
  intros Hm. crstart Hm 2%nat. repeat kstep.
  do 2 eexists. cbn [lr_l lr_r fst snd]. split; [eassumption|]. split; [eassumption|].
  repeat match goal with H : mat_r _ _ _ _ |- _ => clear H end.
  repeat match goal with E : context [rid] |- _ => unfold rid in E; cbn in E end.
  unfold lr_shape, lower, upper, req. conjs.
  - apply below2; reflexivity.
  - sq2; intros; try lia; reflexivity.
  - sq2; intros; try lia; reflexivity.
  - sq2; cbn; lra.
Qed.
Lemma crout_rwp3 m a : mat_r m 3 3 a ->
  rwp (m_lu_crout m) (fun s => exists l u, mat_r (fst s) 3 3 l /\ mat_r (snd s) 3 3 u /\ lr_shape 3 l u /\
    (req 3 3 (rmul 3 l u) a <-> l 1%nat 0%nat * u 0%nat 1%nat = 0 /\ l 2%nat 0%nat * u 0%nat 1%nat = 0)) (fun _ => True) True.
Proof.
  intros Hm. crstart Hm 3%nat. repeat kstep.
  do 2 eexists. cbn [lr_l lr_r fst snd]. split; [eassumption|]. split; [eassumption|].
  repeat match goal with H : mat_r _ _ _ _ |- _ => clear H end.
  repeat match goal with E : context [rid] |- _ => unfold rid in E; cbn in E end.
  unfold lr_shape, lower, upper, req. conjs.
  - apply below3; reflexivity.
  - sq3; intros; try lia; reflexivity.
  - sq3; intros; try lia; reflexivity.
  - split.
    + intros HH. pose proof (HH 1%nat 2%nat ltac:(lia) ltac:(lia)) as H12. pose proof (HH 2%nat 2%nat ltac:(lia) ltac:(lia)) as H22.
      clear HH. cbn in H12, H22 |- *. repeat split; lra.
    + cbn. intros (Y1 & Y2). sq3; cbn; lra.
Qed.
Lemma crout_rwp4 m a : mat_r m 4 4 a ->
  rwp (m_lu_crout m) (fun s => exists l u, mat_r (fst s) 4 4 l /\ mat_r (snd s) 4 4 u /\ lr_shape 4 l u /\
    (req 4 4 (rmul 4 l u) a <-> lr4_clean l u /\ l 2%nat 0%nat * u 0%nat 1%nat = 0)) (fun _ => True) True.
Proof.
  intros Hm. crstart Hm 4%nat. repeat kstep.
  do 2 eexists. cbn [lr_l lr_r fst snd]. split; [eassumption|]. split; [eassumption|].
  repeat match goal with H : mat_r _ _ _ _ |- _ => clear H end.
  repeat match goal with E : context [rid] |- _ => unfold rid in E; cbn in E end.
  unfold lr_shape, lower, upper, req, lr4_clean. conjs.
  - apply below4; reflexivity.
  - sq4; intros; try lia; reflexivity.
  - sq4; intros; try lia; reflexivity.
  - split.
    + intros HH. pose proof (HH 1%nat 2%nat ltac:(lia) ltac:(lia)) as H12. pose proof (HH 1%nat 3%nat ltac:(lia) ltac:(lia)) as H13. pose proof (HH 3%nat 1%nat ltac:(lia) ltac:(lia)) as H31.
      pose proof (HH 2%nat 2%nat ltac:(lia) ltac:(lia)) as H22. pose proof (HH 2%nat 3%nat ltac:(lia) ltac:(lia)) as H23. pose proof (HH 3%nat 3%nat ltac:(lia) ltac:(lia)) as H33.
      clear HH. cbn in H12, H13, H22, H23, H31, H33 |- *. repeat split; lra.
    + cbn. intros ((Y1 & Y2 & Y3 & Y4 & Y5) & Y6). sq4; cbn; lra.
Qed.

(*@ C20_small *)
(** C20: for 1 x 1 and 2 x 2, when [lu_crout] does succeed, L U = A with L unit lower and U upper triangular *)
Lemma l_crout_small :
  forall (m ml mu : Mat (T (Arith := RX))) (n : nat) (a : nat -> nat -> R), mat_r m n n a -> (n <= 2)%nat -> m_lu_crout m = Ok (ml, mu) ->
  exists l u, mat_r ml n n l /\ mat_r mu n n u /\ (forall i, (i < n)%nat -> l i i = 1) /\ lower n l /\ upper n u /\ req n n (rmul n l u) a.
Proof.
  intros m ml mu n a Hm Hn E. destruct (mat_is_dim _ _ _ _ Hm) as [Dn _].
  assert (W : rwp (m_lu_crout m) (fun s => exists l u, mat_r (fst s) n n l /\ mat_r (snd s) n n u /\ lr_shape n l u /\ req n n (rmul n l u) a) (fun _ => True) True).
  { assert (n = 1 \/ n = 2)%nat as [-> | ->] by lia; [apply crout_rwp1|apply crout_rwp2]; auto. }
  rewrite E in W. cbn [rwp fst snd] in W. destruct W as (l & u & Hl & Hu & (S1 & S2 & S3) & Q). exists l, u. auto 10.
Qed.

(*@ C20_three *)
(** C20, violation for every 3 x 3 matrix: when [lu_crout] succeeds, L U = A holds if and only if l10 u01 = 0 and
    l20 u01 = 0; the factors are always triangular *)
Lemma l_crout_three :
  forall (m ml mu : Mat (T (Arith := RX))) (a : nat -> nat -> R), mat_r m 3 3 a -> m_lu_crout m = Ok (ml, mu) ->
  exists l u, mat_r ml 3 3 l /\ mat_r mu 3 3 u /\ (forall i, (i < 3)%nat -> l i i = 1) /\ lower 3 l /\ upper 3 u /\
    (req 3 3 (rmul 3 l u) a <-> l 1%nat 0%nat * u 0%nat 1%nat = 0 /\ l 2%nat 0%nat * u 0%nat 1%nat = 0).
Proof.
  intros m ml mu a Hm E. pose proof (crout_rwp3 m a Hm) as W. rewrite E in W. cbn [rwp fst snd] in W.
  destruct W as (l & u & Hl & Hu & (S1 & S2 & S3) & Q). exists l, u. auto 10.
Qed.

(*@ C20_four *)
(** C20, violation for every 4 x 4 matrix: the same with six sums of products *)
Lemma l_crout_four :
  forall (m ml mu : Mat (T (Arith := RX))) (a : nat -> nat -> R), mat_r m 4 4 a -> m_lu_crout m = Ok (ml, mu) ->
  exists l u, mat_r ml 4 4 l /\ mat_r mu 4 4 u /\ (forall i, (i < 4)%nat -> l i i = 1) /\ lower 4 l /\ upper 4 u /\
    (req 4 4 (rmul 4 l u) a <->
     l 1%nat 0%nat * u 0%nat 1%nat = 0 /\ l 1%nat 0%nat * u 0%nat 2%nat = 0 /\ l 3%nat 0%nat * u 0%nat 1%nat = 0 /\
     l 2%nat 0%nat * u 0%nat 2%nat + l 2%nat 1%nat * u 1%nat 2%nat = 0 /\
     l 3%nat 0%nat * u 0%nat 2%nat + l 3%nat 1%nat * u 1%nat 2%nat = 0 /\ l 2%nat 0%nat * u 0%nat 1%nat = 0).
Proof.
  intros m ml mu a Hm E. pose proof (crout_rwp4 m a Hm) as W. rewrite E in W. cbn [rwp fst snd] in W. unfold lr4_clean in W.
  destruct W as (l & u & Hl & Hu & (S1 & S2 & S3) & Q). exists l, u. repeat (split; [assumption|]). tauto.
Qed.

(*@ C20_three_refuted *)
(** C20, violation: in binary32, with e = 2^-14, [lu_crout] succeeds on [[e,1,0],[0,e,1],[1,0,0]], and the last element of
    L U is -2^14 instead of 0 *)
Lemma l_crout_three_w :
  exists m : Mat f32, forall lm : Libm, wfm (A := F32 lm) m /\
  show_m m = (3%nat, 3%nat, true, map B2SF [lit32 1 16384; z32 1; z32 0; z32 0; lit32 1 16384; z32 1; z32 1; z32 0; z32 0]) /\
  rmap (fun s => (show_m (fst s), show_m (snd s), rmap show_m (m_mul_new (A := F32 lm) (fst s) (snd s)))) (m_lu_crout (A := F32 lm) m) =
    Ok ((3%nat, 3%nat, true, map sf [1; 0; 0; 0; 1; 0; 2 ^ 14; - 2 ^ 28; 1]%Z),
        (3%nat, 3%nat, true, map B2SF [lit32 1 16384; z32 1; z32 0; z32 0; lit32 1 16384; z32 1; z32 0; z32 0; z32 (2 ^ 28 - 2 ^ 14)]),
        Ok (3%nat, 3%nat, true, map B2SF [lit32 1 16384; z32 1; z32 0; z32 0; lit32 1 16384; z32 1; z32 1; z32 0; z32 (- 2 ^ 14)])).
Proof.
  exists (mk_mat (A := F32 lm_id) 3 3 [lit32 1 16384; z32 1; z32 0; z32 0; lit32 1 16384; z32 1; z32 1; z32 0; z32 0]). intros lm. split; [|split].
  - apply wfm_b_ok. vm_compute. reflexivity.
  - vm_compute. reflexivity.
  - vm_compute. reflexivity.
Qed.

(*@ example *)
(** test: [lr] succeeds on a 4 x 4 matrix on which nothing is carried over, and on one where something is *)
Example C19_four_example :
  let A := F32 lm_id in
  let m := mk_mat 4 4 (map z32 [2; 0; 0; 1; 0; 1; 0; 2; 4; 0; 1; 3; 0; 0; 2; 1]%Z) in
  let m' := mk_mat 4 4 (map z32 [1; 1; 1; 1; 1; 2; 3; 4; 1; 3; 6; 10; 1; 4; 10; 20]%Z) in
  let square x := rbind (m_lr x) (fun s => rmap show_m (m_mul_new (fst s) (snd s))) in
  wfm m /\ wfm m' /\ square m = Ok (show_m m) /\ square m' <> Ok (show_m m').
Proof. cbv zeta. split; [apply wfm_b_ok; vm_compute; reflexivity|]. split; [apply wfm_b_ok; vm_compute; reflexivity|]. split; vm_compute; [reflexivity|discriminate]. Qed.
