(** C31, C32, C33, C37: quaternion algebra. *)
(*@+*)
From Coq Require Import List Arith ZArith Reals Lia Bool Lra.
From Flocq Require Import Core BinarySingleNaN.
From Verif Require Import M_Base M_Arith M_Utils M_Vector M_Matrix M_Quaternion M_F32 M_RX
  S_Spec S_Compare S_Linalg S_Norm S_Quat P_Inst P_InstQ.
Import ListNotations.
Local Open Scope nat_scope.
(*@-*)
From Verif Require Import P_Hoare P_Cont P_Loops P_Access P_Pointwise P_Trans P_Float P_Product
  P_Compare P_Dot P_Norm P_FErr P_Norm32.

Lemma quad_cases {X : Type} (P : nat -> X -> Prop) w x y z :
  P 0 w -> P 1 x -> P 2 y -> P 3 z -> forall i, i < 4 -> P i (quad w x y z i).
Proof. intros H0 H1 H2 H3 [|[|[|[|i]]]] Hi; cbn; auto. lia. Qed.
Lemma below4 (P : nat -> Prop) : P 0 -> P 1 -> P 2 -> P 3 -> forall i, i < 4 -> P i.
Proof. intros H0 H1 H2 H3 [|[|[|[|i]]]] Hi; auto. lia. Qed.
Lemma below3 (P : nat -> Prop) : P 0 -> P 1 -> P 2 -> forall i, i < 3 -> P i.
Proof. intros H0 H1 H2 [|[|[|i]]] Hi; auto. lia. Qed.
Lemma below33 (P : nat -> nat -> Prop) : P 0 0 -> P 0 1 -> P 0 2 -> P 1 0 -> P 1 1 -> P 1 2 ->
  P 2 0 -> P 2 1 -> P 2 2 -> forall i j, i < 3 -> j < 3 -> P i j.
Proof. intros H00 H01 H02 H10 H11 H12 H20 H21 H22 [|[|[|i]]] [|[|[|j]]] Hi Hj; auto; lia. Qed.

Section Q.
  Context {A : Arith} {OK : ArithOk A}.

  (** consecutive writes of cells i, i+1, ... *)
  Fixpoint setl (i : nat) (l : list T) : ST (Vec T) LinalgError unit :=
    match l with
    | [] => sret tt
    | [x] => v_set i x
    | x :: l' => v_set i x ;;! setl (S i) l'
    end.
  Lemma setl_pw l : forall v n f i, vec_is v n f -> i + length l <= n ->
    l <> [] ->
    wp (setl i l) v
      (fun _ v' => (forall k, k < length l -> valid (nth k l f0)) /\
         vec_is v' n (fun a => if (i <=? a) && (a <? i + length l) then nth (a - i) l f0 else f a))
      (fun e v' => exists k b, k < length l /\ bad (nth k l f0) = Some b /\ e = UtilsErr b /\
         (forall j, j < k -> valid (nth j l f0)) /\
         vec_is v' n (fun a => if (i <=? a) && (a <? i + k) then nth (a - i) l f0 else f a)) False.
  Proof.
    induction l as [|x l IH]; intros v n f i Hv Hl Hne; [congruence|].
    destruct l as [|y l].
    - cbn [setl]. cbn in Hl. eapply wp_v_set; [exact Hv|lia| |].
      + intros Vx v' Hv'. split.
        * intros k Hk. cbn in Hk. assert (k = 0) as -> by lia. exact Vx.
        * eapply vec_is_ext; [exact Hv'|]. intros a Ha. cbv beta. unfold fupd1. cbn [length].
          destruct (Nat.eqb_spec a i) as [->|N].
          -- destruct (Nat.leb_spec i i), (Nat.ltb_spec i (i + 1)); try lia. rewrite Nat.sub_diag. reflexivity.
          -- destruct (Nat.leb_spec i a), (Nat.ltb_spec a (i + 1)); cbn [andb]; auto; lia.
      + intros k Hk. exists 0, k. conjs; auto. { intros; lia. }
        eapply vec_is_ext; [exact Hv|]. intros a Ha. cbv beta.
        destruct (Nat.leb_spec i a), (Nat.ltb_spec a (i + 0)); cbn [andb]; auto; lia.
    - cbn [setl]. apply wp_bind. eapply wp_v_set; [exact Hv|cbn in Hl; lia| |].
      + intros Vx v' Hv'. eapply wp_conseq; [eapply (IH v' n _ (S i) Hv')|..]; auto.
        * cbn [length] in *. lia.
        * congruence.
        * intros _ s' [HV Hs']. split.
          -- intros [|k] Hk; [exact Vx|]. apply HV. cbn [length] in *. lia.
          -- eapply vec_is_ext; [exact Hs'|]. intros a Ha. cbv beta. unfold fupd1. cbn [length].
             destruct (Nat.leb_spec (S i) a), (Nat.ltb_spec a (S i + S (length l))), (Nat.eqb_spec a i),
               (Nat.leb_spec i a), (Nat.ltb_spec a (i + S (S (length l)))); cbn [andb]; auto; try lia.
             ++ replace (a - i) with (S (a - S i)) by lia. reflexivity.
             ++ subst a. rewrite Nat.sub_diag. reflexivity.
        * intros e s' (k & b & Hk & Hb & -> & HV & Hs'). exists (S k), b. conjs; auto.
          -- cbn [length] in *. lia.
          -- intros [|j] Hj; [exact Vx|]. apply HV. lia.
          -- eapply vec_is_ext; [exact Hs'|]. intros a Ha. cbv beta. unfold fupd1.
             destruct (Nat.leb_spec (S i) a), (Nat.ltb_spec a (S i + k)), (Nat.eqb_spec a i),
               (Nat.leb_spec i a), (Nat.ltb_spec a (i + S k)); cbn [andb]; auto; try lia.
             ++ replace (a - i) with (S (a - S i)) by lia. reflexivity.
             ++ subst a. rewrite Nat.sub_diag. reflexivity.
      + intros k Hk. exists 0, k. conjs; auto. { cbn. lia. } { intros; lia. }
        eapply vec_is_ext; [exact Hv|]. intros a Ha. cbv beta.
        destruct (Nat.leb_spec i a), (Nat.ltb_spec a (i + 0)); cbn [andb]; auto; lia.
  Qed.

  Lemma set4_pw v f w x y z : vec_is v 4 f -> pointwise_v 4 f (quad w x y z) (set4 w x y z v).
  Proof.
    intros Hv. apply pointwise_v_of_wp.
    eapply wp_conseq; [exact (setl_pw [w; x; y; z] v 4 f 0 Hv (le_n _) ltac:(discriminate))|..]; auto.
    - intros _ s' [HV Hs]. split.
      + apply (quad_cases (fun _ x => valid x)); [apply (HV 0)|apply (HV 1)|apply (HV 2)|apply (HV 3)]; cbn; lia.
      + eapply vec_is_ext; [exact Hs|]. intros [|[|[|[|a]]]] Ha; try reflexivity; lia.
    - intros e s' (k & b & Hk & Hb & -> & HV & Hs). cbn in Hk.
      assert (Eq : forall j, j < 4 -> nth j [w; x; y; z] f0 = quad w x y z j).
      { intros [|[|[|[|a]]]] Ha; try reflexivity; lia. }
      exists k, b. conjs; auto.
      + rewrite <- Eq by lia. exact Hb.
      + intros a Ha. rewrite <- Eq by lia. auto.
      + eapply vec_is_ext; [exact Hs|]. intros a Ha. cbv beta. unfold mix1.
        cbn [Nat.leb]. rewrite Nat.sub_0_r, Nat.add_0_l, Eq by lia. cbn [andb]. reflexivity.
  Qed.
  Lemma set4_ok v f w x y z : vec_is v 4 f -> valid w -> valid x -> valid y -> valid z ->
    exists v', set4 w x y z v = (v', Ok tt) /\ vec_is v' 4 (quad w x y z).
  Proof.
    intros Hv W X Y Z. eapply pointwise_v_ok; [|apply set4_pw; eauto].
    apply (quad_cases (fun _ x => valid x)); auto.
  Qed.
  Lemma set3_ok v f x y z : vec_is v 3 f -> valid x -> valid y -> valid z ->
    exists v', exec (v_set 0 x ;;! v_set 1 y ;;! v_set 2 z) v = Ok v' /\ vec_is v' 3 (triple x y z).
  Proof.
    intros Hv X Y Z. unfold exec.
    destruct (v_set_in v 3 f 0 x Hv ltac:(lia) X) as (v1 & E1 & H1).
    destruct (v_set_in v1 3 _ 1 y H1 ltac:(lia) Y) as (v2 & E2 & H2).
    destruct (v_set_in v2 3 _ 2 z H2 ltac:(lia) Z) as (v3 & E3 & H3).
    unfold sbind. rewrite E1, E2, E3. eexists. split; [reflexivity|].
    eapply vec_is_ext; [exact H3|]. apply below3; reflexivity.
  Qed.

  Lemma q_guard_not (q : Vec T) n f : vec_is q n f -> n <> 4 -> q_guard q = Err InvalidSize.
  Proof. intros H N. rewrite (q_guard_is _ _ _ H). destruct (Nat.eqb_spec n 4); [lia|reflexivity]. Qed.
  Lemma q_guard_ok (q : Vec T) f : vec_is q 4 f -> q_guard q = Ok tt.
  Proof. intros H. rewrite (q_guard_is _ _ _ H). reflexivity. Qed.

  Definition prodw (f g : nat -> T) : T := (f 0 * g 0 - f 1 * g 1 - f 2 * g 2 - f 3 * g 3)%F.
  Definition prodx (f g : nat -> T) : T := (f 0 * g 1 + f 1 * g 0 - f 3 * g 2 + f 2 * g 3)%F.
  Definition prody (f g : nat -> T) : T := (f 0 * g 2 + f 3 * g 1 + g 0 * f 2 - f 1 * g 3)%F.
  Definition prodz (f g : nat -> T) : T := (f 0 * g 3 - f 2 * g 1 + f 1 * g 2 + g 0 * f 3)%F.
  Definition prodf (f g : nat -> T) : nat -> T := quad (prodw f g) (prodx f g) (prody f g) (prodz f g).
  Lemma q_product_is a b f g : vec_is a 4 f -> vec_is b 4 g ->
    q_product a b = Ok (prodw f g, prodx f g, prody f g, prodz f g).
  Proof.
    intros Ha Hb. unfold q_product.
    rewrite !(vi_get _ _ _ Ha), !(vi_get _ _ _ Hb) by lia. reflexivity.
  Qed.
  Lemma q_mul_pw self a b s f g : vec_is self 4 s -> vec_is a 4 f -> vec_is b 4 g ->
    pointwise_v 4 s (prodf f g) (q_mul a b self).
  Proof.
    intros Hs Ha Hb. unfold q_mul.
    rewrite guard_bind by (unfold reads; rewrite (q_guard_ok _ _ Hs); reflexivity).
    rewrite guard_bind by (unfold lift; rewrite (q_guard_ok _ _ Ha); reflexivity).
    rewrite guard_bind by (unfold lift; rewrite (q_guard_ok _ _ Hb); reflexivity).
    erewrite sbind_ok by (apply lift_ok; exact (q_product_is _ _ _ _ Ha Hb)).
    apply set4_pw; auto.
  Qed.
  Lemma q_mul_new_pw a b f g : vec_is a 4 f -> vec_is b 4 g ->
    pointwise_vnew 4 (prodf f g) (q_mul_new a b).
  Proof.
    intros Ha Hb. unfold q_mul_new.
    rewrite (q_guard_ok _ _ Ha), (q_guard_ok _ _ Hb). cbn [rbind].
    rewrite (q_product_is _ _ _ _ Ha Hb). cbn [rbind].
    destruct (v_init_new 4 ltac:(lia)) as (v0 & E0 & H0).
    rewrite (exec_step _ _ _ _ E0). eapply exec_pointwise_v. apply set4_pw. exact H0.
  Qed.
  Lemma q_fillq_pw v f w x y z : vec_is v 4 f -> pointwise_v 4 f (quad w x y z) (q_fillq w x y z v).
  Proof.
    intros Hv. unfold q_fillq.
    rewrite guard_bind by (unfold reads; rewrite (q_guard_ok _ _ Hv); reflexivity).
    apply set4_pw; auto.
  Qed.
  Lemma q_fillq_ok v f w x y z : vec_is v 4 f -> valid w -> valid x -> valid y -> valid z ->
    exists v', q_fillq w x y z v = (v', Ok tt) /\ vec_is v' 4 (quad w x y z).
  Proof.
    intros Hv W X Y Z. eapply pointwise_v_ok; [|apply q_fillq_pw; eauto].
    apply (quad_cases (fun _ x => valid x)); auto.
  Qed.
  Lemma q_conjugate_ok v f : vec_is v 4 f -> (forall i, 1 <= i < 4 -> valid (- f i)%F) ->
    exists v', q_conjugate v = (v', Ok tt) /\ vec_is v' 4 (quad (f 0) (- f 1) (- f 2) (- f 3))%F.
  Proof.
    intros Hv HV. unfold q_conjugate.
    rewrite guard_bind by (unfold reads; rewrite (q_guard_ok _ _ Hv); reflexivity).
    do 3 (erewrite sbind_ok by (unfold reads; rewrite (vi_get _ _ _ Hv) by lia; reflexivity)).
    destruct (v_set_in v 4 f 1 (- f 1)%F Hv ltac:(lia)) as (v1 & E1 & H1); [apply HV; lia|].
    destruct (v_set_in v1 4 _ 2 (- f 2)%F H1 ltac:(lia)) as (v2 & E2 & H2); [apply HV; lia|].
    destruct (v_set_in v2 4 _ 3 (- f 3)%F H2 ltac:(lia)) as (v3 & E3 & H3); [apply HV; lia|].
    unfold sbind. rewrite E1, E2, E3. eexists. split; [reflexivity|].
    eapply vec_is_ext; [exact H3|]. apply below4; reflexivity.
  Qed.
  Lemma q_get_is v f i : vec_is v 4 f -> i < 4 -> q_get v i = Ok (f i).
  Proof. intros Hv Hi. unfold q_get. rewrite (q_guard_ok _ _ Hv). cbn [rbind]. apply (vi_get _ _ _ Hv). auto. Qed.
  Lemma v_duplicate_ok v n f : vec_is v n f -> exists v', v_duplicate v = Ok v' /\ vec_is v' n f.
  Proof.
    intros Hv. eapply pointwise_vnew_ok; [|eapply v_duplicate_pw; eauto].
    intros. eapply vec_is_valid; eauto.
  Qed.
  Lemma q_get_vector_part_ok v f : vec_is v 4 f ->
    exists v', q_get_vector_part v = Ok v' /\ vec_is v' 3 (triple (f 1) (f 2) (f 3)).
  Proof.
    intros Hv. unfold q_get_vector_part. rewrite (q_guard_ok _ _ Hv). cbn [rbind].
    destruct (v_init_new 3 ltac:(lia)) as (v0 & E0 & H0). unfold exec at 1. rewrite E0. cbn [rbind].
    rewrite !(vi_get _ _ _ Hv) by lia. cbn [rbind].
    eapply set3_ok; [exact H0|..]; eapply vec_is_valid; eauto.
  Qed.
End Q.

(** ** containers of exact reals *)
Lemma list4 {X} (l : list X) : length l = 4 -> exists a b c d, l = [a; b; c; d].
Proof. destruct l as [|a [|b [|c [|d [|]]]]]; cbn; intros H; try discriminate. repeat eexists. Qed.
Lemma vec4_eq {A : Arith} (v v' : Vec T) f : vec_is v 4 f -> vec_is v' 4 f -> v = v'.
Proof.
  intros H H'. destruct (vi_wf _ _ _ H) as [L _ _ _], (vi_wf _ _ _ H') as [L' _ _ _].
  destruct v as [r e i], v' as [r' e' i']. cbn in *.
  pose proof (vi_init _ _ _ H) as I. pose proof (vi_init _ _ _ H') as I'.
  pose proof (vi_rows _ _ _ H) as R. pose proof (vi_rows _ _ _ H') as R'. cbn in *. subst.
  destruct (list4 e L) as (a & b & c & d & ->), (list4 e' L') as (a' & b' & c' & d' & ->).
  pose proof (fun i Hi => eq_trans (vi_get _ _ _ H i Hi) (eq_sym (vi_get _ _ _ H' i Hi))) as K.
  pose proof (K 0 ltac:(lia)) as K0. pose proof (K 1 ltac:(lia)) as K1.
  pose proof (K 2 ltac:(lia)) as K2. pose proof (K 3 ltac:(lia)) as K3.
  cbn in K0, K1, K2, K3. congruence.
Qed.
Lemma quat_eq v v' q : quat_r v q -> quat_r v' q -> v = v'.
Proof. apply vec4_eq. Qed.
Lemma quat_ext v f q : vec_is (A := RX) v 4 f -> f 0 = Some (Qw q) -> f 1 = Some (Qx q) -> f 2 = Some (Qy q) -> f 3 = Some (Qz q) ->
  quat_r v q.
Proof. intros H H0 H1 H2 H3. eapply vec_is_ext; [exact H|]. apply below4; assumption. Qed.
Lemma quat_r_ext v p q : quat_r v p -> p = q -> quat_r v q.
Proof. intros H <-. exact H. Qed.
Lemma quat_inj v p q : quat_r v p -> quat_r v q -> p = q.
Proof.
  intros H H'. destruct (vec_is_fun _ _ _ _ _ H H') as [_ K].
  pose proof (K 0 ltac:(lia)) as K0. pose proof (K 1 ltac:(lia)) as K1.
  pose proof (K 2 ltac:(lia)) as K2. pose proof (K 3 ltac:(lia)) as K3.
  destruct p, q. cbn in *. congruence.
Qed.
Lemma f2_RX : f2 (A := RX) = Some 2%R.
Proof. unfold f2. cbn. f_equal. lra. Qed.

Lemma pw4new_r g (out : res LinalgError (Vec (T (Arith := RX)))) w x y z : pointwise_vnew 4 g out ->
  g 0 = Some w -> g 1 = Some x -> g 2 = Some y -> g 3 = Some z ->
  exists v, out = Ok v /\ quat_r v (Quat w x y z).
Proof.
  intros P H0 H1 H2 H3. apply pointwise_vnew_ok in P.
  - destruct P as (v & E & H). exists v. split; [exact E|]. eapply quat_ext; eauto.
  - apply below4; [rewrite H0|rewrite H1|rewrite H2|rewrite H3]; apply valid_RX.
Qed.
Lemma pw4_r f g (out : Vec (T (Arith := RX)) * res LinalgError unit) w x y z : pointwise_v 4 f g out ->
  g 0 = Some w -> g 1 = Some x -> g 2 = Some y -> g 3 = Some z ->
  exists v, out = (v, Ok tt) /\ quat_r v (Quat w x y z).
Proof.
  intros P H0 H1 H2 H3. apply pointwise_v_ok in P.
  - destruct P as (v & E & H). exists v. split; [exact E|]. eapply quat_ext; eauto.
  - apply below4; [rewrite H0|rewrite H1|rewrite H2|rewrite H3]; apply valid_RX.
Qed.
Lemma q_mul_new_r a b p q : quat_r a p -> quat_r b q ->
  exists v, q_mul_new a b = Ok v /\ quat_r v (qmul p q).
Proof.
  intros Ha Hb. eapply pw4new_r; [exact (q_mul_new_pw a b _ _ Ha Hb)|..]; cbn; f_equal; ring.
Qed.
Lemma q_mul_r self a b s p q : vec_r self 4 s -> quat_r a p -> quat_r b q ->
  exists v, q_mul a b self = (v, Ok tt) /\ quat_r v (qmul p q).
Proof.
  intros Hs Ha Hb. eapply pw4_r; [exact (q_mul_pw self a b _ _ _ Hs Ha Hb)|..]; cbn; f_equal; ring.
Qed.
Lemma q_conjugate_r v q : quat_r v q -> exists v', q_conjugate v = (v', Ok tt) /\ quat_r v' (qconj q).
Proof.
  intros H. destruct (q_conjugate_ok v _ H) as (v' & E & H'); [intros; apply valid_RX|].
  exists v'. split; [exact E|]. eapply quat_ext; [exact H'|..]; reflexivity.
Qed.
Lemma q_conjugate_new_r v q : quat_r v q -> exists v', q_conjugate_new v = Ok v' /\ quat_r v' (qconj q).
Proof.
  intros H. unfold q_conjugate_new. destruct (v_duplicate_ok v _ _ H) as (d & -> & Hd). cbn [rbind].
  destruct (q_conjugate_r d q Hd) as (v' & E & H'). unfold exec. rewrite E. eauto.
Qed.
Lemma q_fillq_r v s w x y z : vec_r v 4 s ->
  exists v', q_fillq (A := RX) (Some w) (Some x) (Some y) (Some z) v = (v', Ok tt) /\ quat_r v' (Quat w x y z).
Proof.
  intros H. destruct (q_fillq_ok v _ (Some w : T (Arith := RX)) (Some x : T (Arith := RX)) (Some y : T (Arith := RX)) (Some z : T (Arith := RX)) H) as (v' & E & H'); try apply valid_RX.
  exists v'. split; [exact E|]. eapply quat_ext; [exact H'|..]; reflexivity.
Qed.
Lemma rnorm_qnorm q : rnorm 4 (qf q) = qnorm q.
Proof. unfold rnorm, rdot, qnorm, qnorm2. cbn. f_equal. ring. Qed.
Lemma qnorm2_pos q : (0 <= qnorm2 q)%R.
Proof. unfold qnorm2. pose proof (Rle_0_sqr (Qw q)); pose proof (Rle_0_sqr (Qx q)); pose proof (Rle_0_sqr (Qy q)); pose proof (Rle_0_sqr (Qz q)); unfold Rsqr in *. lra. Qed.
Lemma qnorm_sqr q : (qnorm q * qnorm q = qnorm2 q)%R.
Proof. apply sqrt_sqrt, qnorm2_pos. Qed.
Lemma unit_norm q : unitq q -> qnorm q = 1%R.
Proof. unfold unitq, qnorm. intros ->. apply sqrt_1. Qed.

(*@ C31_machine_product *)
(** C31: what [mul] and [mul_new] compute in any arithmetic, in the machine's order of operations;
    they stop at the first component that overflows *)
Lemma l_machine_mul :
  forall (A : Arith) (OK : ArithOk A) (self a b : Vec T) (s f g : nat -> T),
  vec_is self 4 s -> vec_is a 4 f -> vec_is b 4 g ->
  let prod := quad (f 0 * g 0 - f 1 * g 1 - f 2 * g 2 - f 3 * g 3)%F
                   (f 0 * g 1 + f 1 * g 0 - f 3 * g 2 + f 2 * g 3)%F
                   (f 0 * g 2 + f 3 * g 1 + g 0 * f 2 - f 1 * g 3)%F
                   (f 0 * g 3 - f 2 * g 1 + f 1 * g 2 + g 0 * f 3)%F in
  pointwise_v 4 s prod (q_mul a b self) /\ pointwise_vnew 4 prod (q_mul_new a b).
Proof.
  intros A OK self a b s f g Hs Ha Hb prod. split.
  - apply q_mul_pw; auto.
  - apply q_mul_new_pw; auto.
Qed.

(*@ C31_hamilton *)
(** C31: in exact arithmetic both are the Hamilton product *)
Lemma l_hamilton :
  forall (self a b : Vec (T (Arith := RX))) (s : nat -> R) (p q : quat),
  vec_r self 4 s -> quat_r a p -> quat_r b q ->
  exists v v', q_mul a b self = (v, Ok tt) /\ quat_r v (qmul p q) /\
               q_mul_new a b = Ok v' /\ quat_r v' (qmul p q).
Proof.
  intros self a b s p q Hs Ha Hb.
  destruct (q_mul_r self a b s p q Hs Ha Hb) as (v & E & H).
  destruct (q_mul_new_r a b p q Ha Hb) as (v' & E' & H'). exists v, v'. auto.
Qed.

(*@ C31_laws *)
(** C31: associativity, unit, distributivity on both sides, homogeneity, conjugation reverses
    products, q q* = q* q = |q|^2: equalities of program results *)
Lemma l_laws :
  forall (one a b c : Vec (T (Arith := RX))) (p q r : quat) (t : R),
  quat_r one qone -> quat_r a p -> quat_r b q -> quat_r c r ->
  (let? ab := q_mul_new a b in q_mul_new ab c) = (let? bc := q_mul_new b c in q_mul_new a bc) /\
  q_mul_new one a = Ok a /\ q_mul_new a one = Ok a /\
  (let? bc := v_add_new b c in q_mul_new a bc)
    = (let? ab := q_mul_new a b in let? ac := q_mul_new a c in v_add_new ab ac) /\
  (let? ab := v_add_new a b in q_mul_new ab c)
    = (let? ac := q_mul_new a c in let? bc := q_mul_new b c in v_add_new ac bc) /\
  (let? ta := v_mul_by_scalar_new (A := RX) a (Some t) in q_mul_new ta b)
    = (let? ab := q_mul_new a b in v_mul_by_scalar_new (A := RX) ab (Some t)) /\
  (let? ab := q_mul_new a b in q_conjugate_new ab)
    = (let? b' := q_conjugate_new b in let? a' := q_conjugate_new a in q_mul_new b' a') /\
  (exists v, (let? a' := q_conjugate_new a in q_mul_new a a') = Ok v /\
             (let? a' := q_conjugate_new a in q_mul_new a' a) = Ok v /\
             quat_r v (Quat (qnorm2 p) 0 0 0)).
Proof.
  intros one a b c p q r t H1 Ha Hb Hc.
  assert (VA : forall x y m n, quat_r x m -> quat_r y n -> exists v, v_add_new x y = Ok v /\ quat_r v (qadd m n)).
  { intros x y m n Hx Hy. eapply pw4new_r; [exact (v_add_new_pw x y 4 _ _ Hx Hy)|..]; reflexivity. }
  assert (VS : forall x m, quat_r x m -> exists v, v_mul_by_scalar_new (A := RX) x (Some t) = Ok v /\ quat_r v (qscale t m)).
  { intros x m Hx. eapply pw4new_r; [exact (v_mul_by_scalar_new_pw x 4 _ Hx (Some t : T (Arith := RX)))|..]; cbn; f_equal; ring. }
  assert (EQ : forall (x y : res LinalgError (Vec (T (Arith := RX)))) m n,
             (exists v, x = Ok v /\ quat_r v m) -> (exists v, y = Ok v /\ quat_r v n) -> m = n -> x = y).
  { intros x y m n (v & -> & Hv) (v' & -> & Hv') <-. f_equal. eapply quat_eq; eauto. }
  assert (B : forall (x : res LinalgError (Vec (T (Arith := RX)))) k m (P : res LinalgError (Vec (T (Arith := RX))) -> Prop), (exists v, x = Ok v /\ quat_r v m) ->
             (forall v, quat_r v m -> P (k v)) -> P (rbind x k)).
  { intros x k m P (v & -> & Hv) H. cbn. auto. }
  destruct (q_mul_new_r a b p q Ha Hb) as (ab & Eab & Hab).
  destruct (q_mul_new_r b c q r Hb Hc) as (bc & Ebc & Hbc).
  destruct (q_mul_new_r a c p r Ha Hc) as (ac & Eac & Hac).
  destruct (q_conjugate_new_r a p Ha) as (a' & Ea' & Ha').
  destruct (q_conjugate_new_r b q Hb) as (b' & Eb' & Hb').
  destruct (VA b c q r Hb Hc) as (sbc & Esbc & Hsbc). destruct (VA a b p q Ha Hb) as (sab & Esab & Hsab).
  destruct (VS a p Ha) as (ta & Eta & Hta).
  rewrite Eab, Ebc, Eac, Ea', Eb', Esbc, Esab, Eta. cbn [rbind].
  conjs.
  - eapply EQ; [apply q_mul_new_r; eauto|apply q_mul_new_r; eauto|]. unfold qmul; cbn; f_equal; ring.
  - eapply EQ; [apply q_mul_new_r; eauto|exists a; split; eauto|]. destruct p. unfold qmul; cbn; f_equal; ring.
  - eapply EQ; [apply q_mul_new_r; eauto|exists a; split; eauto|]. destruct p. unfold qmul; cbn; f_equal; ring.
  - eapply EQ; [apply q_mul_new_r; eauto|apply VA; eauto|]. unfold qmul, qadd; cbn; f_equal; ring.
  - eapply EQ; [apply q_mul_new_r; eauto|apply VA; eauto|]. unfold qmul, qadd; cbn; f_equal; ring.
  - eapply EQ; [apply q_mul_new_r; eauto|apply VS; eauto|]. unfold qmul, qscale; cbn; f_equal; ring.
  - eapply EQ; [apply q_conjugate_new_r; eauto|apply q_mul_new_r; eauto|]. unfold qmul, qconj; cbn; f_equal; ring.
  - destruct (q_mul_new_r a a' p _ Ha Ha') as (x & Ex & Hx). destruct (q_mul_new_r a' a _ p Ha' Ha) as (y & Ey & Hy).
    exists x. split; [exact Ex|]. split.
    + rewrite Ey. f_equal. eapply quat_eq; [exact Hy|]. eapply quat_r_ext; [exact Hx|].
      unfold qmul, qconj; cbn; f_equal; ring.
    + eapply quat_r_ext; [exact Hx|]. unfold qmul, qconj, qnorm2; cbn; f_equal; ring.
Qed.

(*@ C31_norm *)
(** C31: the norm of the computed product is the product of the norms *)
Lemma l_norm_mul :
  forall (a b v : Vec (T (Arith := RX))) (p q r : quat),
  quat_r a p -> quat_r b q -> q_mul_new a b = Ok v -> quat_r v r ->
  qnorm r = (qnorm p * qnorm q)%R.
Proof.
  intros a b v p q r Ha Hb E Hv. destruct (q_mul_new_r a b p q Ha Hb) as (v' & E' & Hv').
  assert (v' = v) as -> by congruence. rewrite (quat_inj _ _ _ Hv Hv').
  unfold qnorm. rewrite <- sqrt_mult by apply qnorm2_pos. f_equal. unfold qnorm2, qmul. cbn. ring.
Qed.

(*@ C31_units *)
(** C31: i^2 = j^2 = k^2 = ijk = -1, as computed *)
Lemma l_units :
  forall (i j k : Vec (T (Arith := RX))), quat_r i q_i -> quat_r j q_j -> quat_r k q_k ->
  exists v, quat_r v (Quat (-1) 0 0 0) /\ q_mul_new i i = Ok v /\ q_mul_new j j = Ok v /\
    q_mul_new k k = Ok v /\ (let? ij := q_mul_new i j in q_mul_new ij k) = Ok v.
Proof.
  intros i j k Hi Hj Hk.
  destruct (q_mul_new_r i i _ _ Hi Hi) as (v & E & H). exists v.
  destruct (q_mul_new_r j j _ _ Hj Hj) as (v2 & E2 & H2).
  destruct (q_mul_new_r k k _ _ Hk Hk) as (v3 & E3 & H3).
  destruct (q_mul_new_r i j _ _ Hi Hj) as (v4 & E4 & H4).
  destruct (q_mul_new_r v4 k _ _ H4 Hk) as (v5 & E5 & H5).
  assert (HH : quat_r v (Quat (-1) 0 0 0)).
  { eapply quat_r_ext; [exact H|]. unfold qmul, q_i; cbn; f_equal; ring. }
  rewrite E, E2, E3, E4. cbn [rbind]. rewrite E5. conjs; auto; f_equal; (eapply quat_eq; [|exact HH]);
    (eapply quat_r_ext; [eassumption|]); unfold qmul, q_i, q_j, q_k; cbn; f_equal; ring.
Qed.

(*@ C31_conjugate_f32 *)
(** C31, f32: conjugating flips exactly the signs of the vector part, and twice gives the original
    quaternion back bit for bit *)
Lemma l_conj32 :
  forall (lm : Libm), let A := F32 lm in
  forall (v : Vec T) (f : nat -> T), vec_is v 4 f ->
  exists v', q_conjugate v = (v', Ok tt) /\
    vec_is v' 4 (quad (f 0) (Bopp (f 1 : f32)) (Bopp (f 2 : f32)) (Bopp (f 3 : f32))) /\
    q_conjugate v' = (v, Ok tt) /\ q_conjugate_new v = Ok v' /\ q_conjugate_new v' = Ok v.
Proof.
  intros lm A v f Hv. subst A.
  assert (VO : forall w : f32, valid (A := F32 lm) w -> valid (A := F32 lm) (Bopp w)).
  { intros w Hw. apply (valid_finite lm) in Hw. apply (valid_finite lm). rewrite is_finite_Bopp. exact Hw. }
  destruct (q_conjugate_ok v f Hv) as (v' & E & H').
  { intros i Hi. apply VO. eapply vec_is_valid; eauto. lia. }
  exists v'. split; [exact E|]. split; [exact H'|].
  destruct (q_conjugate_ok v' _ H') as (v2 & E2 & H2).
  { intros i Hi. apply VO. eapply vec_is_valid; eauto. lia. }
  assert (v2 = v) as ->.
  { eapply vec4_eq; [|exact Hv]. eapply vec_is_ext; [exact H2|].
    apply below4; cbn; auto; apply Bopp_involutive. }
  split; [exact E2|]. unfold q_conjugate_new.
  destruct (v_duplicate_ok v _ _ Hv) as (d & -> & Hd). destruct (v_duplicate_ok v' _ _ H') as (d' & -> & Hd').
  cbn [rbind]. rewrite (vec4_eq _ _ _ Hd Hv), (vec4_eq _ _ _ Hd' H'). unfold exec. rewrite E, E2. auto.
Qed.

(*@ C31_sizes *)
(** C31: arguments of size other than 4 are refused and the target is untouched *)
Lemma l_mul_sizes :
  forall (A : Arith) (OK : ArithOk A) (self a b : Vec T) (ns na nb : nat) (s f g : nat -> T),
  vec_is self ns s -> vec_is a na f -> vec_is b nb g ->
  (ns <> 4 \/ na <> 4 \/ nb <> 4 -> q_mul a b self = (self, Err InvalidSize)) /\
  (na <> 4 \/ nb <> 4 -> q_mul_new a b = Err InvalidSize) /\
  (ns <> 4 -> q_conjugate self = (self, Err InvalidSize) /\ q_conjugate_new self = Err InvalidSize).
Proof.
  intros A OK self a b ns na nb s f g Hs Ha Hb. conjs.
  - intros H. unfold q_mul, sbind, reads, lift. rewrite (q_guard_is _ _ _ Hs), (q_guard_is _ _ _ Ha), (q_guard_is _ _ _ Hb).
    destruct (Nat.eqb_spec ns 4), (Nat.eqb_spec na 4), (Nat.eqb_spec nb 4); auto; lia.
  - intros H. unfold q_mul_new. rewrite (q_guard_is _ _ _ Ha), (q_guard_is _ _ _ Hb).
    destruct (Nat.eqb_spec na 4), (Nat.eqb_spec nb 4); auto; lia.
  - intros H. split.
    + unfold q_conjugate, sbind, reads. rewrite (q_guard_not _ _ _ Hs H). reflexivity.
    + unfold q_conjugate_new. destruct (v_duplicate_ok self _ _ Hs) as (d & -> & Hd). cbn [rbind].
      unfold exec, q_conjugate, sbind, reads. rewrite (q_guard_not _ _ _ Hd H). reflexivity.
Qed.

(*@ example *)
Example C31_example :
  let v := rvec [1; 2; 3; 4]%R in quat_r v (Quat 1 2 3 4) /\ qnorm2 (Quat 1 2 3 4) = 30%R /\
  qmul (Quat 1 2 3 4) (Quat 5 6 7 8) = Quat (-60) 12 30 24 /\
  qmul (Quat 5 6 7 8) (Quat 1 2 3 4) = Quat (-60) 20 14 32.
Proof.
  cbv zeta. split.
  - apply rquat_is.
  - unfold qnorm2, qmul; cbn. repeat split; try f_equal; ring.
Qed.
