(** C38 - C40: sensors. *)
(*@+*)
From Coq Require Import List Arith ZArith Reals Lia Bool SpecFloat.
From Flocq Require Import Core BinarySingleNaN.
From Verif Require Import M_Base M_Arith M_Utils M_Vector M_Matrix M_Sensors M_F32 M_RX
  S_Spec S_Linalg S_Sensors P_Inst.
Import ListNotations.
Local Open Scope nat_scope.
(*@-*)
From Verif Require Import P_Hoare P_Cont P_Loops P_Access P_Pointwise P_Trans P_Float P_Product P_Diag P_Rot P_Norm.

Section Gen.
  Context {A : Arith} {OK : ArithOk A}.

  (** what the fields of a sensor hold *)
  Record sensor_is (k : kind) (s : Sensor) (c : Config) (raw cor : nat -> T) : Prop := {
    si_mat : mat_is (s_mat s) 3 3 (fun i j => coefficient k c j i);
    si_bias : vec_is (s_bias s) 3 (bias c);
    si_raw : vec_is (s_raw s) 3 raw;
    si_cor : vec_is (s_cor s) 3 cor
  }.

  Lemma ini_wf s : forall b, s = mkSensor (s_mat s) (s_bias s) (s_raw s) (s_cor s) b -> s_initialized s = b.
  Proof. intros b ->. reflexivity. Qed.

  Lemma new_ok k : exists s, sensor_new = Ok s /\ sensor_is k s default_config (fun _ => f0) (fun _ => f0) /\ s_initialized s = false.
  Proof.
    unfold sensor_new.
    assert (W : rwp (exec (on_mat (m_init 3 3 ;;! m_fill_identity) ;;!
          on_bias (v_init 3 ;;! v_fill f0) ;;!
          on_raw (v_init 3 ;;! v_fill f0) ;;!
          on_cor (v_init 3 ;;! v_fill f0))
         (mkSensor mnew vnew vnew vnew false)) (fun s => sensor_is k s default_config (fun _ => f0) (fun _ => f0) /\ s_initialized s = false) (fun _ => False) False).
    { assert (V : forall (Q : unit -> Vec T -> Prop) (X : LinalgError -> Vec T -> Prop) (P : Prop) v, v = vnew -> (forall v', vec_is v' 3 (fun _ => f0) -> Q tt v') -> wp (v_init 3 ;;! v_fill (A := A) f0) v Q X P).
      { intros Q X P v -> H. apply wp_bind. eapply wp_v_init; [lia|]. intros v0 H0.
        pose proof (v_fill_pw v0 3 _ H0 f0) as P0. destruct (fun V => pointwise_v_ok _ _ _ _ V P0) as (v1 & E1 & H1); [intros; apply ok_f0|].
        unfold wp. rewrite E1. auto. }
      apply wp_exec. apply wp_bind. unfold on_mat, sla. apply wp_smap_err, wp_zoom. cbn [s_mat]. apply wp_bind. eapply wp_m_init; [lia|lia|]. intros m0 H0.
      pose proof (l_identity A _ m0 3 3 _ H0) as HI. rewrite Nat.eqb_refl in HI. destruct HI as (mi & Ei & Hi). unfold wp at 1. rewrite Ei.
      apply wp_bind. unfold on_bias, sla. apply wp_smap_err, wp_zoom. cbn [s_bias]. apply V; [reflexivity|]. intros v1 H1.
      apply wp_bind. unfold on_raw, sla. apply wp_smap_err, wp_zoom. cbn [s_raw]. apply V; [reflexivity|]. intros v2 H2.
      unfold on_cor, sla. apply wp_smap_err, wp_zoom. cbn [s_cor]. apply V; [reflexivity|]. intros v3 H3.
      cbn [s_mat s_bias s_raw s_cor s_initialized]. split; [|reflexivity]. split; cbn [s_mat s_bias s_raw s_cor]; auto.
      - eapply mat_is_ext; [exact Hi|]. intros i j Hi' Hj. do 3 (destruct i as [|i]; [do 3 (destruct j as [|j]; [destruct k; reflexivity|]); lia|]). lia.
      - eapply vec_is_ext; [exact H1|]. intros i Hi'. do 3 (destruct i as [|i]; [reflexivity|]). lia. }
    destruct (exec _ _) as [s|e|]; cbn [rwp] in W; [|tauto|tauto]. eauto.
  Qed.

  Lemma wp_on_mat_set s i j x M (Q : unit -> Sensor -> Prop) (X : AhrsError -> Sensor -> Prop) (P : Prop) :
    mat_is (s_mat s) 3 3 M -> i < 3 -> j < 3 ->
    (valid x -> forall m', mat_is m' 3 3 (fupd2 M i j x) -> Q tt (mkSensor m' (s_bias s) (s_raw s) (s_cor s) (s_initialized s))) ->
    (forall e, bad x = Some e -> X (LinErr (UtilsErr e)) (mkSensor (s_mat s) (s_bias s) (s_raw s) (s_cor s) (s_initialized s))) ->
    wp (on_mat (m_set i j x)) s Q X P.
  Proof. intros. unfold on_mat, sla. apply wp_smap_err, wp_zoom. eapply wp_m_set; eauto. Qed.
  Lemma wp_on_bias_set s i x M (Q : unit -> Sensor -> Prop) (X : AhrsError -> Sensor -> Prop) (P : Prop) :
    vec_is (s_bias s) 3 M -> i < 3 ->
    (valid x -> forall m', vec_is m' 3 (fupd1 M i x) -> Q tt (mkSensor (s_mat s) m' (s_raw s) (s_cor s) (s_initialized s))) ->
    (forall e, bad x = Some e -> X (LinErr (UtilsErr e)) (mkSensor (s_mat s) (s_bias s) (s_raw s) (s_cor s) (s_initialized s))) ->
    wp (on_bias (v_set i x)) s Q X P.
  Proof. intros. unfold on_bias, sla. apply wp_smap_err, wp_zoom. eapply wp_v_set; eauto. Qed.
  Lemma wp_on_raw_set s i x M (Q : unit -> Sensor -> Prop) (X : AhrsError -> Sensor -> Prop) (P : Prop) :
    vec_is (s_raw s) 3 M -> i < 3 ->
    (valid x -> forall m', vec_is m' 3 (fupd1 M i x) -> Q tt (mkSensor (s_mat s) (s_bias s) m' (s_cor s) (s_initialized s))) ->
    (forall e, bad x = Some e -> X (LinErr (UtilsErr e)) (mkSensor (s_mat s) (s_bias s) (s_raw s) (s_cor s) (s_initialized s))) ->
    wp (on_raw (v_set i x)) s Q X P.
  Proof. intros. unfold on_raw, sla. apply wp_smap_err, wp_zoom. eapply wp_v_set; eauto. Qed.

  (** writing a configuration: the fields are written in order up to the first that is not finite *)
  Lemma of_fields (l : list T) : length l = 12 -> exists c, fields c = l.
  Proof.
    intros H. do 12 (destruct l as [|? l]; [discriminate|]). destruct l; [|discriminate].
    eexists (mkConfig _ _ _ _ _ _ _ _ _ _ _ _). reflexivity.
  Qed.
  Definition cfg_upto (n : nat) (c c0 : Config) : Config :=
    let g i a b := if i <? n then a else b in
    mkConfig (g 0 (cf_x c) (cf_x c0)) (g 1 (cf_y c) (cf_y c0)) (g 2 (cf_z c) (cf_z c0))
      (g 3 (cf_xy c) (cf_xy c0)) (g 4 (cf_xz c) (cf_xz c0)) (g 5 (cf_yx c) (cf_yx c0)) (g 6 (cf_yz c) (cf_yz c0))
      (g 7 (cf_zx c) (cf_zx c0)) (g 8 (cf_zy c) (cf_zy c0)) (g 9 (cf_bx c) (cf_bx c0)) (g 10 (cf_by c) (cf_by c0)) (g 11 (cf_bz c) (cf_bz c0)).
  Definition partial (k : kind) (s : Sensor) (c c0 : Config) (raw cor : nat -> T) (e : AhrsError) (s' : Sensor) : Prop :=
    exists n u, n < 12 /\ e = LinErr (UtilsErr u) /\ bad (nth n (fields c) f0) = Some u /\ (forall i, i < n -> valid (nth i (fields c) f0)) /\
      sensor_is k s' (cfg_upto n c c0) raw cor /\ s_initialized s' = s_initialized s.

  Lemma set_config_wp k s c c0 raw cor : sensor_is k s c0 raw cor ->
    wp (private_set_config k c) s
      (fun _ s' => (forall x, In x (fields c) -> valid x) /\ sensor_is k s' c raw cor /\ s_initialized s' = s_initialized s)
      (partial k s c c0 raw cor) False.
  Proof.
    intros Hs. 
    assert (GM : forall n i j x (s1 : Sensor) (V : forall i, i < n -> valid (nth i (fields c) f0)),
      n < 9 -> i < 3 -> j < 3 -> x = nth n (fields c) f0 ->
      (forall a b, a < 3 -> b < 3 -> fupd2 (fun i j => coefficient k (cfg_upto n c c0) j i) i j x a b = coefficient k (cfg_upto (S n) c c0) b a) ->
      (forall a, a < 3 -> bias (cfg_upto n c c0) a = bias (cfg_upto (S n) c c0) a) ->
      sensor_is k s1 (cfg_upto n c c0) raw cor -> s_initialized s1 = s_initialized s ->
      wp (on_mat (m_set i j x)) s1 (fun _ s' => (forall i, i < S n -> valid (nth i (fields c) f0)) /\
          sensor_is k s' (cfg_upto (S n) c c0) raw cor /\ s_initialized s' = s_initialized s) (partial k s c c0 raw cor) False).
    { intros n i j x s1 V Hn Hi Hj Hx E1 E2 [H1 H2 H3 H4] HI. eapply wp_on_mat_set; [exact H1|auto|auto| |].
      - intros Vx m' Hm'. split; [|split; [split; cbn [s_mat s_bias s_raw s_cor]; auto|exact HI]].
        + intros a Ha. destruct (Nat.eq_dec a n) as [->|]; [rewrite <- Hx; auto|apply V; lia].
        + eapply mat_is_ext; [exact Hm'|]. exact E1.
        + eapply vec_is_ext; [exact H2|]. exact E2.
      - intros e B. exists n, e. split; [lia|]. split; [auto|]. split; [rewrite <- Hx; auto|]. split; [auto|]. split; [split; auto|exact HI]. }
    assert (GB : forall n i x (s1 : Sensor) (V : forall i, i < n -> valid (nth i (fields c) f0)),
      n < 12 -> i < 3 -> x = nth n (fields c) f0 ->
      (forall a b, a < 3 -> b < 3 -> coefficient k (cfg_upto n c c0) b a = coefficient k (cfg_upto (S n) c c0) b a) ->
      (forall a, a < 3 -> fupd1 (bias (cfg_upto n c c0)) i x a = bias (cfg_upto (S n) c c0) a) ->
      sensor_is k s1 (cfg_upto n c c0) raw cor -> s_initialized s1 = s_initialized s ->
      wp (on_bias (v_set i x)) s1 (fun _ s' => (forall i, i < S n -> valid (nth i (fields c) f0)) /\
          sensor_is k s' (cfg_upto (S n) c c0) raw cor /\ s_initialized s' = s_initialized s) (partial k s c c0 raw cor) False).
    { intros n i x s1 V Hn Hi Hx E1 E2 [H1 H2 H3 H4] HI. eapply wp_on_bias_set; [exact H2|auto| |].
      - intros Vx m' Hm'. split; [|split; [split; cbn [s_mat s_bias s_raw s_cor]; auto|exact HI]].
        + intros a Ha. destruct (Nat.eq_dec a n) as [->|]; [rewrite <- Hx; auto|apply V; lia].
        + eapply mat_is_ext; [exact H1|]. exact E1.
        + eapply vec_is_ext; [exact Hm'|]. exact E2.
      - intros e B. exists n, e. split; [lia|]. split; [auto|]. split; [rewrite <- Hx; auto|]. split; [auto|]. split; [split; auto|exact HI]. }
    assert (Hs0 : sensor_is k s (cfg_upto 0 c c0) raw cor). { destruct c0; exact Hs. }
    unfold private_set_config. 
    Ltac tri := let a := fresh in let b := fresh in intros a b ? ?; do 3 (destruct a as [|a]; [do 3 (destruct b as [|b]; [reflexivity|]); lia|]); lia.
    Ltac tri1 := let a := fresh in intros a ?; do 3 (destruct a as [|a]; [reflexivity|]); lia.
    Ltac stepm G n V S I := apply wp_bind; eapply wp_conseq; [apply (G n); cbn [fst snd]; [exact V|lia|lia|lia|reflexivity|tri|tri1|exact S|exact I]| |intros e s' He; exact He|auto].
    Ltac stepb G n V S I := eapply wp_conseq; [apply (G n); cbn [fst snd]; [exact V|lia|lia|reflexivity|tri|tri1|exact S|exact I]| |intros e s' He; exact He|auto].
    assert (V0 : forall i, i < 0 -> valid (nth i (fields c) f0)) by (intros; lia).
    destruct k; unfold cells; cbv iota beta;
    (stepm GM 0 V0 Hs0 (eq_refl (s_initialized s)); intros _ s1 (V1 & S1 & I1);
     stepm GM 1 V1 S1 I1; intros _ s2 (V2 & S2 & I2);
     stepm GM 2 V2 S2 I2; intros _ s3 (V3 & S3 & I3);
     stepm GM 3 V3 S3 I3; intros _ s4 (V4 & S4 & I4);
     stepm GM 4 V4 S4 I4; intros _ s5 (V5 & S5 & I5);
     stepm GM 5 V5 S5 I5; intros _ s6 (V6 & S6 & I6);
     stepm GM 6 V6 S6 I6; intros _ s7 (V7 & S7 & I7);
     stepm GM 7 V7 S7 I7; intros _ s8 (V8 & S8 & I8);
     stepm GM 8 V8 S8 I8; intros _ s9 (V9 & S9 & I9);
     apply wp_bind; stepb GB 9 V9 S9 I9; intros _ s10 (V10 & S10 & I10);
     apply wp_bind; stepb GB 10 V10 S10 I10; intros _ s11 (V11 & S11 & I11);
     stepb GB 11 V11 S11 I11; intros _ s12 (V12 & S12 & I12);
     split; [|split; [destruct c; exact S12|exact I12]];
     intros x Hx; apply (In_nth _ _ f0) in Hx; destruct Hx as (m & Hm & <-); apply V12; exact Hm).
  Qed.

  Lemma get_config_is k s c raw cor : sensor_is k s c raw cor -> s_initialized s = true -> sensor_get_config k s = Ok c.
  Proof.
    intros [H1 H2 H3 H4] I. unfold sensor_get_config. rewrite I.
    destruct k; unfold cells, la; cbv iota beta zeta; cbn [fst snd];
      rewrite !(mi_get _ _ _ _ H1) by lia; rewrite !(vi_get _ _ _ H2) by lia; cbn; destruct c; reflexivity.
  Qed.
  Lemma sensor_is_cfg k s c c' raw cor raw' cor' : sensor_is k s c raw cor -> sensor_is k s c' raw' cor' -> c = c'.
  Proof.
    intros H H'. set (s1 := mkSensor (s_mat s) (s_bias s) (s_raw s) (s_cor s) true).
    assert (G : sensor_get_config k s1 = Ok c) by (apply (get_config_is k s1 c raw cor); [destruct H; split; auto|reflexivity]).
    assert (G' : sensor_get_config k s1 = Ok c') by (apply (get_config_is k s1 c' raw' cor'); [destruct H'; split; auto|reflexivity]).
    congruence.
  Qed.
  Lemma get_is k s c raw cor i : sensor_is k s c raw cor -> s_initialized s = true -> i < 3 -> sensor_get k i s = Ok (cor i).
  Proof. intros [H1 H2 H3 H4] I Hi. unfold sensor_get. rewrite I. cbn [negb]. rewrite (vi_get _ _ _ H4) by auto. reflexivity. Qed.

  Definition update_failed (k : kind) (c : Config) (raw cor0 : nat -> T) (s' : Sensor) : Prop :=
    (~ raw_finite raw /\ exists raw', sensor_is k s' c raw' cor0) \/
    (raw_finite raw /\ exists i, i < 3 /\ ~ valid (unbiased c raw i) /\ (forall a, a < i -> valid (unbiased c raw a)) /\
        sensor_is k s' c raw (fun a => if a <? i then unbiased c raw a else cor0 a)) \/
    (raw_finite raw /\ unbiased_finite c raw /\ ~ corrected_finite k c raw /\ sensor_is k s' c raw (unbiased c raw)).

  Lemma update_wp k s c raw0 cor0 raw : sensor_is k s c raw0 cor0 -> s_initialized s = true ->
    wp (sensor_update k (raw 0) (raw 1) (raw 2)) s
      (fun _ s' => raw_finite raw /\ unbiased_finite c raw /\ corrected_finite k c raw /\
         sensor_is k s' c raw (corrected k c raw 3) /\ s_initialized s' = true)
      (fun e s' => is_utils e /\ s_initialized s' = true /\ update_failed k c raw cor0 s') False.
  Proof.
    intros Hs I. unfold sensor_update. eapply wp_fold; [rewrite I; cbn [negb]; reflexivity|].
    destruct Hs as [H1 H2 H3 H4].
    apply wp_bind. eapply wp_on_raw_set; [exact H3|lia| |].
    2:{ intros e B. split; [exists e; auto|]. split; [exact I|]. left. split; [intros F; apply (bad_Some_not _ _ B), F; lia|]. exists raw0. split; auto. }
    intros F0 r1 K1. apply wp_bind. eapply wp_on_raw_set; [exact K1|lia| |].
    2:{ intros e B. split; [exists e; auto|]. split; [exact I|]. left. split; [intros F; apply (bad_Some_not _ _ B), F; lia|]. eexists. split; cbn [s_mat s_bias s_raw s_cor]; eauto. }
    intros F1 r2 K2. apply wp_bind. eapply wp_on_raw_set; [exact K2|lia| |].
    2:{ intros e B. split; [exists e; auto|]. split; [exact I|]. left. split; [intros F; apply (bad_Some_not _ _ B), F; lia|]. eexists. split; cbn [s_mat s_bias s_raw s_cor]; eauto. }
    intros F2 r3 K3. cbn [s_mat s_bias s_raw s_cor s_initialized] in *.
    assert (RF : raw_finite raw). { intros a Ha. do 3 (destruct a as [|a]; [auto|]). lia. }
    assert (K : vec_is r3 3 raw). { eapply vec_is_ext; [exact K3|]. intros a Ha. do 3 (destruct a as [|a]; [reflexivity|]). lia. }
    clear K1 K2 K3 H3. unfold sensor_correct.
    apply wp_bind, wp_reads. cbn [rwp s_raw]. apply wp_bind, wp_reads. cbn [rwp s_bias]. apply wp_bind, wp_reads. cbn [rwp s_mat].
    apply wp_bind. unfold on_cor at 1, sla. apply wp_smap_err, wp_zoom. cbn [s_cor].
    pose proof (v_sub_pw (s_cor s) r3 (s_bias s) 3 _ _ _ H4 K H2) as P. unfold wp at 1. 
    destruct (v_sub r3 (s_bias s) (s_cor s)) as [d o]. destruct P as [(V & E & Hd)|(i & u & Hi & B & V & E & Hd)]; cbn [fst snd] in E, Hd; subst o.
    2:{ split; [exists u; auto|]. split; [exact I|]. right; left. split; [exact RF|]. exists i. split; [exact Hi|]. split; [apply (bad_Some_not _ _ B)|].
        split; [exact V|]. split; cbn [s_mat s_bias s_raw s_cor]; auto. }
    assert (UF : unbiased_finite c raw) by exact V.
    apply wp_bind, wp_reads. cbn [s_cor]. destruct (v_convert_ok d 3 _ Hd) as (cm & Ec & Hcm). rewrite Ec. cbn [la map_err rwp].
    apply wp_bind, wp_lift. destruct (m_duplicate_ok _ _ _ _ Hcm) as (dup & Ed & Hdup). rewrite Ed. cbn [la map_err rwp].
    apply wp_bind, wp_lift.
    pose proof (l_mul A cm (s_mat s) dup 3 1 3 3 3 1 _ _ _ Hcm H1 Hdup) as P. cbn [Nat.eqb andb] in P. unfold exec.
    destruct (m_mul (s_mat s) dup cm) as [m' o]. destruct P as [(V' & E & Hm)|(i & j & n & u & Hi & Hj & Hn & B & _ & _ & E & _)]; cbn [fst snd] in *; subst o; cbn [la map_err rwp].
    2:{ split; [exists u; auto|]. split; [exact I|]. right; right. split; [exact RF|]. split; [exact UF|]. split.
        - intros CF. apply (bad_Some_not _ _ B). apply (CF i (S n)); lia.
        - split; cbn [s_mat s_bias s_raw s_cor]; auto. }
    unfold on_cor, sla. apply wp_smap_err, wp_zoom. cbn [s_cor].
    eapply wp_conseq; [apply (m_get_col_wp m' 3 1 _ d _ 0 Hm Hd ltac:(lia))| |intros ? ? []|auto].
    intros ? v' Hv'. cbn [s_mat s_bias s_raw s_cor s_initialized]. split; [exact RF|]. split; [exact UF|]. split; [|split; [|exact I]].
    - intros b n Hb Hn. apply (V' b 0 n); lia.
    - split; cbn [s_mat s_bias s_raw s_cor]; auto.
  Qed.
  Lemma update_uninit k x y z s : s_initialized s = false -> sensor_update k x y z s = (s, Err (not_init k)).
  Proof. intros I. unfold sensor_update. rewrite I. reflexivity. Qed.

  Lemma reach_is k s : sreach k s -> exists c raw cor, sensor_is k s c raw cor.
  Proof.
    induction 1 as [s E|s q H (c0 & raw & cor & IH)].
    - destruct (new_ok k) as (s' & E' & Hs & _). rewrite E in E'. injection E' as ->. eauto.
    - destruct q as [c|c|x y z]; cbn [do_call].
      + unfold sensor_init. destruct (s_initialized s); cbn [fst]; [eauto|].
        pose proof (set_config_wp k s c c0 raw cor IH) as W. unfold wp, sbind in *. destruct (private_set_config k c s) as [s' [[]|e|]]; cbn [fst] in *; [|destruct W as (n & u & _ & _ & _ & _ & W & _); eauto|tauto].
        cbn [modify fst]. destruct W as (_ & [H1 H2 H3 H4] & _). exists c, raw, cor. split; auto.
      + unfold sensor_set_config. destruct (s_initialized s); cbn [fst]; [|eauto].
        pose proof (set_config_wp k s c c0 raw cor IH) as W. unfold wp in *. destruct (private_set_config k c s) as [s' [[]|e|]]; cbn [fst] in *; [|destruct W as (n & u & _ & _ & _ & _ & W & _); eauto|tauto].
        destruct W as (_ & W & _). eauto.
      + destruct (s_initialized s) eqn:I; [|rewrite update_uninit by auto; eauto].
        pose proof (update_wp k s c0 raw cor (fun a => nth a [x; y; z] f0) IH I) as W. unfold wp in W. cbn [nth] in W.
        destruct (sensor_update k x y z s) as [s' [[]|e|]]; cbn [fst] in *; [|destruct W as (_ & _ & [W|[W|W]])|tauto].
        * destruct W as (_ & _ & _ & W & _). eauto.
        * destruct W as (_ & raw' & W). eauto.
        * destruct W as (_ & i & _ & _ & _ & W). eauto.
        * destruct W as (_ & _ & _ & W). eauto.
  Qed.
End Gen.

(*@ C38_new *)
(** C38, for every arithmetic: a new sensor exists, is not initialised, and holds zero measurements *)
Lemma l_new :
  forall (A : Arith) (OK : ArithOk A) (k : kind),
  exists s, sensor_new = Ok s /\ sreach k s /\ s_initialized s = false.
Proof. intros A OK k. destruct (new_ok k) as (s & E & _ & I). exists s. split; [auto|]. split; [apply sr_new; auto|auto]. Qed.

(*@ C38_config *)
(** C38, for every arithmetic and after any history: [init] of an uninitialised sensor and [set_config] of an
    initialised one succeed exactly when every field is finite, and then [get_config] returns
    exactly the configuration given *)
Lemma l_config :
  forall (A : Arith) (OK : ArithOk A) (k : kind) (s : Sensor) (c : Config), sreach k s ->
  forall (q : call), (s_initialized s = false /\ q = CInit c) \/ (s_initialized s = true /\ q = CSet c) ->
  let (s', o) := do_call k q s in
  ((forall x, In x (fields c) -> valid x) -> o = Ok tt /\ s_initialized s' = true /\ sensor_get_config k s' = Ok c) /\
  (~ (forall x, In x (fields c) -> valid x) -> exists e, o = Err e /\ is_utils e).
Proof.
  intros A OK k s c Hr q Hq. destruct (reach_is k s Hr) as (c0 & raw & cor & Hs).
  pose proof (set_config_wp k s c c0 raw cor Hs) as W. unfold wp in W.
  assert (N : forall n u, n < 12 -> bad (nth n (fields c) f0) = Some u -> ~ (forall x, In x (fields c) -> valid x)).
  { intros n u Hn B F. apply (bad_Some_not _ _ B). apply F, nth_In. exact Hn. }
  destruct Hq as [(I & ->)|(I & ->)]; cbn [do_call].
  - unfold sensor_init. rewrite I. unfold sbind. destruct (private_set_config k c s) as [s' [[]|e|]]; [| |tauto].
    + cbn [modify]. destruct W as (F & [H1 H2 H3 H4] & _). split; [intros _|tauto]. split; [auto|]. split; [auto|].
      eapply get_config_is; [split; eauto|reflexivity].
    + destruct W as (n & u & Hn & -> & B & _). split; [intros F; destruct (N n u Hn B F)|]. intros _. eexists. split; [auto|exists u; auto].
  - unfold sensor_set_config. rewrite I. destruct (private_set_config k c s) as [s' [[]|e|]]; [| |tauto].
    + destruct W as (F & Hs' & I'). split; [intros _|tauto]. split; [auto|]. split; [congruence|].
      eapply get_config_is; [eauto|congruence].
    + destruct W as (n & u & Hn & -> & B & _). split; [intros F; destruct (N n u Hn B F)|]. intros _. eexists. split; [auto|exists u; auto].
Qed.

(*@ C38_update *)
(** C38, for every arithmetic and after any history: an update of a configured sensor succeeds exactly when every
    value it computes is finite; the measurements reported are then the products of the
    coefficients with (raw - bias), summed from left to right.  No update changes the configuration *)
Lemma l_update :
  forall (A : Arith) (OK : ArithOk A) (k : kind) (s : Sensor) (c : Config) (raw : nat -> T), sreach k s ->
  sensor_get_config k s = Ok c ->
  let (s', o) := sensor_update k (raw 0) (raw 1) (raw 2) s in
  (raw_finite raw /\ unbiased_finite c raw /\ corrected_finite k c raw -> o = Ok tt /\
     forall b, b < 3 -> sensor_get k b s' =
       Ok (f0 + coefficient k c 0 b * (raw 0 - bias c 0) + coefficient k c 1 b * (raw 1 - bias c 1)
              + coefficient k c 2 b * (raw 2 - bias c 2))%F) /\
  (~ (raw_finite raw /\ unbiased_finite c raw /\ corrected_finite k c raw) -> exists e, o = Err e /\ is_utils e) /\
  sensor_get_config k s' = Ok c.
Proof.
  intros A OK k s c raw Hr Hc. destruct (reach_is k s Hr) as (c0 & raw0 & cor & Hs).
  assert (I : s_initialized s = true). { unfold sensor_get_config in Hc. destruct (s_initialized s); [auto|discriminate]. }
  rewrite (get_config_is k s c0 raw0 cor Hs I) in Hc. injection Hc as ->.
  pose proof (update_wp k s c raw0 cor raw Hs I) as W. unfold wp in W.
  destruct (sensor_update k (raw 0) (raw 1) (raw 2) s) as [s' [[]|e|]]; [| |tauto].
  - destruct W as (F1 & F2 & F3 & Hs' & I'). split; [|split; [tauto|eapply get_config_is; eauto]].
    intros _. split; [auto|]. intros b Hb. rewrite (get_is k s' _ _ _ b Hs' I' Hb). reflexivity.
  - destruct W as (U & I' & W). split; [|split].
    + intros (F1 & F2 & F3). exfalso. destruct W as [(N & _)|[(_ & i & Hi & N & _)|(_ & _ & N & _)]]; [auto|apply N, F2, Hi|auto].
    + eauto.
    + destruct W as [(_ & r & W)|[(_ & i & _ & _ & _ & W)|(_ & _ & _ & W)]]; eapply get_config_is; eauto.
Qed.

(*@ C39_lifecycle *)
(** C39, for every arithmetic: an uninitialised sensor rejects update, set_config, get_config and reads with its own
    NotInit error, an initialised one rejects init; the sensor is unchanged.  It stays initialised for ever *)
Lemma l_lifecycle :
  forall (A : Arith) (OK : ArithOk A) (k : kind) (s : Sensor) (c : Config) (x y z : T) (a : nat) (q : call), sreach k s ->
  (s_initialized s = false -> sensor_update k x y z s = (s, Err (not_init k)) /\ sensor_set_config k c s = (s, Err (not_init k)) /\
     sensor_get_config k s = Err (not_init k) /\ sensor_get k a s = Err (not_init k)) /\
  (s_initialized s = true -> sensor_init k c s = (s, Err (already_init k)) /\ s_initialized (fst (do_call k q s)) = true) /\
  not_init Gyr = GyrNotInit /\ not_init Acc = AccNotInit /\ not_init Mag = MagNotInit /\
  already_init Gyr = GyrAlreadyInit /\ already_init Acc = AccAlreadyInit /\ already_init Mag = MagAlreadyInit.
Proof.
  intros A OK k s c x y z a q Hr. destruct (reach_is k s Hr) as (c0 & raw & cor & Hs). split; [|split; [|repeat split]].
  - intros I. unfold sensor_update, sensor_set_config, sensor_get_config, sensor_get. rewrite I. auto.
  - intros I. unfold sensor_init at 1. rewrite I. split; [auto|]. destruct q as [d|d|u v w]; cbn [do_call].
    + unfold sensor_init. rewrite I. exact I.
    + unfold sensor_set_config. rewrite I. pose proof (set_config_wp k s d c0 raw cor Hs) as W. unfold wp in W.
      destruct (private_set_config k d s) as [s' [[]|e|]]; cbn [fst]; [| |tauto].
      * destruct W as (_ & _ & W). congruence.
      * destruct W as (n & u & _ & _ & _ & _ & _ & W). congruence.
    + pose proof (update_wp k s c0 raw cor (fun a => nth a [u; v; w] f0) Hs I) as W. unfold wp in W. cbn [nth] in W.
      destruct (sensor_update k u v w s) as [s' [[]|e|]]; cbn [fst]; [| |tauto]; tauto.
Qed.

(*@ C39_failed_update *)
(** C39, for every arithmetic and after any history: an update with a non-finite raw value leaves the reported
    measurements as they were.  Violation: when raw - bias is not finite the axes before it are
    reported without correction, and when only the product is not finite all three are *)
Lemma l_failed_update :
  forall (A : Arith) (OK : ArithOk A) (k : kind) (s : Sensor) (c : Config) (raw cor : nat -> T), sreach k s ->
  sensor_get_config k s = Ok c -> (forall a, a < 3 -> sensor_get k a s = Ok (cor a)) ->
  let s' := fst (sensor_update k (raw 0) (raw 1) (raw 2) s) in
  (~ raw_finite raw -> forall a, a < 3 -> sensor_get k a s' = Ok (cor a)) /\
  (raw_finite raw -> forall i, i < 3 -> ~ valid (unbiased c raw i) -> (forall a, a < i -> valid (unbiased c raw a)) ->
     forall a, a < 3 -> sensor_get k a s' = Ok (if (a <? i)%nat then raw a - bias c a else cor a)%F) /\
  (raw_finite raw -> unbiased_finite c raw -> ~ corrected_finite k c raw ->
     forall a, a < 3 -> sensor_get k a s' = Ok (raw a - bias c a)%F).
Proof.
  intros A OK k s c raw cor Hr Hc Hg. destruct (reach_is k s Hr) as (c0 & raw0 & cor0 & Hs).
  assert (I : s_initialized s = true). { unfold sensor_get_config in Hc. destruct (s_initialized s); [auto|discriminate]. }
  rewrite (get_config_is k s c0 raw0 cor0 Hs I) in Hc. injection Hc as ->.
  assert (Ec : forall a, a < 3 -> cor0 a = cor a). { intros a Ha. specialize (Hg a Ha). rewrite (get_is k s _ _ _ a Hs I Ha) in Hg. congruence. }
  pose proof (update_wp k s c raw0 cor0 raw Hs I) as W. unfold wp in W.
  destruct (sensor_update k (raw 0) (raw 1) (raw 2) s) as [s' [[]|e|]]; cbn [fst]; cbv zeta; [| |tauto].
  - destruct W as (F1 & F2 & F3 & _). split; [tauto|]. split; [|tauto]. intros _ i Hi N. destruct (N (F2 i Hi)).
  - destruct W as (U & I' & [(N & r & W)|[(F1 & j & Hj & N & P & W)|(F1 & F2 & N & W)]]).
    + split; [|tauto]. intros _ a Ha. rewrite (get_is k s' _ _ _ a W I' Ha), Ec; auto.
    + split; [tauto|]. split.
      * intros _ i Hi Ni Pi a Ha. rewrite (get_is k s' _ _ _ a W I' Ha).
        assert (i = j). { destruct (Nat.lt_trichotomy i j) as [L|[L|L]]; [destruct (Ni (P i L))|auto|destruct (N (Pi j L))]. }
        subst j. rewrite Ec by auto. reflexivity.
      * intros _ F2. destruct (N (F2 j Hj)).
    + split; [tauto|]. split; [|].
      * intros _ i Hi Ni. destruct (Ni (F2 i Hi)).
      * intros _ _ _ a Ha. rewrite (get_is k s' _ _ _ a W I' Ha). reflexivity.
Qed.

(*@ C39_set_config_not_atomic *)
(** C39, violation, for every arithmetic: a [set_config] that fails leaves the sensor initialised with the new values of
    the fields before the first non-finite one and the old values of the others *)
Lemma l_set_config_partial :
  forall (A : Arith) (OK : ArithOk A) (k : kind) (s : Sensor) (c c0 : Config) (n : nat), sreach k s ->
  sensor_get_config k s = Ok c0 -> n < 12 -> ~ valid (nth n (fields c) f0) -> (forall i, i < n -> valid (nth i (fields c) f0)) ->
  let (s', o) := sensor_set_config k c s in
  (exists e, o = Err e /\ is_utils e) /\ s_initialized s' = true /\
  exists c', sensor_get_config k s' = Ok c' /\ fields c' = firstn n (fields c) ++ skipn n (fields c0).
Proof.
  intros A OK k s c c0 n Hr Hc Hn N V. destruct (reach_is k s Hr) as (c1 & raw & cor & Hs).
  assert (I : s_initialized s = true). { unfold sensor_get_config in Hc. destruct (s_initialized s); [auto|discriminate]. }
  rewrite (get_config_is k s c1 raw cor Hs I) in Hc. injection Hc as ->.
  pose proof (set_config_wp k s c c0 raw cor Hs) as W. unfold wp in W. unfold sensor_set_config. rewrite I.
  destruct (private_set_config k c s) as [s' [[]|e|]]; [| |tauto].
  - destruct W as (F & _). destruct N. apply F, nth_In. exact Hn.
  - destruct W as (m & u & Hm & -> & B & Vm & Hs' & I'). split; [eexists; split; [auto|exists u; auto]|]. split; [congruence|].
    assert (m = n). { destruct (Nat.lt_trichotomy m n) as [L|[L|L]]; [destruct (bad_Some_not _ _ B (V m L))|auto|destruct (N (Vm n L))]. }
    subst m. eexists. split; [eapply get_config_is; [eauto|congruence]|].
    do 12 (destruct n as [|n]; [reflexivity|]). lia.
Qed.

(*@ C40_acc_gyr *)
(** C40, for every arithmetic: for the accelerometer and the gyrometer the field ab is the coefficient of axis a in the
    reported axis b *)
Lemma l_naming :
  forall (A : Arith) (OK : ArithOk A) (k : kind) (s s' : Sensor) (c : Config) (x y z : T), sreach k s -> k <> Mag ->
  sensor_get_config k s = Ok c -> sensor_update k x y z s = (s', Ok tt) ->
  sensor_get k 0 s' = Ok (f0 + cf_x c * (x - cf_bx c) + cf_yx c * (y - cf_by c) + cf_zx c * (z - cf_bz c))%F /\
  sensor_get k 1 s' = Ok (f0 + cf_xy c * (x - cf_bx c) + cf_y c * (y - cf_by c) + cf_zy c * (z - cf_bz c))%F /\
  sensor_get k 2 s' = Ok (f0 + cf_xz c * (x - cf_bx c) + cf_yz c * (y - cf_by c) + cf_z c * (z - cf_bz c))%F.
Proof.
  intros A OK k s s' c x y z Hr Hk Hc E. pose proof (l_update A OK k s c (fun a => nth a [x; y; z] f0) Hr Hc) as W. cbn [nth] in W. rewrite E in W.
  destruct W as (W1 & W2 & _).
  assert (D : raw_finite (fun a => nth a [x; y; z] f0) /\ unbiased_finite c (fun a => nth a [x; y; z] f0) /\ corrected_finite k c (fun a => nth a [x; y; z] f0)).
  { destruct (reach_is k s Hr) as (c1 & raw & cor & Hs).
    assert (I : s_initialized s = true). { unfold sensor_get_config in Hc. destruct (s_initialized s); [auto|discriminate]. }
    rewrite (get_config_is k s c1 raw cor Hs I) in Hc. injection Hc as ->.
    pose proof (update_wp k s c raw cor (fun a => nth a [x; y; z] f0) Hs I) as U. unfold wp in U. cbn [nth] in U. rewrite E in U. tauto. }
  destruct (W1 D) as (_ & G). rewrite !G by lia. destruct k; [..|tauto]; auto.
Qed.

(*@ C40_mag *)
(** C40, violation, for every arithmetic: in the magnetometer xy is the coefficient of y in x, xz that of x in y, yx that
    of z in x, yz that of x in z, zx that of z in y and zy that of y in z *)
Lemma l_naming_mag :
  forall (A : Arith) (OK : ArithOk A) (s s' : Sensor) (c : Config) (x y z : T), sreach Mag s ->
  sensor_get_config Mag s = Ok c -> sensor_update Mag x y z s = (s', Ok tt) ->
  sensor_get Mag 0 s' = Ok (f0 + cf_x c * (x - cf_bx c) + cf_xy c * (y - cf_by c) + cf_yx c * (z - cf_bz c))%F /\
  sensor_get Mag 1 s' = Ok (f0 + cf_xz c * (x - cf_bx c) + cf_y c * (y - cf_by c) + cf_zx c * (z - cf_bz c))%F /\
  sensor_get Mag 2 s' = Ok (f0 + cf_yz c * (x - cf_bx c) + cf_zy c * (y - cf_by c) + cf_z c * (z - cf_bz c))%F.
Proof.
  intros A OK s s' c x y z Hr Hc E. pose proof (l_update A OK Mag s c (fun a => nth a [x; y; z] f0) Hr Hc) as W. cbn [nth] in W. rewrite E in W.
  destruct W as (W1 & W2 & _).
  assert (D : raw_finite (fun a => nth a [x; y; z] f0) /\ unbiased_finite c (fun a => nth a [x; y; z] f0) /\ corrected_finite Mag c (fun a => nth a [x; y; z] f0)).
  { destruct (reach_is Mag s Hr) as (c1 & raw & cor & Hs).
    assert (I : s_initialized s = true). { unfold sensor_get_config in Hc. destruct (s_initialized s); [auto|discriminate]. }
    rewrite (get_config_is Mag s c1 raw cor Hs I) in Hc. injection Hc as ->.
    pose proof (update_wp Mag s c raw cor (fun a => nth a [x; y; z] f0) Hs I) as U. unfold wp in U. cbn [nth] in U. rewrite E in U. tauto. }
  destruct (W1 D) as (_ & G). rewrite !G by lia. auto.
Qed.

(*@ C38_default *)
(** C38, binary32: with the default configuration every update with finite measurements succeeds and reports the raw
    measurements as real numbers (only the sign of a zero may change) *)
Lemma l_default :
  forall (lm : Libm) (k : kind) (s : Sensor (A := F32 lm)) (raw : nat -> f32), sreach k s ->
  sensor_get_config k s = Ok default_config -> (forall a, a < 3 -> is_finite (raw a) = true) ->
  let (s', o) := sensor_update (A := F32 lm) k (raw 0) (raw 1) (raw 2) s in
  o = Ok tt /\ forall a, a < 3 -> exists r : f32, sensor_get k a s' = Ok r /\ B2R r = B2R (raw a) /\
     (raw a <> B754_zero true -> r = raw a).
Proof.
  intros lm k s raw Hr Hc F. pose proof (l_update (F32 lm) (F32_ok lm) k s default_config raw Hr Hc) as W.
  destruct (sensor_update (A := F32 lm) k (raw 0) (raw 1) (raw 2) s) as [s' o]. destruct W as (W & _ & _).
  assert (U : forall a, a < 3 -> unbiased (A := F32 lm) default_config raw a = raw a).
  { intros a Ha. unfold unbiased. assert (E : bias (A := F32 lm) default_config a = B754_zero false) by (do 3 (destruct a as [|a]; [reflexivity|]); lia).
    rewrite E. specialize (F a Ha). destruct (raw a) as [[]|[]| |[] ? ? ?]; try discriminate; reflexivity. }
  assert (C : forall n b, n <= 3 -> b < 3 -> corrected (A := F32 lm) k default_config raw n b = if b <? n then zpos (raw b) else B754_zero false).
  { intros n b Hn Hb. unfold corrected.
    rewrite <- (fsum_id_f32 lm n b raw) by (intros; apply F; lia). apply fsum_ext. intros a Ha. rewrite U by lia.
    assert (E : coefficient (A := F32 lm) k default_config a b = if a =? b then lit32 1 1 else lit32 0 1).
    { do 3 (destruct a as [|a]; [do 3 (destruct b as [|b]; [destruct k; reflexivity|]); lia|]). lia. }
    rewrite E. exact (Bmult_comm _ _). }
  destruct W as (-> & G).
  - split; [|split].
    + intros a Ha. apply valid_finite, F, Ha.
    + intros a Ha. rewrite U by auto. apply valid_finite, F, Ha.
    + intros b n Hb Hn. rewrite C by lia. apply valid_finite. destruct (b <? n); [|reflexivity]. rewrite is_finite_zpos. apply F, Hb.
  - split; [auto|]. intros a Ha. exists (zpos (raw a)). split; [|split].
    + rewrite G by auto. f_equal. pose proof (C 3 a ltac:(lia) Ha) as E. destruct (Nat.ltb_spec a 3); [|lia]. rewrite <- E.
      unfold corrected, unbiased. cbn [fsum]. reflexivity.
    + apply B2R_zpos.
    + intros N. destruct (raw a) as [[]| | |]; cbn; congruence.
Qed.

(*@ C40_mag_xz_refuted *)
(** C40, violation for every libm: two magnetometer configurations that differ in the xz coefficient only (0 and 1);
    the measurement (2, 3, 5) is reported as (2, 3, 5) and as (2, 5, 5): y changes, z does not *)
Lemma l_mag_xz :
  forall lm : Libm, exists c0 c1 : Config (A := F32 lm),
  let obs_ c := match sensor_new (A := F32 lm) with
                | Ok s => let s1 := fst (sensor_init (A := F32 lm) Mag c s) in
                          let s2 := fst (sensor_update (A := F32 lm) Mag (z32 2) (z32 3) (z32 5) s1) in
                          (obs (sensor_get (A := F32 lm) Mag 0 s2), obs (sensor_get (A := F32 lm) Mag 1 s2), obs (sensor_get (A := F32 lm) Mag 2 s2))
                | _ => (Panic, Panic, Panic) end in
  cf_xz c0 = z32 0 /\ cf_xz c1 = z32 1 /\
  mkConfig (cf_x c0) (cf_y c0) (cf_z c0) (cf_xy c0) (cf_xz c1) (cf_yx c0) (cf_yz c0) (cf_zx c0) (cf_zy c0) (cf_bx c0) (cf_by c0) (cf_bz c0) = c1 /\
  obs_ c0 = (Ok (sf 2), Ok (sf 3), Ok (sf 5)) /\ obs_ c1 = (Ok (sf 2), Ok (sf 5), Ok (sf 5)).
Proof.
  intros lm. exists (default_config (A := F32 lm)).
  exists (let d := default_config (A := F32 lm) in mkConfig (cf_x d) (cf_y d) (cf_z d) (cf_xy d) (z32 1 : T (Arith := F32 lm)) (cf_yx d) (cf_yz d) (cf_zx d) (cf_zy d) (cf_bx d) (cf_by d) (cf_bz d)).
  split; [reflexivity|]. split; [reflexivity|]. split; [reflexivity|]. split; vm_compute; reflexivity.
Qed.

(*@ C39_uncorrected_refuted *)
(** C39, violation for every libm: with the x scale 2^100 and the y bias 1, the update (2^100, 3, 5) fails (the product
    overflows) and the sensor then reports (2^100, 2, 5): the measurement without its scale *)
Lemma l_uncorrected :
  forall lm : Libm, exists c : Config (A := F32 lm),
  match sensor_new (A := F32 lm) with
  | Ok s => let s1 := fst (sensor_init (A := F32 lm) Acc c s) in
            let (s2, o) := sensor_update (A := F32 lm) Acc (z32 (2 ^ 100)) (z32 3) (z32 5) s1 in
            o = Err (LinErr (UtilsErr Inf)) /\
            obs (sensor_get (A := F32 lm) Acc 0 s2) = Ok (sf (2 ^ 100)) /\ obs (sensor_get (A := F32 lm) Acc 1 s2) = Ok (sf 2) /\ obs (sensor_get (A := F32 lm) Acc 2 s2) = Ok (sf 5)
  | _ => False end.
Proof.
  intros lm. exists (let d := default_config (A := F32 lm) in mkConfig (z32 (2 ^ 100) : T (Arith := F32 lm)) (cf_y d) (cf_z d) (cf_xy d) (cf_xz d) (cf_yx d) (cf_yz d) (cf_zx d) (cf_zy d) (cf_bx d) (z32 1 : T (Arith := F32 lm)) (cf_bz d)).
  vm_compute. repeat split.
Qed.

(*@ example *)
(** the hypotheses are met: an accelerometer with scales 2, 3, 1, xy = 1 and biases 1, 0, 1 reports (2, 7, 4) for
    (2, 2, 5); a [set_config] whose y scale is NaN then leaves the new x scale 5 and the old y scale 3
    (test by evaluation) *)
Example C38_C39_C40_example : forall lm : Libm,
  let cfg x y : Config (A := F32 lm) := mkConfig (A := F32 lm) x y (z32 1) (z32 1) (z32 0) (z32 0) (z32 0) (z32 0) (z32 0) (z32 1) (z32 0) (z32 1) in
  match sensor_new (A := F32 lm) with
  | Ok s => let s1 := fst (sensor_init (A := F32 lm) Acc (cfg (z32 2) (z32 3)) s) in
            let s2 := fst (sensor_update (A := F32 lm) Acc (z32 2) (z32 2) (z32 5) s1) in
            let s3 := fst (sensor_set_config (A := F32 lm) Acc (cfg (z32 5) nan32) s2) in
            obs (sensor_get (A := F32 lm) Acc 0 s2) = Ok (sf 2) /\ obs (sensor_get (A := F32 lm) Acc 1 s2) = Ok (sf 7) /\ obs (sensor_get (A := F32 lm) Acc 2 s2) = Ok (sf 4) /\
            rmap (fun c => map B2SF (firstn 2 (fields (A := F32 lm) c : list f32))) (sensor_get_config (A := F32 lm) Acc s3) = Ok (map sf [5; 3]%Z)
  | _ => False end.
Proof. intros lm. vm_compute. repeat split. Qed.
