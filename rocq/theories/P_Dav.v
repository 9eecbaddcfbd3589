(** C45: the Davenport filter. *)
(*@+*)
From Coq Require Import List Arith ZArith NArith Reals Lia Bool Lra SpecFloat.
From Flocq Require Import Core BinarySingleNaN.
From Verif Require Import M_Base M_Arith M_Utils M_Vector M_Matrix M_Quaternion M_Sensors M_Ar M_F32
  S_Spec S_Linalg S_Quat S_Sensors S_Ar S_Dav P_Inst.
Import ListNotations.
Local Open Scope nat_scope.
(*@-*)
From Verif Require Import P_Hoare P_Cont P_Loops P_Access P_Float P_Quat P_Sensors.

Section Dav.
  Context {A : Arith} {OK : ArithOk A}.
  Definition dv_inv (s : Davenport) (p : phase) : Prop :=
    s_initialized (dv_acc s) = false /\ s_initialized (dv_mag s) = false /\
    match p with
    | Fresh => dv_initialized s = false /\ dv_attitude s = vnew /\ dv_g s = lit 981 100 /\ dv_mdip s = f0
    | Stuck => dv_initialized s = false /\ v_initialized (dv_attitude s) = true
    | Live => dv_initialized s = true
    end.
  Lemma weight_ok_dec w : weight_ok w \/ ~ weight_ok w.
  Proof. unfold weight_ok. destruct (fleb EPSILON w), (fleb w f1); auto; right; intros []; discriminate. Qed.
  Lemma in_range_iff w : in_range w EPSILON f1 = true <-> weight_ok w.
  Proof. unfold in_range, weight_ok. apply andb_true_iff. Qed.
  Definition kept (g mdip : option T) (s : Davenport) : Prop :=
    dv_g s = match g with Some x => x | None => lit 981 100 end /\ dv_mdip s = match mdip with Some x => x | None => f0 end.
  Lemma dv_init_fresh w1 w2 g mdip s : dv_inv s Fresh ->
    let (s', o) := dv_init w1 w2 g mdip s in
    ((weight_ok w1 /\ weight_ok w2) -> o = Ok tt /\ dv_inv s' Live /\ dv_w1 s' = w1 /\ dv_w2 s' = w2 /\ kept g mdip s') /\
    (~ (weight_ok w1 /\ weight_ok w2) -> o = Err InvalidDavenportWeights /\ dv_inv s' Stuck).
  Proof.
    intros (I1 & I2 & AI & Ea & Eg & Ed).
    assert (W : wp (dv_init w1 w2 g mdip) s
      (fun _ s' => (weight_ok w1 /\ weight_ok w2) /\ dv_inv s' Live /\ dv_w1 s' = w1 /\ dv_w2 s' = w2 /\ kept g mdip s')
      (fun e s' => e = InvalidDavenportWeights /\ ~ (weight_ok w1 /\ weight_ok w2) /\ dv_inv s' Stuck) False).
    { unfold dv_init. eapply wp_fold; [rewrite AI; reflexivity|].
      apply wp_bind. unfold dv_on_attitude at 1, sla. apply wp_smap_err, wp_zoom. rewrite Ea. eapply wp_v_init; [lia|]. intros v0 H0.
      apply wp_bind. unfold dv_on_attitude at 1, sla. apply wp_smap_err, wp_zoom. cbn [dv_attitude]. unfold wp at 1, q_fill_identity.
      destruct (q_fillq_ok v0 _ f1 f0 f0 f0 H0) as (v1 & -> & H1); try apply ok_f0; try apply ok_f1.
      apply wp_bind. pose proof (in_range_iff w1) as R1. pose proof (in_range_iff w2) as R2.
      destruct (in_range w1 EPSILON f1), (in_range w2 EPSILON f1); cbn [negb orb];
        try (apply wp_sthrow; split; [reflexivity|]; split; [intros [Y1 Y2]; apply R1 in Y1; apply R2 in Y2; discriminate|]; repeat split; cbn; auto; apply H1).
      apply wp_sret, wp_modify. split; [tauto|]. repeat split; cbn; auto; [destruct g|destruct mdip]; cbn; auto. }
    unfold wp in W. destruct (dv_init w1 w2 g mdip s) as [s' [[]|e|]]; [| |contradiction].
    - split; [intros _; split; [reflexivity|tauto]|tauto].
    - destruct W as (-> & N & H). split; [tauto|auto].
  Qed.
  Lemma mkDav_eta (s : Davenport) : mkDav (dv_acc s) (dv_mag s) (dv_attitude s) (dv_w1 s) (dv_w2 s) (dv_g s) (dv_mdip s) (dv_initialized s) = s.
  Proof. destruct s; reflexivity. Qed.
  Lemma mkSensor_eta (s : Sensor) : mkSensor (s_mat s) (s_bias s) (s_raw s) (s_cor s) (s_initialized s) = s.
  Proof. destruct s; reflexivity. Qed.
  Lemma dv_init_stuck w1 w2 g mdip s : dv_inv s Stuck -> dv_init w1 w2 g mdip s = (s, Err (LinErr AlreadyInit)).
  Proof.
    intros (_ & _ & AI & Ea). unfold dv_init. rewrite AI. unfold sbind, dv_on_attitude, sla, smap_err, zoom, v_init. rewrite Ea. cbn.
    rewrite mkDav_eta. reflexivity.
  Qed.
  Lemma dv_init_live w1 w2 g mdip s : dv_inv s Live -> dv_init w1 w2 g mdip s = (s, Err DavenportFilterAlreadyInit).
  Proof. intros (_ & _ & AI). unfold dv_init. rewrite AI. reflexivity. Qed.
  Lemma dv_update_is ax ay az mx my mz s p : dv_inv s p ->
    dv_update ax ay az mx my mz s = (s, Err (match p with Live => AccNotInit | _ => DavenportFilterNotInit end)).
  Proof.
    intros (I1 & I2 & H). unfold dv_update. destruct p; [destruct H as [-> _]; reflexivity|destruct H as [-> _]; reflexivity|].
    rewrite H. cbn [negb]. unfold sbind, dv_on_acc, zoom. rewrite (update_uninit Acc) by exact I1. cbn. rewrite mkDav_eta. reflexivity.
  Qed.
  Lemma dv_hist_inv s p : dv_hist s p -> dv_inv s p.
  Proof.
    induction 1 as [s E|s p q p' H IH N].
    - unfold dv_new in E. destruct (new_ok (A := A) Acc) as (g & Eg & _ & Ig). rewrite Eg in E. cbn in E. injection E as <-.
      repeat split; auto.
    - destruct N as [w1 w2 g d N|w1 w2 g d N1 N2|p w1 w2 g d N|p ax ay az mx my mz]; cbn [dv_do].
      + pose proof (dv_init_fresh w1 w2 g d s IH) as W. destruct (dv_init w1 w2 g d s) as [s' o]. cbn [fst]. tauto.
      + pose proof (dv_init_fresh w1 w2 g d s IH) as W. destruct (dv_init w1 w2 g d s) as [s' o]. cbn [fst]. tauto.
      + destruct p; [congruence| |].
        * rewrite dv_init_stuck; auto.
        * rewrite dv_init_live; auto.
      + rewrite (dv_update_is _ _ _ _ _ _ _ _ IH). exact IH.
  Qed.
  Lemma dv_reach_hist s : dv_reach s -> exists p, dv_hist s p.
  Proof.
    induction 1 as [s E|s q H (p & IH)]; [exists Fresh; constructor; auto|].
    destruct q as [w1 w2 g d|ax ay az mx my mz].
    - destruct p.
      + destruct (weight_ok_dec w1) as [W1|W1]; [destruct (weight_ok_dec w2) as [W2|W2]|].
        * exists Live. eapply dh_call; [exact IH|]. constructor; auto.
        * exists Stuck. eapply dh_call; [exact IH|]. constructor. tauto.
        * exists Stuck. eapply dh_call; [exact IH|]. constructor. tauto.
      + exists Stuck. eapply dh_call; [exact IH|]. constructor. discriminate.
      + exists Live. eapply dh_call; [exact IH|]. constructor. discriminate.
    - exists p. eapply dh_call; [exact IH|]. constructor.
  Qed.
End Dav.

(*@ C45_lifecycle *)
(** C45, for every arithmetic and after any history: the first [init] succeeds exactly when both weights are in
    [EPSILON, 1] and records them, with the gravity and dip given or else 9.81 and 0; a later one is refused.  VIOLATIONS: after a first [init] with a bad weight every later
    [init] fails, even with good weights; and no update ever succeeds - after a successful [init] they all report an
    uninitialised accelerometer - nor changes anything. *)
Lemma l_dv :
  forall (A : Arith) (OK : ArithOk A) (s : Davenport) (p : phase), dv_hist s p ->
  forall (w1 w2 : T) (g mdip : option T) (ax ay az mx my mz : T),
  match p with
  | Fresh =>
      dv_update ax ay az mx my mz s = (s, Err DavenportFilterNotInit) /\
      let (s', o) := dv_init w1 w2 g mdip s in
      (weight_ok w1 /\ weight_ok w2 -> o = Ok tt /\ dv_w1 s' = w1 /\ dv_w2 s' = w2 /\
         dv_g s' = match g with Some x => x | None => lit 981 100 end /\ dv_mdip s' = match mdip with Some x => x | None => f0 end) /\
      (~ (weight_ok w1 /\ weight_ok w2) -> o = Err InvalidDavenportWeights)
  | Stuck =>
      dv_update ax ay az mx my mz s = (s, Err DavenportFilterNotInit) /\
      dv_init w1 w2 g mdip s = (s, Err (LinErr AlreadyInit))
  | Live =>
      dv_update ax ay az mx my mz s = (s, Err AccNotInit) /\
      dv_init w1 w2 g mdip s = (s, Err DavenportFilterAlreadyInit)
  end.
Proof.
  intros A OK s p H w1 w2 g mdip ax ay az mx my mz. pose proof (dv_hist_inv s p H) as IV. pose proof (dv_update_is ax ay az mx my mz s p IV) as U.
  destruct p; (split; [exact U|]).
  - pose proof (dv_init_fresh w1 w2 g mdip s IV) as W. destruct (dv_init w1 w2 g mdip s) as [s' o]. split; intros N.
    + destruct (proj1 W N) as (-> & _ & E). auto.
    + apply (proj2 W N).
  - apply dv_init_stuck; auto.
  - apply dv_init_live; auto.
Qed.

(*@ C45_never *)
(** C45, violation: in particular no program can ever make an update succeed *)
Lemma l_dv_never :
  forall (A : Arith) (OK : ArithOk A) (s : Davenport) (ax ay az mx my mz : T), dv_reach s ->
  dv_update ax ay az mx my mz s = (s, Err DavenportFilterNotInit) \/ dv_update ax ay az mx my mz s = (s, Err AccNotInit).
Proof.
  intros A OK s ax ay az mx my mz H. destruct (dv_reach_hist s H) as (p & Hp). rewrite (dv_update_is _ _ _ _ _ _ _ _ (dv_hist_inv _ _ Hp)).
  destruct p; auto.
Qed.

(*@ C45_weights *)
(** the weights accepted, in f32: the finite floats between EPSILON and 1 *)
Lemma l_dv_weight :
  forall (lm : Libm) (w : f32),
  weight_ok (A := F32 lm) w <-> is_finite w = true /\ (B2R (EPSILON (A := F32 lm)) <= B2R w <= 1)%R.
Proof.
  intros lm w. unfold weight_ok. assert (FE : is_finite (EPSILON (A := F32 lm)) = true) by reflexivity.
  assert (E1 : B2R (f1 (A := F32 lm)) = 1%R) by (cbn; unfold F2R; cbn; lra).
  assert (F1 : is_finite (f1 (A := F32 lm)) = true) by reflexivity.
  destruct (is_finite w) eqn:F.
  - change (fleb (Arith := F32 lm) (EPSILON (A := F32 lm)) w) with (Bleb (EPSILON (A := F32 lm)) w).
    change (fleb (Arith := F32 lm) w (f1 (A := F32 lm))) with (Bleb w (f1 (A := F32 lm))).
    rewrite !Bleb_correct by auto. rewrite E1. split.
    + intros [H1 H2]. split; [reflexivity|]. generalize (Rle_bool_spec (B2R (EPSILON (A := F32 lm))) (B2R w)). rewrite H1. intros X. inversion X as [Y|].
      generalize (Rle_bool_spec (B2R w) 1). rewrite H2. intros X'. inversion X' as [Y'|]. auto.
    + intros (_ & Y1 & Y2). split; apply Rle_bool_true; auto.
  - split; [|intros [? _]; discriminate]. intros [H1 H2]. destruct w as [ |[|]| |]; discriminate.
Qed.

(*@ C45_stuck_refuted *)
(** C45, violation: a filter whose first weights were (0, 1/2) cannot be repaired *)
Lemma l_dv_stuck :
  forall (lm : Libm), exists s : Davenport (A := F32 lm), dv_hist s Stuck /\
  forall q, snd (dv_do q s) <> Ok tt /\ fst (dv_do q s) = s.
Proof.
  intros lm. destruct (new_ok (A := F32 lm) Acc) as (g & Eg & _ & Ig).
  assert (E : dv_new (A := F32 lm) = Ok (mkDav (A := F32 lm) g g vnew f1 f1 (lit (Arith := F32 lm) 981 100) f0 false)).
  { unfold dv_new. change (sensor_new (A := F32 lm)) with (sensor_new (A := F32 lm)). rewrite Eg. reflexivity. }
  pose proof (dh_new _ E) as H0. eapply (dh_call _ _ (DInit (A := F32 lm) (z32 0 : T (Arith := F32 lm)) (lit (Arith := F32 lm) 1 2) None None) Stuck) in H0.
  2:{ apply dn_bad. intros [[X _] _]. apply (f_equal negb) in X. vm_compute in X. discriminate X. }
  eexists. split; [exact H0|]. intros q.
  set (s := fst _) in *. clearbody s. pose proof (dv_hist_inv _ _ H0) as IV. destruct q; cbn [dv_do].
  - rewrite dv_init_stuck by auto. split; [discriminate|reflexivity].
  - rewrite (dv_update_is _ _ _ _ _ _ _ _ IV). split; [discriminate|reflexivity].
Qed.

(** the attitude is kept *)
Definition keeps {A : Arith} {B} (c : ST Davenport AhrsError B) : Prop := forall s, dv_attitude (fst (c s)) = dv_attitude s.
Lemma keeps_bind {A : Arith} {B C} (c : ST Davenport AhrsError B) (k : B -> ST Davenport AhrsError C) :
  keeps c -> (forall b, keeps (k b)) -> keeps (sbind c k).
Proof. intros H1 H2 s. unfold sbind. specialize (H1 s). destruct (c s) as [s' [b|e|]]; cbn [fst] in *; [rewrite <- H1; apply H2|exact H1|exact H1]. Qed.
Lemma keeps_lift {A : Arith} {B} (r : res AhrsError B) : keeps (lift r).
Proof. intros s. reflexivity. Qed.
Lemma keeps_reads {A : Arith} {B} (f : Davenport -> res AhrsError B) : keeps (reads f).
Proof. intros s. reflexivity. Qed.
Lemma keeps_sret {A : Arith} {B} (b : B) : keeps (sret b).
Proof. intros s. reflexivity. Qed.
Lemma keeps_acc {A : Arith} {B} (c : ST Sensor AhrsError B) : keeps (dv_on_acc c).
Proof. intros s. unfold dv_on_acc, zoom. destruct (c (dv_acc s)). reflexivity. Qed.
Lemma keeps_mag {A : Arith} {B} (c : ST Sensor AhrsError B) : keeps (dv_on_mag c).
Proof. intros s. unfold dv_on_mag, zoom. destruct (c (dv_mag s)). reflexivity. Qed.

(*@ C45_attitude *)
(** C45, violation: nor would it help if the sensors could be initialised: from ANY state whatever, reachable or not,
    an update never touches the attitude *)
Lemma l_dv_attitude :
  forall (A : Arith) (s : Davenport) (ax ay az mx my mz : T), dv_attitude (fst (dv_update ax ay az mx my mz s)) = dv_attitude s.
Proof.
  intros A s ax ay az mx my mz. unfold dv_update. destruct (negb (dv_initialized s)); [reflexivity|].
  match goal with |- dv_attitude (fst (?c s)) = _ => enough (K : keeps c) by apply K end.
  repeat (apply keeps_bind; [first [apply keeps_acc|apply keeps_mag|apply keeps_reads|apply keeps_lift]|intros ?]). apply keeps_sret.
Qed.

Lemma dv_example : forall lm, exists s : Davenport (A := F32 lm), dv_hist s Live /\ dv_reach s /\ dv_w2 s = lit (Arith := F32 lm) 1 2.
Proof.
  intros lm. destruct (new_ok (A := F32 lm) Acc) as (g & Eg & _ & Ig).
  assert (E : dv_new (A := F32 lm) = Ok (mkDav (A := F32 lm) g g vnew f1 f1 (lit (Arith := F32 lm) 981 100) f0 false)).
  { unfold dv_new. rewrite Eg. reflexivity. }
  set (q := DInit (A := F32 lm) f1 (lit (Arith := F32 lm) 1 2) None None).
  assert (N : dv_next (A := F32 lm) Fresh q Live).
  { apply dn_init; split; vm_compute; reflexivity. }
  eexists. split; [apply (dh_call _ _ q Live (dh_new _ E) N)|]. split; [apply (dr_call _ q), (dr_new _ E)|].
  pose proof (dv_init_fresh (A := F32 lm) f1 (lit (Arith := F32 lm) 1 2) None None _ (dv_hist_inv _ _ (dh_new _ E))) as W.
  unfold q. cbn [dv_do]. destruct (dv_init _ _ _ _ _) as [s' o]. cbn [fst]. destruct W as [W _].
  inversion N as [|? ? ? ? N1 N2| |]. apply (W (conj N1 N2)).
Qed.
(*@ example *)
(** a live filter, initialised with the weights 1 and 1/2 *)
Example C45_example : forall lm, exists s : Davenport (A := F32 lm), dv_hist s Live /\ dv_reach s /\ dv_w2 s = lit (Arith := F32 lm) 1 2.
Proof. exact dv_example. Qed.
