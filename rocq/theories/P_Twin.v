(** Proofs for the adaptive gain: while the norm of the acceleration is close to the reference, a filter with an
    adaptive gain does exactly what one with a fixed gain does. *)
(*@+*)
From Coq Require Import Reals List Arith Lia Lra.
From Flocq Require Import Core BinarySingleNaN.
From Verif Require Import M_Base M_Arith M_Vector M_Sensors M_Ar M_Aqua M_F32 S_Spec S_Linalg S_Norm S_Quat S_Sensors S_Ar S_Aqua S_F32 S_Reading S_Rest S_Twin P_Inst P_InstF P_Rest32.
Import ListNotations.
Local Open Scope R_scope.
(*@-*)
From Verif Require Import M_Matrix M_Quaternion P_Hoare P_Cont P_Norm P_Sensors P_FErr P_Norm32 P_FAcc P_F32Rot P_Rot P_Float P_Inv32 P_F32Ar P_F32Am P_Am32 P_RestF P_Ar P_Aqua P_AquaG P_Quat P_F32Mul P_F32App P_Product P_MargRun.
Import ListNotations.

Local Open Scope nat_scope.
Section Twin.
  Context {A : Arith} {OK : ArithOk A}.
  Definition put_ad (b : bool) (s : Aqua) : Aqua :=
    mkAqua (aq_mode s) (aq_gyr s) (aq_acc s) (aq_mag s) (aq_attitude s) (aq_ts s) b (aq_alpha s)
      (aq_beta s) (aq_t1 s) (aq_t2 s) (aq_t_acc s) (aq_t_mag s) (aq_g s) (aq_h s) (aq_initialized s).
  Lemma alike_put s s0 : alike s s0 -> s0 = put_ad (aq_adaptive s0) s.
  Proof. unfold alike. intros H. decompose [and] H. destruct s, s0. cbn in *. subst. reflexivity. Qed.
  Lemma put_alike b s : alike s (put_ad b s).
  Proof. unfold alike, put_ad. cbn. repeat split. Qed.

  Definition lift2 (b : bool) (r : Aqua * res AhrsError unit) : Aqua * res AhrsError unit := (put_ad b (fst r), snd r).
  Lemma lift2_sbind b (c : ST Aqua AhrsError unit) k s : c (put_ad b s) = lift2 b (c s) -> (forall s1, snd (c s) = Ok tt -> s1 = fst (c s) -> k tt (put_ad b s1) = lift2 b (k tt s1)) ->
    sbind c k (put_ad b s) = lift2 b (sbind c k s).
  Proof. intros H K. unfold sbind. rewrite H. unfold lift2 in *. destruct (c s) as [s1 [[]|e|]]; cbn [fst snd] in *; auto. Qed.
  Lemma lift2_rthen {X} b (r : res AhrsError X) s k1 k2 : (forall x, r = Ok x -> k1 x = lift2 b (k2 x)) -> rthen r (put_ad b s) k1 = lift2 b (rthen r s k2).
  Proof. intros K. destruct r as [x|e|]; cbn [rthen]; [apply K; reflexivity|reflexivity|reflexivity]. Qed.
  Lemma lift2_on_att b c s : on_att c (put_ad b s) = lift2 b (on_att c s).
  Proof. unfold on_att. change (aq_attitude (put_ad b s)) with (aq_attitude s). destruct (c (aq_attitude s)) as [v o]. reflexivity. Qed.

  Lemma marg_put b a_local m_local temp s p q r :
    sensor_get Gyr 0 (aq_gyr s) = Ok p -> sensor_get Gyr 1 (aq_gyr s) = Ok q -> sensor_get Gyr 2 (aq_gyr s) = Ok r ->
    gain_step s a_local = Ok (aq_alpha s) -> gain_step (put_ad b s) a_local = Ok (aq_alpha s) ->
    aq_update_marg a_local m_local temp (put_ad b s) = lift2 b (aq_update_marg a_local m_local temp s).
  Proof.
    intros Ep Eq Er G G2. rewrite (marg_eq _ _ _ s p q r Ep Eq Er). rewrite (marg_eq _ _ _ (put_ad b s) p q r Ep Eq Er).
    change (aq_attitude (put_ad b s)) with (aq_attitude s). change (aq_ts (put_ad b s)) with (aq_ts s).
    apply lift2_rthen. intros gq _. apply lift2_rthen. intros at' _. rewrite G, G2. cbn [rthen]. cbv zeta.
    change (aq_put_alpha (aq_alpha s) (put_ad b s)) with (put_ad b (aq_put_alpha (aq_alpha s) s)). rewrite put_alpha_same.
    change (aq_t_acc (put_ad b s)) with (aq_t_acc s). apply lift2_rthen. intros ai _. rewrite lift2_on_att.
    destruct (on_att (q_mul gq ai) s) as [s2 o]. unfold lift2 at 1. cbn [fst snd]. destruct o as [[]|e|]; [|reflexivity|reflexivity].
    change (aq_attitude (put_ad b s2)) with (aq_attitude s2). change (aq_beta (put_ad b s)) with (aq_beta s). change (aq_t_mag (put_ad b s)) with (aq_t_mag s).
    apply lift2_rthen. intros mq _. apply lift2_rthen. intros mi _. apply lift2_rthen. intros dup _. apply lift2_on_att.
  Qed.
  Lemma am_put b ax ay az m_local temp s : aq_update_am ax ay az m_local temp (put_ad b s) = lift2 b (aq_update_am ax ay az m_local temp s).
  Proof.
    rewrite !am_eq. apply lift2_rthen. intros aq _. apply lift2_rthen. intros mq _. apply lift2_on_att.
  Qed.
  Lemma end_put b r : st_end (lift2 b r) = lift2 b (st_end r).
  Proof. unfold st_end, lift2. destruct r as [s [[]|e|]]; cbn [fst snd]; [apply lift2_on_att|reflexivity|reflexivity]. Qed.

  Lemma calm_gain s a : (aq_t2 s <=? aq_t1 s)%F = false -> forall al, vec_is al 3 a ->
    (fabs ((nrm 3 a - aq_g s) / aq_g s) <=? aq_t1 s)%F = true -> gain_step s al = Ok (aq_alpha s).
  Proof. intros HT al Hal HE. rewrite (gain_is s al a Hal), HT. unfold new_gain. rewrite HE. destruct (aq_adaptive s); reflexivity. Qed.

  (** what follows the sensors *)
  Definition back (mode : Mode) : ST Aqua AhrsError unit :=
    let! ax := reads (fun s => sensor_get Acc 0 (aq_acc s)) in
    let! ay := reads (fun s => sensor_get Acc 1 (aq_acc s)) in
    let! az := reads (fun s => sensor_get Acc 2 (aq_acc s)) in
    let! a_local := lift (la (vec3 ax ay az)) in
    let! a_local_norm := lift (la (v_calculate_norm a_local)) in
    let! (ax, ay, az) := lift (
      if (a_local_norm >? EPSILON)%F then
        la (let? x := v_get a_local 0 in
            let? y := v_get a_local 1 in
            let? z := v_get a_local 2 in
            Ok (x / a_local_norm, y / a_local_norm, z / a_local_norm)%F)
      else Ok (ax, ay, az)) in
    let! mx := reads (fun s => sensor_get Mag 0 (aq_mag s)) in
    let! my := reads (fun s => sensor_get Mag 1 (aq_mag s)) in
    let! mz := reads (fun s => sensor_get Mag 2 (aq_mag s)) in
    let! m_local := lift (la (vec3 mx my mz)) in
    let! m_local := lift (la (exec v_normalize m_local)) in
    let! temp := lift (la (exec (m_init 3 1) mnew)) in
    match mode with
    | MARG => aq_update_marg a_local m_local temp
    | AM => aq_update_am ax ay az m_local temp
    end ;;!
    aq_on_attitude v_normalize.
  Lemma back_put b mode s a m : (forall i, i < 3 -> valid (a i)) ->
    (forall i, i < 3 -> sensor_get Acc i (aq_acc s) = Ok (a i)) -> (forall i, i < 3 -> sensor_get Mag i (aq_mag s) = Ok (m i)) ->
    (mode = MARG -> exists w, (forall i, i < 3 -> sensor_get Gyr i (aq_gyr s) = Ok (w i)) /\
       (aq_t2 s <=? aq_t1 s)%F = false /\ (fabs ((nrm 3 a - aq_g s) / aq_g s) <=? aq_t1 s)%F = true) ->
    back mode (put_ad b s) = lift2 b (back mode s).
  Proof.
    intros VA GA GM MA. unfold back, reads, lift, sbind.
    change (aq_acc (put_ad b s)) with (aq_acc s). rewrite !GA by lia.
    destruct (vec3_ok (a 0) (a 1) (a 2) ltac:(apply VA; lia) ltac:(apply VA; lia) ltac:(apply VA; lia)) as (al & -> & Hal). rewrite la_Ok.
    destruct (la (v_calculate_norm al)) as [n|e|]; [|reflexivity|reflexivity].
    match goal with |- context [match (if ?b then ?x else ?y) with _ => _ end] => destruct (if b then x else y) as [[[x1 y1] z1]|e|]; [|reflexivity|reflexivity] end.
    change (aq_mag (put_ad b s)) with (aq_mag s). rewrite !GM by lia.
    destruct (la (vec3 (m 0) (m 1) (m 2))) as [ml|e|]; [|reflexivity|reflexivity].
    destruct (la (exec v_normalize ml)) as [ml'|e|]; [|reflexivity|reflexivity].
    destruct (la (exec (m_init 3 1) mnew)) as [t|e|]; [|reflexivity|reflexivity].
    destruct mode.
    - destruct (MA eq_refl) as (w & GG & HT & HE).
      assert (Hal' : vec_is al 3 a).
      { eapply vec_is_ext; [exact Hal|]. intros i Hi. do 3 (destruct i as [|i]; [reflexivity|]). lia. }
      rewrite (marg_put b al ml' t s (w 0) (w 1) (w 2)) by first [apply GG; lia|exact (calm_gain s a HT al Hal' HE)|exact (calm_gain (put_ad b s) a HT al Hal' HE)].
      unfold lift2 at 1. destruct (aq_update_marg al ml' t s) as [s4 [[]|e|]]; cbn [fst snd]; [|reflexivity|reflexivity].
      rewrite !on_att_eq. apply lift2_on_att.
    - rewrite am_put. unfold lift2 at 1. destruct (aq_update_am x1 y1 z1 ml' t s) as [s4 [[]|e|]]; cbn [fst snd]; [|reflexivity|reflexivity].
      rewrite !on_att_eq. apply lift2_on_att.
  Qed.

  Lemma update_put b gx gy gz ax ay az mx my mz s : aq_inv s Live -> calm s (QUpdate gx gy gz ax ay az mx my mz) ->
    aq_update gx gy gz ax ay az mx my mz (put_ad b s) = lift2 b (aq_update gx gy gz ax ay az mx my mz s).
  Proof.
    intros IV CA. pose proof IV as ((R1 & R2 & R3) & I0 & I1 & I2 & I3 & f & Hf). cbn [calm] in CA.
    destruct (get_config_some Acc (aq_acc s) R2 I2) as (ca & Hca). destruct (get_config_some Mag (aq_mag s) R3 I3) as (cm & Hcm).
    unfold aq_update. change (aq_initialized (put_ad b s)) with (aq_initialized s). rewrite I0. cbn [negb]. change (aq_mode (put_ad b s)) with (aq_mode s).
    assert (REST : forall s1, aq_acc s1 = aq_acc s -> aq_mag s1 = aq_mag s ->
      (aq_mode s = MARG -> exists w, (forall i, i < 3 -> sensor_get Gyr i (aq_gyr s1) = Ok (w i)) /\ aq_t1 s1 = aq_t1 s /\ aq_t2 s1 = aq_t2 s /\ aq_g s1 = aq_g s) ->
      (aq_on_acc (sensor_update Acc ax ay az) ;;! aq_on_mag (sensor_update Mag mx my mz) ;;! back (aq_mode s)) (put_ad b s1) =
      lift2 b ((aq_on_acc (sensor_update Acc ax ay az) ;;! aq_on_mag (sensor_update Mag mx my mz) ;;! back (aq_mode s)) s1)).
    { intros s1 EA EM GG. unfold sbind at 1 3. unfold aq_on_acc, zoom. change (aq_acc (put_ad b s1)) with (aq_acc s1). rewrite EA.
      pose proof (sens_wp' Acc (aq_acc s) ca ax ay az R2 Hca) as WA. unfold wp in WA.
      destruct (sensor_update Acc ax ay az (aq_acc s)) as [acc' [[]|e|]]; [|reflexivity|reflexivity]. destruct WA as (_ & FA & WA).
      unfold sbind at 1 2. unfold aq_on_mag, zoom. change (aq_mag (aq_put_acc acc' (put_ad b s1))) with (aq_mag s1). change (aq_mag (aq_put_acc acc' s1)) with (aq_mag s1). rewrite EM.
      pose proof (sens_wp' Mag (aq_mag s) cm mx my mz R3 Hcm) as WM. unfold wp in WM.
      destruct (sensor_update Mag mx my mz (aq_mag s)) as [mag' [[]|e|]]; [|reflexivity|reflexivity]. destruct WM as (_ & _ & WM).
      change (aq_put_mag mag' (aq_put_acc acc' (put_ad b s1))) with (put_ad b (aq_put_mag mag' (aq_put_acc acc' s1))).
      apply (back_put b (aq_mode s) _ (corrected Acc ca (raw3 ax ay az) 3) (corrected Mag cm (raw3 mx my mz) 3)).
      - intros i Hi. apply FA; lia.
      - exact WA.
      - exact WM.
      - intros E. destruct (GG E) as (w & Gw & E1 & E2 & E3). destruct (CA E) as (HT & HE). exists w. split; [exact Gw|].
        change (aq_t1 (aq_put_mag mag' (aq_put_acc acc' s1))) with (aq_t1 s1). change (aq_t2 (aq_put_mag mag' (aq_put_acc acc' s1))) with (aq_t2 s1).
        change (aq_g (aq_put_mag mag' (aq_put_acc acc' s1))) with (aq_g s1). rewrite E1, E2, E3. split; [exact HT|]. exact (HE ca Hca). }
    destruct (aq_mode s) eqn:EMo.
    - destruct gx as [x|], gy as [y|], gz as [z|]; try reflexivity.
      destruct (get_config_some Gyr (aq_gyr s) R1 I1) as (cg & Hcg).
      unfold sbind at 1. symmetry. unfold sbind at 1. symmetry. unfold aq_on_gyr, zoom. change (aq_gyr (put_ad b s)) with (aq_gyr s).
      pose proof (sens_wp' Gyr (aq_gyr s) cg x y z R1 Hcg) as WG. unfold wp in WG.
      destruct (sensor_update Gyr x y z (aq_gyr s)) as [g' [[]|e|]]; [|reflexivity|reflexivity]. destruct WG as (_ & _ & WG).
      change (aq_put_gyr g' (put_ad b s)) with (put_ad b (aq_put_gyr g' s)).
      apply (REST (aq_put_gyr g' s)); [reflexivity|reflexivity|]. intros _. eexists. split; [exact WG|repeat split].
    - apply (REST s); [reflexivity|reflexivity|discriminate].
  Qed.
  Lemma do_put b q s : aq_inv s Live -> calm s q -> aq_do q (put_ad b s) = lift2 b (aq_do q s).
  Proof.
    intros IV CA. destruct q as [a|c|c|c|gx gy gz ax ay az mx my mz]; cbn [aq_do].
    - unfold aq_init_with, aq_init. change (aq_initialized (put_ad b s)) with (aq_initialized s). destruct IV as (_ & -> & _). reflexivity.
    - unfold aq_set_accelerometer_config, aq_on_acc, zoom. change (aq_acc (put_ad b s)) with (aq_acc s). destruct (sensor_set_config Acc c (aq_acc s)) as [x o]. reflexivity.
    - unfold aq_set_gyrometer_config, aq_on_gyr, zoom. change (aq_gyr (put_ad b s)) with (aq_gyr s). destruct (sensor_set_config Gyr c (aq_gyr s)) as [x o]. reflexivity.
    - unfold aq_set_magnetometer_config, aq_on_mag, zoom. change (aq_mag (put_ad b s)) with (aq_mag s). destruct (sensor_set_config Mag c (aq_mag s)) as [x o]. reflexivity.
    - apply update_put; assumption.
  Qed.
  Lemma alpha_do q s : aq_inv s Live -> calm s q -> aq_alpha (fst (aq_do q s)) = aq_alpha s.
  Proof.
    intros IV CA. destruct (aq_do q s) as [s' o] eqn:E. destruct q as [a|c|c|c|gx gy gz ax ay az mx my mz]; cbn [aq_do] in E.
    - unfold aq_init_with, aq_init in E. destruct IV as (_ & I & _). rewrite I in E. injection E as <- <-. reflexivity.
    - unfold aq_set_accelerometer_config, aq_on_acc, zoom in E. destruct (sensor_set_config Acc c (aq_acc s)) as [x o']. injection E as <- <-. reflexivity.
    - unfold aq_set_gyrometer_config, aq_on_gyr, zoom in E. destruct (sensor_set_config Gyr c (aq_gyr s)) as [x o']. injection E as <- <-. reflexivity.
    - unfold aq_set_magnetometer_config, aq_on_mag, zoom in E. destruct (sensor_set_config Mag c (aq_mag s)) as [x o']. injection E as <- <-. reflexivity.
    - pose proof (update_put false gx gy gz ax ay az mx my mz s IV CA) as P. rewrite E in P.
      assert (IV' : aq_inv (put_ad false s) Live) by exact IV.
      pose proof (proj1 (proj2 (update_out gx gy gz ax ay az mx my mz (put_ad false s) IV')) (or_introl eq_refl)) as Q. cbv zeta in Q. rewrite P in Q. exact Q.
  Qed.
  Definition okmap (b : bool) (r : Aqua * res AhrsError unit) : Aqua * res AhrsError unit := match snd r with Ok _ => lift2 b r | _ => r end.
  Lemma okmap_sbind b (c : ST Aqua AhrsError unit) k1 k2 s : (forall s1, k1 tt s1 = okmap b (k2 tt s1)) -> sbind c k1 s = okmap b (sbind c k2 s).
  Proof. intros K. unfold sbind. destruct (c s) as [s1 [[]|e|]]; [apply K|reflexivity|reflexivity]. Qed.
  Lemma hist_do s q : aq_hist s Live -> aq_hist (fst (aq_do q s)) Live.
  Proof.
    intros H. apply (qh_call s Live q Live H). destruct q; [apply qn_again; discriminate| | | |]; apply qn_other; intros [a E]; discriminate.
  Qed.
End Twin.

Local Open Scope R_scope.
(*@ C90_calls *)
(** C90, whatever the arithmetic: as long as no acceleration is farther from the reference than the first threshold, every
    call returns the same on a filter with an adaptive gain and on one with a fixed gain, and leaves the same state *)
Lemma l_twin_calls :
  forall (A : Arith) (OK : ArithOk A) (l : list aq_call) (s s0 : Aqua), aq_hist s Live -> alike s s0 -> all_calm l s ->
  let (s', os) := aq_calls l s in
  let (s0', os0) := aq_calls l s0 in
  os0 = os /\ alike s' s0' /\ aq_alpha s' = aq_alpha s.
Proof.
  intros A OK l. induction l as [|q l IH]; intros s s0 H AL CA; cbn [aq_calls]; [auto|].
  cbn [all_calm] in CA. destruct CA as [C1 C2]. pose proof (aq_hist_inv s Live H) as IV.
  pose proof (hist_do s q H) as H1.
  assert (AA : aq_alpha (fst (aq_do q s)) = aq_alpha s).
  { exact (alpha_do q s IV C1). }
  rewrite (alike_put s s0 AL). rewrite (do_put (aq_adaptive s0) q s IV C1). destruct (aq_do q s) as [s1 o]. unfold lift2. cbn [fst snd] in *.
  pose proof (IH s1 (put_ad (aq_adaptive s0) s1) H1 (put_alike _ s1) C2) as R. destruct (aq_calls l s1) as [s' os]. destruct (aq_calls l (put_ad (aq_adaptive s0) s1)) as [s0' os0].
  destruct R as (-> & R & E). split; [reflexivity|]. split; [exact R|]. rewrite E. exact AA.
Qed.

(*@ C90_start *)
(** C90: two filters initialised with the same good arguments but for the flag are such a pair *)
Lemma l_twin_start :
  forall (A : Arith) (OK : ArithOk A) (s : Aqua) (a : aq_args) (b : bool), aq_hist s Fresh -> args_ok a ->
  let (s1, o1) := aq_init_with a s in
  let (s2, o2) := aq_init_with (with_flag b a) s in
  o1 = Ok tt /\ o2 = Ok tt /\ aq_hist s1 Live /\ aq_hist s2 Live /\ alike s1 s2 /\ aq_adaptive s1 = ia_adaptive a /\ aq_adaptive s2 = b.
Proof.
  intros A OK s a b H OKa. assert (OKb : args_ok (with_flag b a)) by exact OKa.
  pose proof (qh_call s Fresh (QInit a) Live H (qn_init _ OKa)) as H1. pose proof (qh_call s Fresh (QInit (with_flag b a)) Live H (qn_init _ OKb)) as H2. cbn [aq_do] in H1, H2.
  pose proof (l_aq_lifecycle A _ s Fresh H a None None None f0 f0 f0 f0 f0 f0 default_config) as LC. cbv beta iota in LC.
  destruct LC as (_ & _ & _ & _ & _ & _ & _ & _ & LC).
  assert (E : aq_init_with (with_flag b a) s = okmap b (aq_init_with a s)).
  { unfold aq_init_with, aq_init. pose proof (aq_hist_inv s Fresh H) as (_ & I & _). rewrite I. cbn [with_flag ia_mode ia_qw ia_qx ia_qy ia_qz ia_gyr ia_acc ia_mag ia_ts ia_adaptive ia_alpha ia_beta ia_t1 ia_t2 ia_t_acc ia_t_mag ia_g ia_h].
    apply okmap_sbind; intros x1. apply okmap_sbind; intros x2. apply okmap_sbind; intros x3. apply okmap_sbind; intros x4. reflexivity. }
  rewrite E in H2 |- *. destruct (aq_init_with a s) as [s1 o1]. destruct (proj1 LC OKa) as (-> & _ & _ & _ & L & _). unfold okmap in *. cbn [fst snd lift2] in *.
  split; [reflexivity|]. split; [reflexivity|]. split; [exact H1|]. split; [exact H2|]. split; [apply put_alike|]. split; [exact L|reflexivity].
Qed.

Lemma acc_norm32 lm (f : nat -> f32) : (forall i, (i < 3)%nat -> is_finite (f i) = true) ->
  let N := rnorm 3 (fun i => B2R (f i)) in 9 / 10 <= N <= 11 / 10 ->
  exists n : f32, acc_norm (A := F32 lm) f = n /\ is_finite n = true /\ Rabs (B2R n - N) <= / 1000000.
Proof.
  intros F N HN. assert (B60 : 2 <= bpow radix2 60) by (apply Rle_trans with (bpow radix2 1); [cbn; lra|apply bpow_le; lia]).
  destruct (norm_err lm 3 f ltac:(lia) F ltac:(fold N; lra)) as [Fr Er]. fold N in Er.
  set (r := Bsqrt mode_NE (fsum (A := F32 lm) 3 (fun i => Bmult mode_NE (f i) (f i)))) in *.
  assert (Er' : Rabs (B2R r - N) <= / 1000000) by (eapply Rle_trans; [exact Er|unfold u; lra]).
  exists r. split; [|split; [exact Fr|exact Er']].
  change (acc_norm (A := F32 lm) f) with (flush (A := F32 lm) r). apply flush_keep; [exact Fr|]. apply Rabs_le_inv in Er'. lra.
Qed.
Lemma err32 (n g : f32) N G : is_finite n = true -> Rabs (B2R n - N) <= / 1000000 -> 931 / 1000 <= N <= 1069 / 1000 -> is_finite g = true -> B2R g = G -> 1 / 2 <= G <= 10 ->
  let r := Babs (Bdiv mode_NE (Bminus mode_NE n g) g) in is_finite r = true /\ Rabs (B2R r * G - Rabs (N - G)) <= / 100000.
Proof.
  intros Fn Hn HN Fg Eg HG r. unfold r. clear r.
  assert (B127 : 100 <= bpow radix2 127) by (apply Rle_trans with (bpow radix2 7); [cbn; lra|apply bpow_le; lia]).
  assert (Hn2 : 9 / 10 <= B2R n <= 11 / 10) by (apply Rabs_le_inv in Hn; lra).
  destruct (minus_ok n g Fn Fg) as [Fm Em]; [rewrite Eg; apply Rabs_le; lra|]. rewrite Eg in Em.
  destruct (rnd32_err (B2R n - G)) as (e1 & h1 & He1 & Hh1 & R1). rewrite R1 in Em. clear R1.
  pose proof eta_pos as P0. pose proof eta_small as P1. set (d := B2R n - G) in *.
  assert (Hd : Rabs d <= 10) by (unfold d; apply Rabs_le; lra).
  assert (Hm : Rabs (B2R (Bminus mode_NE n g) - d) <= 1 / 1000000).
  { rewrite Em. replace (d * (1 + e1) + h1 - d) with (d * e1 + h1) by ring. eapply Rle_trans; [apply Rabs_triang|]. rewrite Rabs_mult.
    assert (Rabs d * Rabs e1 <= 10 * u) by (apply Rmult_le_compat; auto using Rabs_pos). unfold u in *. lra. }
  set (m := Bminus mode_NE n g) in *. clearbody m.
  assert (Hmb : Rabs (B2R m) <= 11). { replace (B2R m) with (B2R m - d + d) by ring. eapply Rle_trans; [apply Rabs_triang|]. lra. }
  assert (IG : 0 < / G <= 2). { split; [apply Rinv_0_lt_compat; lra|]. replace 2 with (/ (1 / 2)) by lra. apply Rinv_le_contravar; lra. }
  assert (Hq : Rabs (B2R m / G) <= 22). { unfold Rdiv. rewrite Rabs_mult, (Rabs_pos_eq (/ G)) by lra. replace 22 with (11 * 2) by ring. apply Rmult_le_compat; auto using Rabs_pos; lra. }
  destruct (div_ok m g Fm) as [Fq Eq]; [rewrite Eg; lra|rewrite Eg; lra|]. rewrite Eg in Eq.
  destruct (rnd32_err (B2R m / G)) as (e2 & h2 & He2 & Hh2 & R2). rewrite R2 in Eq. clear R2.
  split; [rewrite is_finite_Babs; exact Fq|]. rewrite B2R_Babs, Eq.
  assert (K : forall x, Rabs x * G = Rabs (x * G)) by (intros x'; rewrite Rabs_mult, (Rabs_pos_eq G) by lra; reflexivity).
  rewrite K. replace ((B2R m / G * (1 + e2) + h2) * G) with (B2R m * (1 + e2) + h2 * G) by (field; lra).
  eapply Rle_trans; [apply Rabs_triang_inv2|].
  replace (B2R m * (1 + e2) + h2 * G - (N - G)) with ((B2R m - d) + (B2R n - N) + B2R m * e2 + h2 * G) by (unfold d; ring).
  assert (Rabs (B2R m * e2) <= 11 * u) by (rewrite Rabs_mult; apply Rmult_le_compat; auto using Rabs_pos).
  assert (Rabs (h2 * G) <= eta * 10) by (rewrite Rabs_mult, (Rabs_pos_eq G) by lra; apply Rmult_le_compat; auto using Rabs_pos; lra).
  eapply Rle_trans; [apply Rabs_triang|]. eapply Rle_trans; [apply Rplus_le_compat_r, Rabs_triang|]. eapply Rle_trans; [apply Rplus_le_compat_r, Rplus_le_compat_r, Rabs_triang|].
  unfold u in *. lra.
Qed.
(** what the norm test sees *)
Lemma acc_err lm (c : Config (A := F32 lm)) x y z (a : nat -> R) (g : f32) G : reading (lm := lm) Acc c x y z a -> Rabs (rnorm 3 a - 1) <= 69 / 1000 ->
  is_finite g = true -> B2R g = G -> 1 / 2 <= G <= 10 ->
  exists r : f32, fabs (Arith := F32 lm) (fdiv (Arith := F32 lm) (fsub (Arith := F32 lm) (acc_norm (A := F32 lm) (corrected (A := F32 lm) Acc c (raw3 (A := F32 lm) x y z) 3)) g) g) = r /\
  is_finite r = true /\ Rabs (B2R r * G - Rabs (rnorm 3 a - G)) <= / 100000.
Proof.
  intros (_ & _ & F & E) HN Fg Eg HG. apply Rabs_le_inv in HN.
  pose proof (acc_norm32 lm (corrected (A := F32 lm) Acc c (raw3 (A := F32 lm) x y z) 3)) as K.
  destruct K as (n & -> & Fn & En).
  - intros i Hi. apply (valid_finite lm). apply F; lia.
  - rewrite (rnorm_ext 3 _ a E). lra.
  - rewrite (rnorm_ext 3 _ a E) in En. eexists. split; [reflexivity|]. apply (err32 n g (rnorm 3 a) G Fn En ltac:(lra) Fg Eg HG).
Qed.
Lemma rest_len {lm} (cg ca cm : Config (A := F32 lm)) t h ts e eta mu z : unitq t -> eta <= 19 / 1000 -> resting cg ca cm t h ts e eta mu z ->
  exists a, reading Acc ca (z 3%nat) (z 4%nat) (z 5%nat) a /\ Rabs (rnorm 3 a - 1) <= 69 / 1000.
Proof.
  intros U He (w & a & m & _ & RA & _ & [_ (r & Hr & HA) _ _]). exists a. split; [exact RA|].
  pose proof (vdist_norm a (qrot t (triple 0 0 (- r)))) as V.
  assert (E : rnorm 3 (qrot t (triple 0 0 (- r))) = r).
  { unfold rnorm. rewrite qrot_norm by exact U. apply Rabs_le_inv in Hr. replace (rdot 3 (triple 0 0 (- r)) (triple 0 0 (- r))) with (r * r) by (unfold rdot; cbn; ring). apply sqrt_square. lra. }
  rewrite E in V. replace (rnorm 3 a - 1) with ((rnorm 3 a - r) + (r - 1)) by ring. eapply Rle_trans; [apply Rabs_triang|]. lra.
Qed.

Lemma run_twin lm (s s0 : Aqua (A := F32 lm)) cg ca cm q t ts ka ta kb tm h e eta mu z :
  aq_hist s Live -> alike s s0 -> marg32 s0 cg ca cm q ts ka ta kb tm -> unitq t -> (forall n, resting cg ca cm t h ts e eta mu (z n)) ->
  quiet ka kb h e eta mu -> near_truth q t h -> steady s ->
  forall n, exists s' s0', run_with z n s = Some s' /\ run_with z n s0 = Some s0' /\ aq_hist s' Live /\ alike s' s0' /\ aq_alpha s' = aq_alpha s /\ steady s'.
Proof.
  intros H AL M U R Q NT ST n. induction n as [|n IH]; [exists s, s0; cbn [run_with]; auto 10|].
  destruct IH as (s1 & s01 & R1 & R01 & H1 & AL1 & EA & ST1).
  destruct (l_rest_run lm s0 cg ca cm q t ts ka ta kb tm h e eta mu z M U R Q NT (S n)) as (s02 & q2 & R02 & _ & _).
  destruct (l_rest_run lm s0 cg ca cm q t ts ka ta kb tm h e eta mu z M U R Q NT n) as (s01' & q1 & R01' & M1 & _).
  rewrite R01 in R01'. injection R01' as <-.
  cbn [run_with] in R02. rewrite R01 in R02.
  destruct (update_with (z n) s01) as [sx [[]|er|]] eqn:EX; try discriminate. injection R02 as ->.
  set (call := QUpdate (A := F32 lm) (Some (z n 0%nat)) (Some (z n 1%nat)) (Some (z n 2%nat)) (z n 3%nat) (z n 4%nat) (z n 5%nat) (z n 6%nat) (z n 7%nat) (z n 8%nat)).
  assert (CA : calm s1 call).
  { intros _. destruct ST1 as (Fg & Ft & HT & HG & HB). split; [exact HT|]. intros c Hc.
    assert (c = ca). { pose proof (m32_acc _ _ _ _ _ _ _ _ _ _ M1) as E. destruct AL1 as (_ & _ & E2 & _). unfold aq_get_accelerometer_config in *. rewrite E2, Hc in E. injection E as ->. reflexivity. } subst c.
    destruct (rest_len cg ca cm t h ts e eta mu (z n) U ltac:(apply Q) (R n)) as (a & RA & HA).
    destruct (acc_err lm ca _ _ _ a (aq_g s1) _ RA HA Fg eq_refl ltac:(lra)) as (r & Er & Fr & Hr).
    match goal with |- ?X = true => change (fleb (Arith := F32 lm) (fabs (Arith := F32 lm) (fdiv (Arith := F32 lm) (fsub (Arith := F32 lm) (acc_norm (A := F32 lm) (corrected (A := F32 lm) Acc ca (raw3 (A := F32 lm) (z n 3%nat) (z n 4%nat) (z n 5%nat)) 3)) (aq_g s1)) (aq_g s1))) (aq_t1 s1) = true) end.
    rewrite Er. change (Bleb r (aq_t1 s1 : f32) = true). rewrite Bleb_ok by assumption. apply Rle_bool_true.
    apply Rmult_le_reg_r with (B2R (aq_g s1 : f32)); [lra|]. apply Rabs_le_inv in Hr. apply Rabs_le_inv in HA.
    assert (Rabs (rnorm 3 a - B2R (aq_g s1 : f32)) <= 69 / 1000 + Rabs (B2R (aq_g s1 : f32) - 1)).
    { replace (rnorm 3 a - B2R (aq_g s1 : f32)) with ((rnorm 3 a - 1) + - (B2R (aq_g s1 : f32) - 1)) by ring. eapply Rle_trans; [apply Rabs_triang|]. rewrite Rabs_Ropp.
      assert (Rabs (rnorm 3 a - 1) <= 69 / 1000) by (apply Rabs_le; lra). lra. }
    lra. }
  pose proof (do_put (aq_adaptive s01) call s1 (aq_hist_inv s1 Live H1) CA) as P. rewrite <- (alike_put s1 s01 AL1) in P. cbn [aq_do call] in P.
  unfold update_with in EX. rewrite EX in P. pose proof (alpha_do call s1 (aq_hist_inv s1 Live H1) CA) as PA. cbn [aq_do call] in PA.
  pose proof (hist_do s1 call H1) as H2. cbn [aq_do call] in H2.
  pose proof (l_aq_lifecycle (F32 lm) _ s1 Live H1 (args32 lm MARG None) (Some (z n 0%nat)) (Some (z n 1%nat)) (Some (z n 2%nat)) (z n 3%nat) (z n 4%nat) (z n 5%nat) (z n 6%nat) (z n 7%nat) (z n 8%nat) default_config) as LC. cbv beta iota in LC.
  destruct LC as (_ & _ & LC).
  destruct (aq_update (A := F32 lm) (Some (z n 0%nat)) (Some (z n 1%nat)) (Some (z n 2%nat)) (z n 3%nat) (z n 4%nat) (z n 5%nat) (z n 6%nat) (z n 7%nat) (z n 8%nat) s1) as [s2 o] eqn:E2.
  unfold lift2 in P. cbn [fst snd] in *. injection P as P1 P2. subst o.
  exists s2, s02. cbn [run_with]. rewrite R1, R01. unfold update_with. rewrite E2, EX. split; [reflexivity|]. split; [reflexivity|]. split; [exact H2|].
  split; [rewrite P1; apply put_alike|]. split; [congruence|].
  destruct LC as (_ & SS & _). unfold aq_same_settings in SS. decompose [and] SS. unfold steady in *.
  repeat match goal with E : _ s2 = _ s1 |- _ => rewrite ?E; revert E end. intros. exact ST1.
Qed.

(*@ C90_settles *)
(** C90, at rest in f32: a filter with an adaptive gain settles like one with a fixed gain (C66_settles), and the gain stays as it was,
    provided the reference suits the accelerations the correction needs: those of length about one *)
Lemma l_twin_settles :
  forall (ka kb h d : R), 0 < ka <= 1 -> 0 < kb <= 1 -> 0 < h -> 0 < d ->
  exists N, forall (lm : Libm) (s s0 : Aqua (A := F32 lm)) (cg ca cm : Config (A := F32 lm)) (q t : quat) (ts ta tm e eta mu : R) (z : nat -> nat -> T (Arith := F32 lm)),
  aq_hist s Live -> alike s s0 -> marg32 s0 cg ca cm q ts ka ta kb tm -> unitq t -> (forall n, resting cg ca cm t h ts e eta mu (z n)) ->
  quiet ka kb h e eta mu -> near_truth q t h -> steady s ->
  forall n, (N <= n)%nat -> exists s' v q', run_with z n s = Some s' /\ aq_get_attitude s' = Ok v /\ quat_f v q' /\ Rabs (qnorm q' - 1) < / 1000000 /\
    aq_alpha s' = aq_alpha s /\ tilt_error q' t <= tilt_rest ka e eta + d /\ heading_error q' t <= heading_rest ka kb h e eta mu + d.
Proof.
  intros ka kb h d Hka Hkb Hh Hd. destruct (l_rest_settles ka kb h d Hka Hkb Hh Hd) as (N & K). exists N.
  intros lm s s0 cg ca cm q t ts ta tm e eta mu z H AL M U R Q NT ST n Hn.
  destruct (run_twin lm s s0 cg ca cm q t ts ka ta kb tm h e eta mu z H AL M U R Q NT ST n) as (s' & s0' & R1 & R01 & H1 & AL1 & EA & _).
  destruct (K lm s0 cg ca cm q t ts ta tm e eta mu z M U R Q NT n Hn) as (s0'' & v & q' & R02 & Ev & Qv & Nq & E1 & E2). rewrite R01 in R02. injection R02 as <-.
  exists s', v, q'. split; [exact R1|]. split.
  { rewrite <- Ev, (alike_put _ _ AL1). reflexivity. }
  auto 10.
Qed.

(*@ C90_reference *)
(** C90, violation, whatever libm returns: with the reference that is the default (9.81) such an acceleration switches the gain off: an update
    that succeeds leaves a gain of zero (or NaN), for ever *)
Lemma l_twin_reference :
  forall (lm : Libm) (s : Aqua (A := F32 lm)) (ca : Config (A := F32 lm)), aq_hist s Live -> aq_mode s = MARG -> aq_adaptive s = true ->
  aq_get_accelerometer_config s = Ok ca -> aq_g s = lit (Arith := F32 lm) 981 100 ->
  is_finite (aq_t1 s : f32) = true -> is_finite (aq_t2 s : f32) = true -> B2R (aq_t1 s : f32) <= B2R (aq_t2 s : f32) <= 4 / 5 ->
  forall (gx gy gz : option (T (Arith := F32 lm))) (ax ay az mx my mz : T (Arith := F32 lm)) (a : nat -> R),
  reading Acc ca ax ay az a -> Rabs (rnorm 3 a - 1) <= 69 / 1000 ->
  let (s', o) := aq_update gx gy gz ax ay az mx my mz s in
  o = Ok tt -> forall s2, aq_later s' s2 -> dead_gain (aq_alpha s2).
Proof.
  intros lm s ca H EM AD Hca Eg F1 F2 HT gx gy gz ax ay az mx my mz a RA HA.
  pose proof (l_aq_gain (F32 lm) _ s ca H EM Hca gx gy gz ax ay az mx my mz) as G. cbv zeta in G.
  pose proof (hist_do s (QUpdate gx gy gz ax ay az mx my mz) H) as H1. cbn [aq_do] in H1.
  destruct (aq_update gx gy gz ax ay az mx my mz s) as [s' o]. destruct G as (_ & _ & G). cbn [fst] in H1. intros EO s2 L.
  destruct (proj1 (G AD) EO) as (_ & EA). apply (l_aq_dead lm s' s2 H1); [|exact L]. rewrite EA. clear EA G.
  assert (V : is_finite (aq_g s : f32) = true /\ B2R (aq_g s : f32) = IZR 10286531 * bpow radix2 (-20)) by (rewrite Eg; apply sf_val; vm_compute; reflexivity).
  destruct V as [Fg Vg]. assert (P20 : bpow radix2 (-20) = / 1048576) by (cbn; lra). rewrite P20 in Vg.
  destruct (acc_err lm ca _ _ _ a (aq_g s) _ RA HA Fg Vg ltac:(lra)) as (r & Er & Fr & Hr).
  unfold new_gain. cbv zeta. rewrite Er. apply Rabs_le_inv in HA. apply Rabs_le_inv in Hr.
  rewrite Rabs_left in Hr by lra.
  assert (Br : 85 / 100 <= B2R r) by lra.
  change (fleb (Arith := F32 lm) r (aq_t1 s)) with (Bleb r (aq_t1 s : f32)). change (fltb (Arith := F32 lm) r (aq_t2 s)) with (Bltb r (aq_t2 s : f32)).
  rewrite (Bleb_ok r (aq_t1 s : f32)) by assumption. rewrite (Bltb_ok r (aq_t2 s : f32)) by assumption.
  rewrite Rle_bool_false by lra. rewrite (Rlt_bool_false (B2R r)) by lra. rewrite Bool.andb_false_r. exact I.
Qed.

(** the arguments of C66_example with a reference of one, and with an adaptive gain *)
Definition args_one (lm : Libm) : aq_args (A := F32 lm) :=
  let a := args32 lm MARG (Some default_config) in
  mkArgs (A := F32 lm) (ia_mode a) (ia_qw a) (ia_qx a) (ia_qy a) (ia_qz a) (ia_gyr a) (ia_acc a) (ia_mag a) (ia_ts a) (ia_adaptive a)
    (ia_alpha a) (ia_beta a) (ia_t1 a) (ia_t2 a) (ia_t_acc a) (ia_t_mag a) (Some (f1 (A := F32 lm))) (ia_h a).
Lemma rest_ex_one : forall lm, exists (s s0 : Aqua (A := F32 lm)) ts ka ta kb tm,
  aq_hist s Live /\ aq_adaptive s = true /\ aq_adaptive s0 = false /\ alike s s0 /\ steady s /\
  marg32 s0 default_config default_config default_config qone ts ka ta kb tm /\ unitq ex_t /\
  resting (lm := lm) default_config default_config default_config ex_t (3 / 5) ts 0 0 0 (ex_z lm) /\
  quiet ka kb (3 / 5) 0 0 0 /\ near_truth qone ex_t (3 / 5) /\ heading_error qone ex_t = 9 / 41 /\
  99 / 10000 <= ka < 2 / 100 /\ 99 / 10000 <= kb.
Proof.
  intros lm. destruct (rest_ex_h lm) as (sx & tsx & kax & tax & kbx & tmx & _ & U & RS & _ & NT & HE & _).
  destruct (new_ok (A := F32 lm) Gyr) as (g & Eg & _ & Ig).
  assert (N : exists s0, aq_new (A := F32 lm) = Ok s0) by (unfold aq_new; rewrite Eg; cbn [rbind]; eauto). destruct N as (s0 & N).
  pose proof (qh_new (A := F32 lm) s0 N) as H0. set (ar := args_one lm).
  assert (OKa : args_ok ar).
  { split; [intros _; exists default_config; split; [reflexivity|apply default_finite]|]. split; [apply default_finite|]. split; [apply default_finite|]. left. split; [reflexivity|]. split; [reflexivity|]. split; reflexivity. }
  pose proof (l_twin_start (F32 lm) _ s0 ar true H0 OKa) as TW.
  pose proof (qh_call s0 Fresh (QInit ar) Live H0 (qn_init _ OKa)) as HL. cbn [aq_do] in HL.
  pose proof (l_aq_lifecycle (F32 lm) _ s0 Fresh H0 ar None None None f0 f0 f0 f0 f0 f0 default_config) as LC. cbv beta iota in LC.
  destruct LC as (_ & _ & _ & _ & _ & _ & _ & _ & LC). destruct (aq_init_with ar s0) as [s' o]. destruct (aq_init_with (with_flag true ar) s0) as [s2 o2].
  destruct TW as (_ & _ & _ & H2 & AL & F1' & F2'). cbn [fst] in HL.
  destruct (proj1 LC OKa) as (_ & (v & Ev & Hv) & L1 & L2 & L3 & L4 & L5 & L11 & L12 & L6 & L7 & L13 & _ & L8 & L9 & L10). clear LC.
  destruct (L8 eq_refl) as (c & Ec & Gc). injection Ec as <-.
  set (k1 := lit (Arith := F32 lm) 1 100 : f32) in *. set (k9 := lit (Arith := F32 lm) 9 10 : f32).
  assert (V1 : is_finite k1 = true /\ B2R k1 = IZR 10737418 * bpow radix2 (-30)) by (apply sf_val; vm_compute; reflexivity).
  assert (V9 : is_finite k9 = true /\ B2R k9 = IZR 15099494 * bpow radix2 (-24)) by (apply sf_val; vm_compute; reflexivity).
  destruct V1 as [F1 E1]. destruct V9 as [F9 E9].
  assert (P30 : bpow radix2 (-30) = / 1073741824) by (cbn; lra). assert (P24 : bpow radix2 (-24) = / 16777216) by (cbn; lra). rewrite P30 in E1. rewrite P24 in E9.
  exists s2, s', (B2R k1), (B2R k1), (B2R k9), (B2R k1), (B2R k9).
  assert (B1 : 99 / 10000 <= B2R k1 <= 101 / 10000) by (rewrite E1; lra). assert (B9 : 8 / 10 <= B2R k9 <= 9 / 10) by (rewrite E9; lra).
  split; [exact H2|]. split; [exact F2'|]. split; [exact F1'|].
  assert (AL' : alike s2 s') by (unfold alike in AL |- *; decompose [and] AL; repeat split; congruence). split; [exact AL'|].
  split.
  { unfold alike in AL. destruct AL as (_ & _ & _ & _ & _ & _ & _ & _ & A1 & A2 & _ & _ & A3 & _). unfold steady. rewrite A1, A2, A3, L11, L12, L13.
    assert (V : is_finite (ia_t1 ar : f32) = true /\ B2R (ia_t1 ar : f32) = IZR 13421773 * bpow radix2 (-27)) by (apply sf_val; vm_compute; reflexivity).
    destruct V as [V1 V2]. assert (P27 : bpow radix2 (-27) = / 134217728) by (cbn; lra). rewrite P27 in V2.
    change (unwrap_or (ia_g ar) (aq_g s0)) with (f1 (A := F32 lm)). rewrite (B2R_f1 lm). split; [reflexivity|]. split; [exact V1|]. split; [vm_compute; reflexivity|].
    rewrite V2, Rminus_diag_eq, Rabs_R0 by reflexivity. lra. }
  split.
  { constructor; try assumption; try lra; try (rewrite ?L2, ?L4, ?L5, ?L6, ?L7; first [exact (conj F1 eq_refl)|exact (conj F9 eq_refl)]).
    + exists v. split; [exact Ev|]. pose proof (quat_f_of lm v _ Hv) as Q.
      pose proof (z32_R 1 ltac:(lia)) as [_ Z1]. match type of Q with quat_f _ ?X => replace qone with X; [exact Q|] end. apply quat_eta; [exact Z1|reflexivity|reflexivity|reflexivity].
    + replace (qnorm qone) with 1 by (symmetry; apply unit_norm; unfold unitq, qnorm2; cbn; ring). rewrite Rminus_diag_eq, Rabs_R0 by reflexivity. lra.
    + rewrite Rabs_pos_eq; lra. }
  split; [exact U|]. split.
  { destruct RS as (w & a & m & RG & RA & RM & [[G1 G2] G3 G4 G5]). exists w, a, m. split; [exact RG|]. split; [exact RA|]. split; [exact RM|]. constructor; try assumption. split; [|exact G2].
    assert (W0 : rnorm 3 w = 0).
    { rewrite (rnorm_ext 3 w (triple 0 0 0)); [apply norm_tri; lra|]. intros i Hi. destruct RG as (_ & _ & _ & RG). rewrite <- RG by exact Hi. destruct (r_gyr_ex lm) as (_ & _ & _ & K). rewrite <- K by exact Hi. reflexivity. }
    rewrite W0. lra. }
  split; [unfold quiet, tilt_drift, heading_drift; repeat split; lra|]. split; [exact NT|]. split; [exact HE|]. split; lra.
Qed.
(*@ example *)
(** a filter with an adaptive gain and reference 1, its twin with a fixed gain, and measurements at rest *)
Example C90_example : forall lm, exists (s s0 : Aqua (A := F32 lm)) ts ka ta kb tm,
  aq_hist s Live /\ aq_adaptive s = true /\ aq_adaptive s0 = false /\ alike s s0 /\ steady s /\
  marg32 s0 default_config default_config default_config qone ts ka ta kb tm /\ unitq ex_t /\
  resting (lm := lm) default_config default_config default_config ex_t (3 / 5) ts 0 0 0 (ex_z lm) /\
  quiet ka kb (3 / 5) 0 0 0 /\ near_truth qone ex_t (3 / 5) /\ heading_error qone ex_t = 9 / 41 /\
  99 / 10000 <= ka < 2 / 100 /\ 99 / 10000 <= kb.
Proof. exact rest_ex_one. Qed.

(*@ C90_default_refuted *)
(** C90, violation, whatever libm returns: a new filter with an adaptive gain, the default reference and an acceleration of length one straight down: the
    update succeeds, and the gain is zero from then on *)
Lemma l_twin_default :
  forall (lm : Libm), exists (s : Aqua (A := F32 lm)) (x y w : T (Arith := F32 lm)), aq_hist s Live /\ aq_mode s = MARG /\ aq_adaptive s = true /\
  aq_g s = lit (Arith := F32 lm) 981 100 /\ fltb (f0 (A := F32 lm)) (aq_alpha s) = true /\ aq_get_accelerometer_config s = Ok default_config /\
  reading Acc default_config x x y (triple 0 0 (-1)) /\
  let (s', o) := aq_update (Some x) (Some x) (Some x) x x y w x x s in
  o = Ok tt /\ forall s2, aq_later s' s2 -> dead_gain (aq_alpha s2).
Proof.
  intros lm. destruct (aq_new_ok lm) as (s & E). destruct (hist_init lm s (adapt32 lm) E (adapt32_ok lm)) as (H1 & M1 & A1 & _). destruct (adapt32_settings lm s E) as (S1 & S2 & S3 & S4).
  assert (EG : aq_g (fst (aq_init_with (adapt32 lm) s)) = lit (Arith := F32 lm) 981 100).
  { pose proof (l_aq_lifecycle (F32 lm) _ s Fresh (qh_new s E) (adapt32 lm) None None None f0 f0 f0 f0 f0 f0 default_config) as LC. cbv beta iota in LC.
    destruct LC as (_ & _ & _ & _ & _ & _ & _ & _ & LC). destruct (aq_init_with (adapt32 lm) s) as [s' o]. destruct (proj1 LC (adapt32_ok lm)) as (_ & _ & _ & _ & _ & _ & _ & _ & _ & _ & _ & LG & _).
    cbn [fst]. rewrite LG. destruct (new_ok (A := F32 lm) Gyr) as (g & Eg & _ & _).
    assert (EQ : match aq_new (A := F32 lm) with Ok s => aq_g s = lit (Arith := F32 lm) 981 100 | _ => True end) by (unfold aq_new; rewrite Eg; reflexivity).
    rewrite E in EQ. exact EQ. }
  assert (F : match aq_new (A := F32 lm) with
              | Ok s => let s1 := fst (aq_init_with (adapt32 lm) s) in
                        let r1 := aq_update (A := F32 lm) (Some (z32 0)) (Some (z32 0)) (Some (z32 0)) (z32 0) (z32 0) (z32 (-1)) (z32 1) (z32 0) (z32 0) s1 in
                        gain_sign s1 = 2%nat /\ snd r1 = Ok tt /\ gain_sign (fst r1) = 1%nat | _ => False end)
    by (vm_compute; repeat split).
  rewrite E in F. cbv zeta in F. set (s1 := fst (aq_init_with (adapt32 lm) s)) in *. clearbody s1. destruct F as (F1 & F2 & F3).
  exists s1, (z32 0), (z32 (-1)), (z32 1). split; [exact H1|]. split; [exact M1|]. split; [exact S1|]. split; [exact EG|]. split; [apply (gain_sign_pos lm s1 F1)|]. split; [exact A1|].
  split; [exact (r_acc_ex lm)|].
  match goal with |- (let (_, _) := ?X in _) => change X with (aq_update (A := F32 lm) (Some (z32 0)) (Some (z32 0)) (Some (z32 0)) (z32 0) (z32 0) (z32 (-1)) (z32 1) (z32 0) (z32 0) s1) end.
  destruct (aq_update (A := F32 lm) (Some (z32 0)) (Some (z32 0)) (Some (z32 0)) (z32 0) (z32 0) (z32 (-1)) (z32 1) (z32 0) (z32 0) s1) as [s' o] eqn:EU. cbn [fst snd] in *.
  split; [exact F2|]. intros s2 L. eapply (l_aq_dead lm); [|exact (gain_sign_zero lm _ F3)|exact L].
  replace s' with (fst (aq_do (QUpdate (A := F32 lm) (Some (z32 0)) (Some (z32 0)) (Some (z32 0)) (z32 0) (z32 0) (z32 (-1)) (z32 1) (z32 0) (z32 0)) s1)) by (cbn [aq_do]; rewrite EU; reflexivity). apply hist_do; exact H1.
Qed.

Lemma calm_ex : forall lm, exists (s : Aqua (A := F32 lm)) (q : aq_call (A := F32 lm)), aq_hist s Live /\ aq_mode s = MARG /\ aq_adaptive s = true /\
  ~ is_init q /\ snd (aq_do q s) = Ok tt /\ all_calm [q] s.
Proof.
  intros lm. destruct (aq_new_ok lm) as (s & E). destruct (hist_init lm s (adapt32 lm) E (adapt32_ok lm)) as (H1 & M1 & A1 & _). destruct (adapt32_settings lm s E) as (S1 & S2 & S3 & S4).
  set (l x := lit (Arith := F32 lm) x 100). set (q := QUpdate (A := F32 lm) (Some (l 0%Z)) (Some (l 0%Z)) (Some (l 0%Z)) (l 0%Z) (l 0%Z) (l (-981)%Z) (l 100%Z) (l 0%Z) (l 0%Z)).
  assert (F : match aq_new (A := F32 lm) with
              | Ok s => let s1 := fst (aq_init_with (adapt32 lm) s) in snd (aq_do q s1) = Ok tt /\
                        fleb (Arith := F32 lm) (aq_t2 s1) (aq_t1 s1) = false /\
                        fleb (Arith := F32 lm) (fabs (Arith := F32 lm) (fdiv (Arith := F32 lm) (fsub (Arith := F32 lm) (acc_norm (A := F32 lm) (corrected (A := F32 lm) Acc default_config (raw3 (A := F32 lm) (l 0%Z) (l 0%Z) (l (-981)%Z)) 3)) (aq_g s1)) (aq_g s1))) (aq_t1 s1) = true
              | _ => False end)
    by (vm_compute; repeat split).
  rewrite E in F. cbv zeta in F. set (s1 := fst (aq_init_with (adapt32 lm) s)) in *. clearbody s1. destruct F as (F1 & F2 & F3).
  exists s1, q. split; [exact H1|]. split; [exact M1|]. split; [exact S1|]. split; [intros (a & X); discriminate X|]. split; [exact F1|]. split; [|exact I].
  intros _. split; [exact F2|]. intros ca Hca. rewrite A1 in Hca. injection Hca as <-. exact F3.
Qed.
(*@ example *)
(** an update with an acceleration of 9.81 that leaves the adaptive gain of a new filter alone *)
Example C90_example_calm : forall lm, exists (s : Aqua (A := F32 lm)) (q : aq_call (A := F32 lm)), aq_hist s Live /\ aq_mode s = MARG /\ aq_adaptive s = true /\
  ~ is_init q /\ snd (aq_do q s) = Ok tt /\ all_calm [q] s.
Proof. exact calm_ex. Qed.
