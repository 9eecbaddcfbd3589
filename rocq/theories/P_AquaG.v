(** C49, C51: the adaptive gain and the norm of the attitude of the Aqua filter. *)
(*@+*)
From Coq Require Import List Arith ZArith NArith Reals Lia Bool Lra SpecFloat.
From Flocq Require Import Core BinarySingleNaN.
From Verif Require Import M_Base M_Arith M_Utils M_Vector M_Matrix M_Quaternion M_Sensors M_Ar M_Aqua M_F32 M_RX
  S_Spec S_Linalg S_Norm S_Quat S_Sensors S_Ar S_Aqua P_Inst.
Import ListNotations.
Local Open Scope nat_scope.
(*@-*)
From Verif Require Import P_Hoare P_Cont P_Loops P_Access P_Pointwise P_Trans P_Float P_Product P_Diag P_Quat P_Rot P_Norm P_Sensors P_FErr P_Norm32 P_Ar P_Aqua.

Section Alpha.
  Context {A : Arith} {OK : ArithOk A}.
  Definition al_ok (s : Aqua) (g : res AhrsError T) (r : Aqua * res AhrsError unit) : Prop :=
    (snd r = Ok tt -> g = Ok (aq_alpha (fst r)) /\ in_range (aq_alpha (fst r)) f0 f1 = true) /\
    (aq_alpha (fst r) = aq_alpha s \/ g = Ok (aq_alpha (fst r))).
  Lemma on_att_alpha c s : aq_alpha (fst (on_att c s)) = aq_alpha s.
  Proof. unfold on_att. destruct (c (aq_attitude s)) as [v o]. reflexivity. Qed.
  Lemma interp_range q al t v f : vec_is q 4 f -> aq_interpolate q al t = Ok v -> in_range al f0 f1 = true.
  Proof. intros H E. pose proof (interpolate_rwp q al t f H) as W. rewrite E in W. apply W. Qed.
  Lemma rthen_alpha {X} (x : res AhrsError X) s s0 g k : (aq_alpha s = aq_alpha s0 \/ g = Ok (aq_alpha s)) -> (forall y, x = Ok y -> al_ok s0 g (k y)) -> al_ok s0 g (rthen x s k).
  Proof. intros H K. unfold rthen. destruct x as [y|e|]; [apply K; reflexivity| |]; (split; cbn [fst snd]; [intros E; discriminate E|exact H]). Qed.
  Lemma marg_alpha al ml t s p q r a : sensor_get Gyr 0 (aq_gyr s) = Ok p -> sensor_get Gyr 1 (aq_gyr s) = Ok q -> sensor_get Gyr 2 (aq_gyr s) = Ok r ->
    vec_is al 3 a -> al_ok s (gain_step s al) (aq_update_marg al ml t s).
  Proof.
    intros Ep Eq Er Ha. rewrite (marg_eq al ml t s p q r Ep Eq Er).
    apply rthen_alpha; [left; reflexivity|]. intros gq Egq. apply rthen_alpha; [left; reflexivity|]. intros [aq t'] Eaq. cbn [fst snd].
    apply rthen_alpha; [left; reflexivity|]. intros alp Ealp. rewrite Ealp. cbv zeta.
    apply rthen_alpha; [right; reflexivity|]. intros ai Eai.
    assert (R : in_range alp f0 f1 = true).
    { unfold st_acc in Eaq. destruct (la (to_global gq al t)) as [[ag t2]|e|]; cbn [rbind] in Eaq; [|discriminate Eaq|discriminate Eaq].
      destruct (la (v_get ag 0)) as [gx|e|]; cbn [rbind] in Eaq; [|discriminate Eaq|discriminate Eaq].
      destruct (la (v_get ag 1)) as [gy|e|]; cbn [rbind] in Eaq; [|discriminate Eaq|discriminate Eaq].
      destruct (la (v_get ag 2)) as [gz|e|]; cbn [rbind] in Eaq; [|discriminate Eaq|discriminate Eaq].
      destruct (acc_quat_of gx gy gz) as [[[q0 q1] q2] q3]. pose proof (quat4_ok q0 q1 q2 q3) as Q4.
      destruct (quat4 (q0, q1, q2, q3)) as [v|e|]; cbn [rwp] in Q4; [|discriminate Eaq|tauto]. rewrite la_Ok in Eaq. cbn [rbind] in Eaq. injection Eaq as <- <-.
      eapply interp_range; [apply Q4|exact Eai]. }
    assert (F : forall r, aq_alpha (fst r) = alp -> al_ok s (Ok alp) r).
    { intros [s' o] E. cbn [fst] in E. unfold al_ok. cbn [fst snd]. rewrite E. auto. }
    apply F. destruct (on_att (q_mul gq ai) (aq_put_alpha alp s)) as [s2 o] eqn:E2.
    assert (A2 : aq_alpha s2 = alp). { pose proof (on_att_alpha (q_mul gq ai) (aq_put_alpha alp s)) as X. rewrite E2 in X. exact X. }
    destruct o as [[]|e|]; [|exact A2|exact A2]. unfold rthen. destruct (st_mag _ _ _ _) as [mq|e|]; [|exact A2|exact A2].
    destruct (aq_interpolate mq _ _) as [mi|e|]; [|exact A2|exact A2]. destruct (la (v_duplicate _)) as [dup|e|]; [|exact A2|exact A2]. rewrite on_att_alpha. exact A2.
  Qed.
  Lemma end_alpha s g r : al_ok s g r -> al_ok s g (st_end r).
  Proof.
    intros [H1 H2]. destruct r as [s1 [[]|e|]]; cbn [st_end]; [|split; [intros E; discriminate E|exact H2]|split; [intros E; discriminate E|exact H2]].
    cbn [fst snd] in *. unfold al_ok. rewrite on_att_alpha. split; [auto|exact H2].
  Qed.
  Lemma update_alpha gx gy gz ax ay az mx my mz s ca : aq_inv s Live -> aq_mode s = MARG -> aq_get_accelerometer_config s = Ok ca ->
    let a := corrected Acc ca (raw3 ax ay az) 3 in
    al_ok s (if aq_adaptive s then if (aq_t2 s <=? aq_t1 s)%F then Err InvalidAdaptiveGainTresholds
                                   else Ok (new_gain (aq_t1 s) (aq_t2 s) (aq_g s) (aq_alpha s) (acc_norm a))
             else Ok (aq_alpha s)) (aq_update gx gy gz ax ay az mx my mz s).
  Proof.
    intros IV EM Ha a. pose proof IV as ((R1 & R2 & R3) & I0 & I1 & I2 & I3 & _). destruct (get_config_some Mag _ R3 I3) as (cm & Hm).
    pose proof (update_split gx gy gz ax ay az mx my mz s ca cm IV Ha Hm) as U. cbv zeta in U. fold a in U.
    destruct U as [(_ & _ & _ & _ & ->)|[(_ & _ & _ & ->)|[(s' & e & -> & U & K & EA & EL & _)|(s3 & K & EA & EL & GR & FA & FM & ->)]]].
    - split; [intros E; discriminate E|left; reflexivity].
    - split; [intros E; discriminate E|left; reflexivity].
    - split; [intros E; discriminate E|left; exact EL].
    - assert (VA : forall i, i < 3 -> valid (a i)) by (intros i Hi; apply FA; lia).
      assert (VM : forall i, i < 3 -> valid (corrected Mag cm (raw3 mx my mz) 3 i)) by (intros i Hi; apply FM; lia).
      pose proof K as (IV3 & SS & SC). pose proof (loc_rwp _ _ VA VM) as L.
      apply rthen_alpha; [left; exact EL|]. intros [[[a3 al] ml] t] E. rewrite E in L. cbn [rwp] in L. destruct L as (-> & Hal & Hml & gt & Ht).
      apply end_alpha. rewrite EM. unfold st_mode. destruct (a_unit a) as [[x y] z]. unfold gyr_ready in GR. rewrite EM in GR.
      destruct GR as (x1 & y1 & z1 & cg & _ & _ & _ & _ & FG & Hg).
      pose proof (marg_alpha al ml t s3 _ _ _ a (Hg 0 ltac:(lia)) (Hg 1 ltac:(lia)) (Hg 2 ltac:(lia)) Hal) as M.
      rewrite (gain_is s3 al a Hal) in M. destruct SS as (_ & _ & E1 & _ & E2 & E3 & _ & _ & E4 & _). rewrite E1, E2, E3, E4, EL in M.
      unfold al_ok in *. rewrite EL in M. exact M.
  Qed.
End Alpha.

(*@ C49_gain *)
(** C49, for every arithmetic and after any history, mode MARG.  A successful update leaves a gain in [0, 1].  With an adaptive gain it is the one
    of the formula [new_gain] (with the thresholds in increasing order); a failed update leaves the old gain or
    already the new one.  Without an adaptive gain the gain is the one given to [init], and updates only succeed if it is in [0, 1]. *)
Lemma l_aq_gain :
  forall (A : Arith) (OK : ArithOk A) (s : Aqua) (ca : Config), aq_hist s Live -> aq_mode s = MARG -> aq_get_accelerometer_config s = Ok ca ->
  forall (gx gy gz : option T) (ax ay az mx my mz : T),
  let n := acc_norm (corrected Acc ca (raw3 ax ay az) 3) in
  let new := new_gain (aq_t1 s) (aq_t2 s) (aq_g s) (aq_alpha s) n in
  let (s', o) := aq_update gx gy gz ax ay az mx my mz s in
  (o = Ok tt -> fleb f0 (aq_alpha s') = true /\ fleb (aq_alpha s') f1 = true) /\
  (aq_adaptive s = false -> aq_alpha s' = aq_alpha s) /\
  (aq_adaptive s = true -> (o = Ok tt -> fleb (aq_t2 s) (aq_t1 s) = false /\ aq_alpha s' = new) /\
     (o <> Ok tt -> aq_alpha s' = aq_alpha s \/ aq_alpha s' = new)).
Proof.
  intros A OK s ca H EM Ha gx gy gz ax ay az mx my mz n new. pose proof (aq_hist_inv _ _ H) as IV.
  pose proof (update_alpha gx gy gz ax ay az mx my mz s ca IV EM Ha) as U. cbv zeta in U. fold n in U. fold new in U.
  pose proof (update_out gx gy gz ax ay az mx my mz s IV) as L. cbv zeta in L.
  destruct (aq_update gx gy gz ax ay az mx my mz s) as [s' o]. cbn [fst snd] in *. destruct U as [U1 U2]. cbn [fst snd] in *. destruct L as (_ & L & _).
  split. { intros E. destruct (U1 E) as [_ R]. unfold in_range in R. apply andb_prop in R. exact R. }
  split; [auto|]. intros Ad. rewrite Ad in *. split.
  - intros E. destruct (U1 E) as [X _]. destruct (fleb (aq_t2 s) (aq_t1 s)); [discriminate X|]. injection X as X. auto.
  - intros _. destruct U2 as [U2|U2]; [auto|]. destruct (fleb (aq_t2 s) (aq_t1 s)); [discriminate U2|]. injection U2 as U2. auto.
Qed.

(*@ C51_unit *)
(** C51, for every libm and after any history, in either mode: after a successful update the attitude has a norm within 1e-6 of 1 - or is zero *)
Lemma l_aq_unit :
  forall (lm : Libm) (s : Aqua (A := F32 lm)), aq_hist s Live ->
  forall (gx gy gz : option (T (Arith := F32 lm))) (ax ay az mx my mz : T (Arith := F32 lm)),
  let (s', o) := aq_update gx gy gz ax ay az mx my mz s in
  o = Ok tt -> exists v g, aq_get_attitude s' = Ok v /\ vec_is (A := F32 lm) v 4 g /\ good g.
Proof.
  intros lm s H gx gy gz ax ay az mx my mz. pose proof (aq_hist_inv _ _ H) as IV.
  pose proof (update_out gx gy gz ax ay az mx my mz s IV) as U. cbv zeta in U. destruct (aq_update gx gy gz ax ay az mx my mz s) as [s' o]. cbn [fst snd] in U.
  destruct U as ((L & _) & _ & U). intros ->. destruct U as (v & f & Hv & EN & _).
  destruct (l_normalize_total lm v 4 f Hv) as (v' & g & E & Hg & G).
  assert (EV : v' = aq_attitude s') by congruence. rewrite EV in Hg.
  unfold aq_get_attitude. destruct L as (_ & -> & _). cbn [negb]. destruct (v_duplicate_ok _ _ _ Hg) as (w & -> & Hw). exists w, g. split; [reflexivity|]. split; [exact Hw|exact G].
Qed.

(*@ C51_history *)
(** C51: if the attitude is unit (or zero) - in particular if the filter was initialised with a unit quaternion - it stays so along every further
    history of calls in which no update fails *)
Lemma l_aq_history :
  forall (lm : Libm) (s0 s : Aqua (A := F32 lm)) (f : nat -> f32), aq_hist s0 Live -> vec_is (A := F32 lm) (aq_attitude s0) 4 f -> good f -> aq_smooth lm s0 s ->
  exists v g, aq_get_attitude s = Ok v /\ vec_is (A := F32 lm) v 4 g /\ good g.
Proof.
  intros lm s0 s f H Hf G L.
  assert (K : aq_hist s Live /\ exists g, vec_is (A := F32 lm) (aq_attitude s) 4 g /\ good g).
  { induction L as [|s q L (IH & g & Hg & Gg) N|s gx gy gz ax ay az mx my mz L (IH & g & Hg & Gg) Hok].
    - eauto.
    - split.
      + apply (qh_call s Live q Live IH). destruct q as [a|c|c|c|gx gy gz ax ay az mx my mz]; [apply qn_again; discriminate| | | |]; (apply qn_other; intros (a & X); discriminate X).
      + exists g. split; [|exact Gg]. pose proof (aq_hist_inv _ _ IH) as IV. destruct q as [a|c|c|c|gx gy gz ax ay az mx my mz].
        * cbn [aq_do]. rewrite aq_init_live by exact IV. exact Hg.
        * destruct (aq_set_inv s Live Acc c IV) as (_ & X & _). rewrite X. exact Hg.
        * destruct (aq_set_inv s Live Gyr c IV) as (_ & X & _). rewrite X. exact Hg.
        * destruct (aq_set_inv s Live Mag c IV) as (_ & X & _). rewrite X. exact Hg.
        * exfalso. eapply N. reflexivity.
    - split.
      + apply (qh_call s Live (QUpdate gx gy gz ax ay az mx my mz) Live IH). apply qn_other. intros (a & X). discriminate X.
      + pose proof (l_aq_unit lm s IH gx gy gz ax ay az mx my mz) as U.
        pose proof (update_out gx gy gz ax ay az mx my mz s (aq_hist_inv _ _ IH)) as ((L' & _) & _).
        destruct (aq_update gx gy gz ax ay az mx my mz s) as [s' o]. cbn [fst snd] in *. destruct (U Hok) as (v & g' & E & Hv & G').
        destruct (aq_get_attitude_live s' L') as (v' & f' & E' & H1 & H2). assert (EV : v' = v) by congruence. subst v'.
        exists g'. split; [|exact G']. eapply vec_is_ext; [exact H1|]. intros i Hi. rewrite (vec_is_eq _ _ _ i H2 Hi), <- (vec_is_eq _ _ _ i Hv Hi). reflexivity. }
  destruct K as (K & g & Hg & Gg). destruct (aq_hist_inv _ _ K) as (_ & I0 & _). unfold aq_get_attitude. rewrite I0. cbn [negb].
  destruct (v_duplicate_ok _ _ _ Hg) as (v & -> & Hv). exists v, g. auto.
Qed.

(*@ C49_negative *)
(** C49, for every arithmetic: a gain that is not >= 0 (negative or NaN) makes every update with an undisturbed acceleration fail, and stays *)
Lemma l_aq_negative :
  forall (A : Arith) (OK : ArithOk A) (s : Aqua) (ca : Config), aq_hist s Live -> aq_mode s = MARG -> aq_adaptive s = true ->
  aq_get_accelerometer_config s = Ok ca -> fleb f0 (aq_alpha s) = false ->
  forall (gx gy gz : option T) (ax ay az mx my mz : T),
  let n := acc_norm (corrected Acc ca (raw3 ax ay az) 3) in
  fleb (fabs ((n - aq_g s) / aq_g s)%F) (aq_t1 s) = true ->
  let (s', o) := aq_update gx gy gz ax ay az mx my mz s in o <> Ok tt /\ aq_alpha s' = aq_alpha s.
Proof.
  intros A OK s ca H EM Ad Ha N gx gy gz ax ay az mx my mz n E. pose proof (l_aq_gain A OK s ca H EM Ha gx gy gz ax ay az mx my mz) as U. cbv zeta in U. fold n in U.
  destruct (aq_update gx gy gz ax ay az mx my mz s) as [s' o]. destruct U as (U1 & _ & U2). destruct (U2 Ad) as [U3 U4]. clear U2.
  unfold new_gain in *. rewrite E in *.
  assert (X : o <> Ok tt). { intros ->. destruct (U1 eq_refl) as [U5 _]. destruct (U3 eq_refl) as [_ U6]. congruence. }
  split; [exact X|]. destruct (U4 X); auto.
Qed.

(** *** the gain in f32 *)
Lemma dead_mult (x y : f32) : dead_gain x -> dead_gain (Bmult mode_NE x y).
Proof. destruct x as [sx|sx| |sx mx ex Bx]; cbn; try tauto; destruct y as [sy|sy| |sy my ey By]; cbn; tauto. Qed.
Lemma dead_div (x y : f32) : dead_gain x -> dead_gain (Bdiv mode_NE x y).
Proof. destruct x as [sx|sx| |sx mx ex Bx]; cbn; try tauto; destruct y as [sy|sy| |sy my ey By]; cbn; tauto. Qed.
Lemma dead_new lm t1 t2 g al n : dead_gain al -> dead_gain (new_gain (A := F32 lm) t1 t2 g al n).
Proof.
  intros D. unfold new_gain. destruct (fleb _ t1); [exact D|]. destruct (_ && _); [|exact I].
  cbn [fmul fdiv F32]. apply dead_div, dead_mult, D.
Qed.

(*@ C49_dead *)
(** C49, violation in f32 whatever libm returns: once the gain is a zero (or NaN) it never recovers, whatever is called, for ever.  (A positive gain becomes zero as soon
    as one acceleration has a relative error of at least the second threshold.) *)
Lemma l_aq_dead :
  forall (lm : Libm) (s0 s : Aqua (A := F32 lm)), aq_hist s0 Live -> dead_gain (aq_alpha s0) -> aq_later s0 s -> dead_gain (aq_alpha s).
Proof.
  intros lm s0 s H D L.
  assert (K : aq_hist s Live /\ dead_gain (aq_alpha s)); [|apply K]. induction L as [|s q L (IH & D1)]; [auto|].
  pose proof (aq_hist_inv _ _ IH) as IV. split.
  - apply (qh_call s Live q Live IH). destruct q as [a|c|c|c|gx gy gz ax ay az mx my mz]; [apply qn_again; discriminate| | | |]; (apply qn_other; intros (a & X); discriminate X).
  - destruct q as [a|c|c|c|gx gy gz ax ay az mx my mz].
    + cbn [aq_do]. rewrite aq_init_live by exact IV. exact D1.
    + destruct (aq_set_inv s Live Acc c IV) as (_ & _ & _ & X & _). rewrite X. exact D1.
    + destruct (aq_set_inv s Live Gyr c IV) as (_ & _ & _ & X & _). rewrite X. exact D1.
    + destruct (aq_set_inv s Live Mag c IV) as (_ & _ & _ & X & _). rewrite X. exact D1.
    + cbn [aq_do]. destruct (aq_mode s) eqn:EM.
      * pose proof IV as ((R1 & R2 & R3) & I0 & I1 & I2 & I3 & _). destruct (get_config_some Acc _ R2 I2) as (ca & Ha).
        destruct (update_alpha gx gy gz ax ay az mx my mz s ca IV EM Ha) as [_ [E|E]]; [rewrite E; exact D1|].
        destruct (aq_adaptive s); [|injection E as <-; exact D1]. destruct (fleb (aq_t2 s) (aq_t1 s)); [discriminate E|]. injection E as <-. apply dead_new, D1.
      * destruct (update_out gx gy gz ax ay az mx my mz s IV) as (_ & E & _). rewrite E by auto. exact D1.
Qed.

(** *** the gain between the thresholds *)
Definition negsign (x : f32) : Prop := is_nan x = false /\ Bsign x = true.
Lemma negsign_zero (lm : Libm) (x : f32) : negsign x -> fleb (Arith := F32 lm) (f0 (A := F32 lm)) x = true -> dead_gain x.
Proof. intros [N S] L. destruct x as [sx|sx| |sx mx ex Bx]; cbn in *; auto; subst sx; discriminate L. Qed.
Lemma minus_neg (x y : f32) : is_finite x = true -> is_finite y = true -> Bsign x = false -> Bsign y = false -> (B2R x < B2R y)%R ->
  is_finite (Bminus mode_NE x y) = true /\ Bsign (Bminus mode_NE x y) = true.
Proof.
  intros Fx Fy Sx Sy L. pose proof (Bminus_correct prec emax _ _ mode_NE x y Fx Fy) as C. destruct (Rlt_bool _ _).
  - destruct C as (_ & C1 & C2). split; [exact C1|]. rewrite C2. rewrite Rcompare_Lt by lra. reflexivity.
  - destruct C as (_ & C2). rewrite Sx, Sy in C2. discriminate C2.
Qed.
Lemma mult_neg (x y : f32) : is_finite x = true -> is_finite y = true -> Bsign x = false -> Bsign y = true -> negsign (Bmult mode_NE x y).
Proof.
  intros Fx Fy Sx Sy. pose proof (Bmult_correct prec emax _ _ mode_NE x y) as C. rewrite Fx, Fy, Sx, Sy in C. cbn [andb xorb] in C. destruct (Rlt_bool _ _).
  - destruct C as (_ & C1 & C2). assert (N : is_nan (Bmult mode_NE x y) = false). { destruct (Bmult mode_NE x y); cbn in C1; try discriminate C1; reflexivity. }
    split; [exact N|]. apply C2, N.
  - destruct (Bmult mode_NE x y) as [sz|sz| |sz mz ez Bz]; cbn in C; try discriminate C. injection C as ->. split; reflexivity.
Qed.
Lemma div_neg (x y : f32) : negsign x -> is_finite y = true -> Bsign y = false -> B2R y <> 0%R -> negsign (Bdiv mode_NE x y).
Proof.
  intros [Nx Sx] Fy Sy Ny. destruct x as [sx|sx| |sx mx ex Bx]; try discriminate Nx; cbn in Sx; subst sx.
  1,3: pose proof (Bdiv_correct prec emax _ _ mode_NE) as C.
  - destruct y as [sy|sy| |sy my ey By]; cbn in *; try discriminate; try tauto; subst; split; reflexivity.
  - specialize (C (B754_finite true mx ex Bx) y Ny). rewrite Sy in C. change (Bsign (B754_finite true mx ex Bx)) with true in C. cbn [xorb] in C. destruct (Rlt_bool _ _).
    + destruct C as (_ & C1 & C2). assert (N : is_nan (Bdiv mode_NE (B754_finite true mx ex Bx) y) = false).
      { change (is_finite (B754_finite true mx ex Bx)) with true in C1. destruct (Bdiv mode_NE (B754_finite true mx ex Bx) y) as [sz|sz| |sz mz ez Bz]; cbn in C1; try discriminate C1; reflexivity. }
      split; [exact N|]. apply C2, N.
    + destruct (Bdiv mode_NE (B754_finite true mx ex Bx) y) as [sz|sz| |sz mz ez Bz]; cbn in C; try discriminate C. injection C as ->. split; reflexivity.
  - destruct y as [sy|sy| |sy my ey By]; cbn in *; try discriminate; try tauto; subst; split; reflexivity.
Qed.
Lemma pos_sign (lm : Libm) (x : f32) : fleb (Arith := F32 lm) (f0 (A := F32 lm)) x = true -> Bsign x = false \/ dead_gain x.
Proof. destruct x as [sx|sx| |sx mx ex Bx]; cbn; auto; destruct sx; auto; intros H; discriminate H. Qed.
Lemma le_one (lm : Libm) (x : f32) : fleb (Arith := F32 lm) (f0 (A := F32 lm)) x = true -> fleb (Arith := F32 lm) x (f1 (A := F32 lm)) = true -> is_finite x = true.
Proof.
  destruct x as [sx|sx| |sx mx ex Bx]; intros H1 H2; try reflexivity.
  - destruct sx; [vm_compute in H1; discriminate H1|vm_compute in H2; discriminate H2].
  - vm_compute in H1. discriminate H1.
Qed.
Lemma lt_fin (x y : f32) : Bltb x y = true -> Bsign x = false -> is_finite x = true.
Proof. destruct x as [sx|sx| |sx mx ex Bx]; cbn; auto. intros L ->. destruct y as [sy|sy| |sy my ey By]; try destruct sy; discriminate L. Qed.
Lemma abs_sign (x : f32) : is_nan (Babs x) = false -> Bsign (Babs x) = false.
Proof. destruct x; cbn; auto. Qed.
Lemma lt_nan (x y : f32) : Bltb x y = true -> is_nan x = false /\ is_nan y = false.
Proof. destruct x as [sx|sx| |sx mx ex Bx], y as [sy|sy| |sy my ey By]; cbn; auto; intros H; discriminate H. Qed.
Lemma lt_not_le (x y : f32) : Bltb x y = true -> Bleb y x = false.
Proof.
  unfold Bltb, Bleb, SpecFloat.SFltb, SpecFloat.SFleb. change (SpecFloat.SFcompare (B2SF x) (B2SF y)) with (Bcompare x y). change (SpecFloat.SFcompare (B2SF y) (B2SF x)) with (Bcompare y x).
  rewrite (Bcompare_swap prec emax x y). destruct (Bcompare x y) as [[| |]|]; cbn; auto.
Qed.
Lemma pos_f32 (lm : Libm) (x : f32) : fltb (Arith := F32 lm) (f0 (A := F32 lm)) x = true -> Bsign x = false /\ (is_finite x = true -> B2R x <> 0%R).
Proof.
  destruct x as [sx|sx| |sx mx ex Bx]; cbn [fltb F32]; intros H; try discriminate H; destruct sx; try discriminate H; split; auto.
  - intros F. discriminate F.
  - intros _. cbn [B2R]. apply Rgt_not_eq. apply F2R_gt_0. reflexivity.
Qed.

Lemma between_dead (lm : Libm) (al t1 t2 x g : f32) : let err := fabs (Arith := F32 lm) x in
  fltb (Arith := F32 lm) (f0 (A := F32 lm)) t1 = true -> fleb (Arith := F32 lm) (f0 (A := F32 lm)) al = true -> fleb (Arith := F32 lm) al (f1 (A := F32 lm)) = true ->
  fltb (Arith := F32 lm) t1 err = true -> fltb (Arith := F32 lm) err t2 = true ->
  g = (if fleb (Arith := F32 lm) err t1 then al
       else if fltb (Arith := F32 lm) t1 err && fltb (Arith := F32 lm) err t2 then fdiv (Arith := F32 lm) (fmul (Arith := F32 lm) al (fsub (Arith := F32 lm) t1 err)) t1 else f0 (A := F32 lm)) ->
  fleb (Arith := F32 lm) (f0 (A := F32 lm)) g = true -> dead_gain g.
Proof.
  intros err P1 P2 P3 E1 E2 U4 U5.
  rewrite E1, E2 in U4. change (fleb (Arith := F32 lm) err t1) with (Bleb err t1) in U4. rewrite (lt_not_le _ _ E1) in U4. cbn [andb] in U4. destruct (pos_sign lm _ P2) as [Sa|D].
  2:{ rewrite U4. apply dead_div, dead_mult, D. }
  destruct (pos_f32 lm _ P1) as [S1 N1]. pose proof (lt_fin _ _ E1 S1) as F1. destruct (lt_nan _ _ E1) as [_ NE]. pose proof (abs_sign _ NE) as SE. pose proof (lt_fin _ _ E2 SE) as FE.
  assert (LT : (B2R t1 < B2R (err : f32))%R). { cbn [fltb F32] in E1. rewrite (Bltb_correct prec emax _ _ F1 FE) in E1. destruct (Rlt_bool_spec (B2R t1) (B2R (err : f32))); [auto|discriminate]. }
  destruct (minus_neg _ _ F1 FE S1 SE LT) as [FD SD]. pose proof (le_one lm _ P2 P3) as FA.
  pose proof (div_neg _ t1 (mult_neg _ _ FA FD Sa SD) F1 S1 (N1 F1)) as NG. apply (negsign_zero lm); [|exact U5]. rewrite U4. exact NG.
Qed.

Lemma between_gain (lm : Libm) (al t1 t2 g n a' : f32) : let err := fabs (Arith := F32 lm) (fdiv (Arith := F32 lm) (fsub (Arith := F32 lm) n g) g) in
  fltb (Arith := F32 lm) (f0 (A := F32 lm)) t1 = true -> fleb (Arith := F32 lm) (f0 (A := F32 lm)) al = true -> fleb (Arith := F32 lm) al (f1 (A := F32 lm)) = true ->
  fltb (Arith := F32 lm) t1 err = true -> fltb (Arith := F32 lm) err t2 = true ->
  a' = new_gain (A := F32 lm) t1 t2 g al n -> fleb (Arith := F32 lm) (f0 (A := F32 lm)) a' = true -> dead_gain a'.
Proof. intros err P1 P2 P3 E1 E2 U4 U5. unfold new_gain in U4. exact (between_dead lm al t1 t2 _ a' P1 P2 P3 E1 E2 U4 U5). Qed.

(*@ C49_between_f32 *)
(** C49, violation in f32 whatever libm returns: with a gain in [0, 1] and a positive first threshold, no update with a relative error of the acceleration strictly between the
    thresholds leaves a positive gain: if it succeeds at all the gain is zero, and by C49_dead for ever *)
Lemma l_aq_between :
  forall (lm : Libm) (s : Aqua (A := F32 lm)) (ca : Config (A := F32 lm)), let A := F32 lm in
  aq_hist s Live -> aq_mode s = MARG -> aq_adaptive s = true -> aq_get_accelerometer_config s = Ok ca ->
  fltb f0 (aq_t1 s) = true -> fleb f0 (aq_alpha s) = true -> fleb (aq_alpha s) f1 = true ->
  forall (gx gy gz : option T) (ax ay az mx my mz : T),
  let err := fabs ((acc_norm (corrected Acc ca (raw3 ax ay az) 3) - aq_g s) / aq_g s)%F in
  fltb (aq_t1 s) err = true -> fltb err (aq_t2 s) = true ->
  let (s', o) := aq_update gx gy gz ax ay az mx my mz s in o = Ok tt -> dead_gain (aq_alpha s').
Proof.
  intros lm s ca A H EM Ad Ha P1 P2 P3 gx gy gz ax ay az mx my mz err E1 E2. subst A.
  pose proof (l_aq_gain (F32 lm) _ s ca H EM Ha gx gy gz ax ay az mx my mz) as U. cbv zeta in U.
  destruct (aq_update gx gy gz ax ay az mx my mz s) as [s' o]. destruct U as (U1 & _ & U2). intros ->. destruct (U2 Ad) as [U3 _]. destruct (U3 eq_refl) as [_ U4]. destruct (U1 eq_refl) as [U5 _]. clear U1 U2 U3.
  exact (between_gain lm (aq_alpha s) (aq_t1 s) (aq_t2 s) (aq_g s) (acc_norm (corrected Acc ca (raw3 ax ay az) 3)) (aq_alpha s') P1 P2 P3 E1 E2 U4 U5).
Qed.

(*@ C49_between_real *)
(** C49, violation in exact arithmetic: with a positive gain and first threshold, an update with a relative error of the acceleration strictly between the
    thresholds never succeeds: the formula gives a negative gain *)
Lemma l_aq_between_real :
  forall (s : Aqua (A := RX)) (ca : Config (A := RX)) (al t1 t2 err : R), aq_hist s Live -> aq_mode s = MARG -> aq_adaptive s = true -> aq_get_accelerometer_config s = Ok ca ->
  aq_alpha s = Some al -> aq_t1 s = Some t1 -> aq_t2 s = Some t2 -> (0 < al)%R -> (0 < t1)%R ->
  forall (gx gy gz : option (T (Arith := RX))) (ax ay az mx my mz : T (Arith := RX)),
  fabs (Arith := RX) (fdiv (Arith := RX) (fsub (Arith := RX) (acc_norm (A := RX) (corrected (A := RX) Acc ca (raw3 (A := RX) ax ay az) 3)) (aq_g s)) (aq_g s)) = Some err ->
  (t1 < err < t2)%R ->
  new_gain (A := RX) (aq_t1 s) (aq_t2 s) (aq_g s) (aq_alpha s) (acc_norm (A := RX) (corrected (A := RX) Acc ca (raw3 (A := RX) ax ay az) 3)) = Some (al * (t1 - err) / t1)%R /\
  (al * (t1 - err) / t1 < 0)%R /\
  snd (aq_update (A := RX) gx gy gz ax ay az mx my mz s) <> Ok tt.
Proof.
  intros s ca al t1 t2 err H EM Ad Ha Ea E1 E2 Pa P1 gx gy gz ax ay az mx my mz EE [L1 L2].
  pose proof (l_aq_gain RX _ s ca H EM Ha gx gy gz ax ay az mx my mz) as U. cbv zeta in U.
  set (n := acc_norm (A := RX) (corrected (A := RX) Acc ca (raw3 (A := RX) ax ay az) 3)) in *.
  assert (EN : new_gain (A := RX) (aq_t1 s) (aq_t2 s) (aq_g s) (aq_alpha s) n = Some (al * (t1 - err) / t1)%R).
  { unfold new_gain. rewrite EE, E1, E2, Ea. cbn [fleb fltb fmul fdiv fsub RX rxcmp rx2 rx_div]. rewrite Rle_bool_false by lra. rewrite !Rlt_bool_true by lra. cbn [andb].
    rewrite Req_bool_false by lra. reflexivity. }
  assert (NG : (al * (t1 - err) / t1 < 0)%R).
  { assert (X : (al * (t1 - err) < 0)%R) by nra. apply Rmult_lt_compat_r with (r := (/ t1)%R) in X; [|apply Rinv_0_lt_compat; lra]. unfold Rdiv. lra. }
  split; [exact EN|]. split; [exact NG|].
  destruct (aq_update (A := RX) gx gy gz ax ay az mx my mz s) as [s' o]. cbn [snd]. destruct U as (U1 & _ & U2). intros ->.
  destruct (proj1 (U2 Ad) eq_refl) as [_ U4]. rewrite EN in U4. destruct (U1 eq_refl) as [U5 _]. rewrite U4 in U5. cbn in U5. rewrite Rle_bool_false in U5; [discriminate U5|]. unfold Rdiv at 2. lra.
Qed.

(** *** witnesses *)
(** default settings, mode MARG, adaptive gain; thresholds 0.1 and 0.2, gain 0.01 *)
Definition adapt32 (lm : Libm) : aq_args (A := F32 lm) :=
  let a := args32 lm MARG (Some default_config) in
  mkArgs (A := F32 lm) MARG None None None None (ia_gyr a) (ia_acc a) (ia_mag a) (ia_ts a) true
    (ia_alpha a) (ia_beta a) (ia_t1 a) (ia_t2 a) (ia_t_acc a) (ia_t_mag a) None None.
Lemma adapt32_ok lm : args_ok (adapt32 lm).
Proof. split; [intros _; exists default_config; split; [reflexivity|apply default_finite]|]. split; [apply default_finite|]. split; [apply default_finite|]. left. split; [reflexivity|]. split; [reflexivity|]. split; reflexivity. Qed.
(** position of the gain: below 0, 0, in (0, 1], other *)
Definition gain_sign {A : Arith} (s : Aqua) : nat := if fltb (aq_alpha s) f0 then 0 else if fleb (aq_alpha s) f0 then 1 else if fleb (aq_alpha s) f1 then 2 else 3.
Lemma gain_sign_cases lm (x : f32) : let k := if fltb (Arith := F32 lm) x (f0 (A := F32 lm)) then 0 else if fleb (Arith := F32 lm) x (f0 (A := F32 lm)) then 1 else if fleb (Arith := F32 lm) x (f1 (A := F32 lm)) then 2 else 3 in
  (k = 0 -> fltb (Arith := F32 lm) x (f0 (A := F32 lm)) = true) /\ (k = 1 -> dead_gain x) /\ (k = 2 -> fltb (Arith := F32 lm) (f0 (A := F32 lm)) x = true).
Proof.
  assert (O : Bleb (B754_infinity false) (f1 (A := F32 lm)) = false) by (vm_compute; reflexivity).
  assert (N : Bleb B754_nan (f1 (A := F32 lm)) = false) by (vm_compute; reflexivity).
  change (fltb (Arith := F32 lm) (f0 (A := F32 lm)) x) with (Bltb (B754_zero false) x). change (fltb (Arith := F32 lm) x (f0 (A := F32 lm))) with (Bltb x (B754_zero false)).
  change (fleb (Arith := F32 lm) x (f0 (A := F32 lm))) with (Bleb x (B754_zero false)). change (fleb (Arith := F32 lm) x (f1 (A := F32 lm))) with (Bleb x (f1 (A := F32 lm))).
  assert (K : x = B754_infinity false \/ x = B754_nan -> Bleb x (f1 (A := F32 lm)) = false) by (intros [-> | ->]; assumption).
  clear O N. revert K. generalize (Bleb x (f1 (A := F32 lm))). intros b K.
  destruct x as [sx|[|]| |[|] mx ex Bx]; cbn; try (rewrite K by auto); clear K; try destruct b;
    (split; [|split]); intros X; try discriminate X; try reflexivity; try exact I.
Qed.
Lemma gain_sign_neg lm (s : Aqua (A := F32 lm)) : gain_sign s = 0 -> fltb (aq_alpha s) (f0 (A := F32 lm)) = true.
Proof. apply (gain_sign_cases lm (aq_alpha s)). Qed.
Lemma gain_sign_zero lm (s : Aqua (A := F32 lm)) : gain_sign s = 1 -> dead_gain (aq_alpha s).
Proof. apply (gain_sign_cases lm (aq_alpha s)). Qed.
Lemma gain_sign_pos lm (s : Aqua (A := F32 lm)) : gain_sign s = 2 -> fltb (f0 (A := F32 lm)) (aq_alpha s) = true.
Proof. apply (gain_sign_cases lm (aq_alpha s)). Qed.
Lemma adapt32_settings lm s : aq_new = Ok s -> aq_adaptive (fst (aq_init_with (adapt32 lm) s)) = true /\ aq_t1 (fst (aq_init_with (adapt32 lm) s)) = lit (Arith := F32 lm) 1 10 /\
  aq_t2 (fst (aq_init_with (adapt32 lm) s)) = lit (Arith := F32 lm) 2 10 /\ aq_alpha (fst (aq_init_with (adapt32 lm) s)) = lit (Arith := F32 lm) 1 100.
Proof.
  intros E. pose proof (qh_new s E) as HF. pose proof (l_aq_lifecycle (F32 lm) _ s Fresh HF (adapt32 lm) None None None f0 f0 f0 f0 f0 f0 default_config) as L.
  destruct L as (_ & _ & _ & _ & _ & _ & _ & _ & L). destruct (aq_init_with (adapt32 lm) s) as [s' o]. cbn [fst].
  destruct (proj1 L (adapt32_ok lm)) as (_ & _ & _ & _ & L5 & L6 & _ & L8 & L9 & _). split; [exact L5|]. split; [exact L8|]. split; [exact L9|exact L6].
Qed.
Lemma aq_adapt_example lm : exists s : Aqua (A := F32 lm), aq_hist s Live /\ aq_mode s = MARG /\ aq_adaptive s = true /\ aq_get_accelerometer_config s = Ok default_config /\
  fltb (f0 (A := F32 lm)) (aq_t1 s) = true /\ fltb (aq_t1 s) (aq_t2 s) = true /\ fleb (f0 (A := F32 lm)) (aq_alpha s) = true /\ fleb (aq_alpha s) (f1 (A := F32 lm)) = true.
Proof.
  destruct (aq_new_ok lm) as (s & E). exists (fst (aq_init_with (adapt32 lm) s)). destruct (hist_init lm s (adapt32 lm) E (adapt32_ok lm)) as (H1 & M1 & A1 & _).
  destruct (adapt32_settings lm s E) as (S1 & S2 & S3 & S4). rewrite S2, S3, S4. split; [exact H1|]. split; [exact M1|]. split; [exact S1|]. split; [exact A1|].
  split; [vm_compute; reflexivity|]. split; [vm_compute; reflexivity|]. split; vm_compute; reflexivity.
Qed.
(*@ example *)
(** an initialised filter with an adaptive gain: the hypotheses of C49_gain and C49_between_f32 *)
Example C49_example :
  forall lm : Libm, exists s : Aqua (A := F32 lm), aq_hist s Live /\ aq_mode s = MARG /\ aq_adaptive s = true /\ aq_get_accelerometer_config s = Ok default_config /\
  fltb (f0 (A := F32 lm)) (aq_t1 s) = true /\ fltb (aq_t1 s) (aq_t2 s) = true /\ fleb (f0 (A := F32 lm)) (aq_alpha s) = true /\ fleb (aq_alpha s) (f1 (A := F32 lm)) = true.
Proof. exact aq_adapt_example. Qed.

(*@ C49_between_refuted *)
(** C49, violation, whatever libm returns: a new filter with an adaptive gain of 0.01 and thresholds 0.1 and 0.2 gets one measurement with an acceleration
    of 8.3 instead of 9.81 (relative error 0.154): the update fails, a negative gain is stored, and the next update fails although its acceleration is perfect *)
Lemma l_aq_between_wit :
  forall (lm : Libm), exists s : Aqua (A := F32 lm), aq_hist s Live /\ aq_mode s = MARG /\ aq_adaptive s = true /\
  fltb (f0 (A := F32 lm)) (aq_alpha s) = true /\
  let l x := lit (Arith := F32 lm) x 100 in
  let z := Some (l 0%Z) in
  let r1 := aq_update z z z (l 0%Z) (l 0%Z) (l (-830)%Z) (l 100%Z) (l 0%Z) (l 0%Z) s in
  let r2 := aq_update z z z (l 0%Z) (l 0%Z) (l (-981)%Z) (l 100%Z) (l 0%Z) (l 0%Z) (fst r1) in
  let r0 := aq_update z z z (l 0%Z) (l 0%Z) (l (-981)%Z) (l 100%Z) (l 0%Z) (l 0%Z) s in
  snd r0 = Ok tt /\ snd r1 = Err (LinErr InvalidAlpha) /\ fltb (aq_alpha (fst r1)) (f0 (A := F32 lm)) = true /\ snd r2 = Err (LinErr InvalidAlpha).
Proof.
  intros lm. destruct (aq_new_ok lm) as (s & E). destruct (hist_init lm s (adapt32 lm) E (adapt32_ok lm)) as (H1 & M1 & _). destruct (adapt32_settings lm s E) as (S1 & S2 & S3 & S4).
  assert (F : match aq_new (A := F32 lm) with
              | Ok s => let s1 := fst (aq_init_with (adapt32 lm) s) in let l x := lit (Arith := F32 lm) x 100 in let z := Some (l 0%Z) in
                        let r1 := aq_update z z z (l 0%Z) (l 0%Z) (l (-830)%Z) (l 100%Z) (l 0%Z) (l 0%Z) s1 in
                        let r2 := aq_update z z z (l 0%Z) (l 0%Z) (l (-981)%Z) (l 100%Z) (l 0%Z) (l 0%Z) (fst r1) in
                        let r0 := aq_update z z z (l 0%Z) (l 0%Z) (l (-981)%Z) (l 100%Z) (l 0%Z) (l 0%Z) s1 in
                        (gain_sign s1, snd r0, snd r1, gain_sign (fst r1), snd r2) = (2, Ok tt, Err (LinErr InvalidAlpha), 0, Err (LinErr InvalidAlpha)) | _ => False end)
    by (vm_compute; reflexivity).
  rewrite E in F. cbv zeta in F. set (s1 := fst (aq_init_with (adapt32 lm) s)) in *. clearbody s1. injection F as F1 F2 F3 F4 F5.
  exists s1. split; [exact H1|]. split; [exact M1|]. split; [exact S1|]. split; [apply (gain_sign_pos lm s1 F1)|]. cbv zeta. split; [exact F2|]. split; [exact F3|]. split; [exact (gain_sign_neg lm _ F4)|exact F5].
Qed.

(*@ C49_dead_refuted *)
(** C49, violation, whatever libm returns: the same filter gets one measurement with an acceleration of 5.0: the update succeeds, and from then on the gain
    is zero for ever, whatever is called: the accelerometer never corrects the attitude again *)
Lemma l_aq_dead_wit :
  forall (lm : Libm), exists (s : Aqua (A := F32 lm)) (gx gy gz : option (T (Arith := F32 lm))) (ax ay az mx my mz : T (Arith := F32 lm)),
  aq_hist s Live /\ aq_mode s = MARG /\ aq_adaptive s = true /\ fltb (f0 (A := F32 lm)) (aq_alpha s) = true /\
  snd (aq_update gx gy gz ax ay az mx my mz s) = Ok tt /\
  forall s', aq_later (fst (aq_update gx gy gz ax ay az mx my mz s)) s' -> dead_gain (aq_alpha s').
Proof.
  intros lm. destruct (aq_new_ok lm) as (s & E). destruct (hist_init lm s (adapt32 lm) E (adapt32_ok lm)) as (H1 & M1 & _). destruct (adapt32_settings lm s E) as (S1 & S2 & S3 & S4).
  assert (F : match aq_new (A := F32 lm) with
              | Ok s => let s1 := fst (aq_init_with (adapt32 lm) s) in let r1 := up32 lm (Some 0%Z) 0 0 (-50) 10 0 0 s1 in
                        (gain_sign s1, snd r1, gain_sign (fst r1)) = (2, Ok tt, 1) | _ => False end)
    by (vm_compute; reflexivity).
  rewrite E in F. cbv zeta in F. set (s1 := fst (aq_init_with (adapt32 lm) s)) in *. clearbody s1. injection F as F1 F2 F3.
  unfold up32 in *. cbn [option_map] in *. exists s1. do 9 eexists. split; [exact H1|]. split; [exact M1|]. split; [exact S1|]. split; [apply (gain_sign_pos lm s1 F1)|]. split; [exact F2|].
  intros s' L. eapply (l_aq_dead lm); [|exact (gain_sign_zero lm _ F3)|exact L]. apply (qh_call s1 Live (QUpdate _ _ _ _ _ _ _ _ _) Live H1). apply qn_other. intros (a & X). discriminate X.
Qed.

Lemma aq_unit_example : forall lm : Libm, exists s : Aqua (A := F32 lm), aq_hist s Live /\ vec_is (A := F32 lm) (aq_attitude s) 4 (quad (f1 (A := F32 lm)) (f0 (A := F32 lm)) (f0 (A := F32 lm)) (f0 (A := F32 lm))) /\
  good (quad (f1 (A := F32 lm)) (f0 (A := F32 lm)) (f0 (A := F32 lm)) (f0 (A := F32 lm))).
Proof.
  intros lm. destruct (aq_new_ok lm) as (s & E). exists (fst (aq_init_with (adapt32 lm) s)). destruct (hist_init lm s (adapt32 lm) E (adapt32_ok lm)) as (H1 & _). split; [exact H1|]. split.
  - pose proof (aq_init_fresh (adapt32 lm) s (aq_hist_inv _ _ (qh_new s E))) as W. unfold wp in W. destruct (aq_init_with (adapt32 lm) s) as [s' [[]|e|]]; cbn [fst]; [|destruct W as (N & _); exfalso; apply N, adapt32_ok|tauto].
    apply W.
  - left. unfold rnorm, rdot. cbn [Rsum]. change (quad (f1 (A := F32 lm)) (f0 (A := F32 lm)) (f0 (A := F32 lm)) (f0 (A := F32 lm)) 0) with (f1 (A := F32 lm)).
    change (quad (f1 (A := F32 lm)) (f0 (A := F32 lm)) (f0 (A := F32 lm)) (f0 (A := F32 lm)) 1) with (f0 (A := F32 lm)).
    change (quad (f1 (A := F32 lm)) (f0 (A := F32 lm)) (f0 (A := F32 lm)) (f0 (A := F32 lm)) 2) with (f0 (A := F32 lm)).
    change (quad (f1 (A := F32 lm)) (f0 (A := F32 lm)) (f0 (A := F32 lm)) (f0 (A := F32 lm)) 3) with (f0 (A := F32 lm)).
    rewrite (B2R_f1 lm). change (B2R (f0 (A := F32 lm))) with 0%R. replace (0 + 1 * 1 + 0 * 0 + 0 * 0 + 0 * 0)%R with 1%R by ring. rewrite sqrt_1, Rminus_diag_eq, Rabs_R0 by reflexivity. lra.
Qed.
(*@ example *)
(** an initialised filter with a unit attitude: the hypotheses of C51 *)
Example C51_example : forall lm : Libm, exists s : Aqua (A := F32 lm), aq_hist s Live /\ vec_is (A := F32 lm) (aq_attitude s) 4 (quad (f1 (A := F32 lm)) (f0 (A := F32 lm)) (f0 (A := F32 lm)) (f0 (A := F32 lm))) /\
  good (quad (f1 (A := F32 lm)) (f0 (A := F32 lm)) (f0 (A := F32 lm)) (f0 (A := F32 lm))).
Proof. exact aq_unit_example. Qed.
