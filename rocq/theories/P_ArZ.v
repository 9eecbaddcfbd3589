(** C42: the angular-rate filter in f32. *)
(*@+*)
From Coq Require Import List Arith ZArith NArith Reals Lia Bool Lra SpecFloat.
From Flocq Require Import Core BinarySingleNaN.
From Verif Require Import M_Base M_Arith M_Utils M_Vector M_Matrix M_Quaternion M_Sensors M_Ar M_F32 M_RX
  S_Spec S_Linalg S_Norm S_Quat S_Sensors S_Ar P_Inst.
Import ListNotations.
Local Open Scope nat_scope.
(*@-*)
From Verif Require Import P_Hoare P_Cont P_Loops P_Access P_Pointwise P_Trans P_Float P_Product P_Diag P_Quat P_Rot P_Norm P_Sensors P_FErr P_Norm32 P_Ar P_Ar32.


(** ** a zero attitude *)
Section Zero.
  Context (lm : Libm).
  Notation A := (F32 lm).
  Definition isz (x : f32) : Prop := exists b, x = B754_zero b.
  Lemma isz_B2R x : is_finite x = true -> B2R x = 0%R -> isz x.
  Proof.
    destruct x as [b| | |b m e He]; try discriminate; intros _ H; [exists b; reflexivity|]. exfalso. cbn in H. unfold F2R in H. cbn in H.
    pose proof (bpow_gt_0 radix2 e) as P. assert (N : IZR (SpecFloat.cond_Zopp b (Z.pos m)) <> 0%R) by (apply IZR_neq; destruct b; cbn; lia).
    apply Rmult_integral in H. destruct H; [contradiction|lra].
  Qed.
  Lemma isz_mult x y : is_finite x = true -> isz y -> isz (Bmult mode_NE x y).
  Proof. intros F [b ->]. destruct x; try discriminate; cbn; eexists; reflexivity. Qed.
  Lemma isz_plus x y : isz x -> isz y -> isz (Bplus mode_NE x y).
  Proof. intros [b ->] [b' ->]. destruct b, b'; cbn; eexists; reflexivity. Qed.
  Lemma isz_minus x y : isz x -> isz y -> isz (Bminus mode_NE x y).
  Proof. intros [b ->] [b' ->]. destruct b, b'; cbn; eexists; reflexivity. Qed.
  Lemma isz_fsum n (t : nat -> f32) : (forall i, i < n -> isz (t i)) -> isz (fsum (A := A) n t).
  Proof.
    induction n as [|n IH]; intros H; [exists false; reflexivity|]. cbn [fsum]. apply isz_plus; [apply IH; intros; apply H; lia|apply H; lia].
  Qed.
  Lemma isz_normalize v n (f : nat -> f32) : vec_is (A := A) v n f -> (forall i, i < n -> isz (f i)) ->
    exists v', v_normalize (A := A) v = (v', Ok tt) /\ vec_is (A := A) v' n (fun _ => f0 (A := A)).
  Proof.
    intros Hv Z. pose proof (v_normalize_pw (A := A) v n f Hv) as P. cbv zeta in P.
    assert (S : isz (fsum (A := A) n (fun i => @fmul A (f i) (f i)))).
    { apply isz_fsum. intros i Hi. apply isz_mult; auto. destruct (Z i Hi) as [b ->]. reflexivity. }
    destruct S as [b S]. rewrite S in P.
    assert (E : flush (A := A) (@fsqrt A (B754_zero b : f32)) = f0 (A := A)) by (destruct b; reflexivity).
    rewrite E in P. change (@fltb A (EPSILON (A := A)) (f0 (A := A))) with false in P. cbv iota in P.
    apply pointwise_v_ok in P; [exact P|]. intros; apply (ok_f0 (A := A)).
  Qed.
  Lemma isz_step ck m order ts (f w : nat -> f32) n : supported m -> (m = TaylorSeries -> ck = true -> order <= 20) -> step_finite (A := A) ck m order ts f w n -> (forall i, i < 4 -> isz (f i)) ->
    forall i, i < 4 -> isz (step (A := A) m order ts f w n i).
  Proof.
    intros [->|[->| ->]] HO [_ SF] Z i Hi; cbn [step].
    - apply isz_fsum. intros j Hj. apply isz_mult; [|auto]. apply (valid_finite lm). apply (SF i j Hi Hj).
    - apply isz_fsum. intros j Hj. apply isz_mult; [|auto]. apply (valid_finite lm). destruct (SF i j Hi Hj) as (_ & _ & M & _).
      destruct order as [|o]; [|apply M; [lia|auto]]. cbn [ty_mat]. unfold idm. destruct (i =? j); split; reflexivity.
    - cbn [step_finite] in SF. destruct SF as [SW _]. assert (W : forall k, k < 4 -> is_finite (eu_w (A := A) ts w k : f32) = true) by (intros; apply (valid_finite lm); auto).
      apply isz_plus; [auto|]. pose proof (W 0 ltac:(lia)). pose proof (W 1 ltac:(lia)). pose proof (W 2 ltac:(lia)). pose proof (W 3 ltac:(lia)).
      pose proof (Z 0 ltac:(lia)). pose proof (Z 1 ltac:(lia)). pose proof (Z 2 ltac:(lia)). pose proof (Z 3 ltac:(lia)).
      assert (C : forall a b : f32, is_finite a = true -> isz b -> isz (Bmult mode_NE a b)) by (intros; apply isz_mult; auto).
      assert (C' : forall a b : f32, is_finite a = true -> isz b -> isz (Bmult mode_NE b a)) by (intros; rewrite Bmult_comm; apply isz_mult; auto).
      unfold q_prod. change (@fmul A) with (Bmult (prec := prec) (emax := emax) mode_NE). change (@fadd A) with (Bplus (prec := prec) (emax := emax) mode_NE).
      change (@fsub A) with (Bminus (prec := prec) (emax := emax) mode_NE).
      do 4 (destruct i as [|i]; [cbn [quad]; repeat first [apply isz_plus|apply isz_minus|apply C; assumption|apply C'; assumption]|]). lia.
  Qed.
  Lemma later_zero ck (s0 s : AR (A := A)) f0 : ar_inv s0 Live -> vec_is (A := A) (ar_attitude s0) 4 f0 -> (forall i, i < 4 -> isz (f0 i)) -> ar_later (A := A) ck s0 s ->
    ar_inv s Live /\ exists f, vec_is (A := A) (ar_attitude s) 4 f /\ forall i, i < 4 -> isz (f i).
  Proof.
    intros H0 Hf0 Z0 L. induction L as [|s q L (IH & f & Hf & Z) NP]; [eauto|]. destruct q as [qw qx qy qz c ts m order|gx gy gz]; cbn [ar_do fst snd] in *.
    - rewrite (init_live _ _ _ _ _ _ _ _ _ IH). cbn [fst]. eauto.
    - split; [apply update_live; auto|]. destruct (live_facts s IH) as (c & raw & cor & _ & Hs & Hc & _).
      assert (G : good f). { right. intros i Hi. destruct (Z i Hi) as [b ->]. reflexivity. }
      pose proof (update_unit lm ck gx gy gz s c f IH Hc Hf) as U.
      destruct IH as (_ & I & AI & _). pose proof (ar_update_wp ck s c raw cor f (raw3 gx gy gz) Hs I AI Hf) as W.
      change (raw3 (A := F32 lm) gx gy gz 0) with gx in W; change (raw3 (A := F32 lm) gx gy gz 1) with gy in W; change (raw3 (A := F32 lm) gx gy gz 2) with gz in W.
      cbv zeta in W. unfold wp in W.
      destruct (ar_update ck gx gy gz s) as [s' [[]|e|]]; cbn [fst snd] in *; [| |congruence].
      + destruct U as (U1 & _ & _). destruct (rate_norm _ >? EPSILON)%F eqn:E; [|rewrite U1 by auto; eauto].
        destruct W as (_ & _ & _ & [Sup HO] & SF & v & Hv & EV). destruct (isz_normalize v 4 _ Hv) as (v' & EV' & Hv').
        * eapply isz_step; eauto.
        * rewrite EV in EV'. injection EV' as ->. exists (fun _ => M_Arith.f0 (A := A)). split; [exact Hv'|]. intros. exists false. reflexivity.
      + destruct U as (_ & _ & U3). rewrite (U3 e) by auto. eauto.
  Qed.
End Zero.

(*@ C42_zero_absorbing *)
(** C42, violation: a zero attitude never recovers, whatever is measured and whatever the method *)
Lemma l_ar_zero :
  forall (lm : Libm) (ck : bool) (s0 s : AR (A := F32 lm)) (f : nat -> f32), let A := F32 lm in
  ar_hist ck s0 Live -> vec_is (ar_attitude s0) 4 f -> (forall i, i < 4 -> B2R (f i) = 0%R) -> ar_later ck s0 s ->
  exists v g, ar_get_attitude s = Ok v /\ vec_is v 4 g /\ forall i, i < 4 -> B2R (g i : f32) = 0%R.
Proof.
  intros lm ck s0 s f A H Hf Z L. destruct (later_zero lm ck s0 s f (hist_inv _ _ _ H) Hf) as ((_ & _ & E & _) & g & Hg & Gg); [|exact L|].
  { intros i Hi. apply isz_B2R; auto. apply (valid_finite lm). eapply vec_is_valid; eauto. }
  unfold ar_get_attitude. rewrite E. cbn [negb]. destruct (v_duplicate_ok _ _ _ Hg) as (v & -> & Hv). exists v, g. split; [reflexivity|]. split; [exact Hv|].
  intros i Hi. destruct (Gg i Hi) as [b ->]. reflexivity.
Qed.

(** a filter initialised on the default calibration *)
Definition started_state lm (qw qx qy qz ts : f32) m order : AR (A := F32 lm) :=
  match sensor_new (A := F32 lm) with
  | Ok g => fst (ar_init (A := F32 lm) qw qx qy qz default_config ts m order (mkAR g vnew (lit (Arith := F32 lm) 1 100) ClosedForm 1 false))
  | _ => mkAR (A := F32 lm) (mkSensor mnew vnew vnew vnew false) vnew ts m order false
  end.
Lemma started lm ck (qw qx qy qz ts : f32) m order : quat_finite (A := F32 lm) qw qx qy qz ->
  ar_hist ck (started_state lm qw qx qy qz ts m order) Live.
Proof.
  intros V. destruct (new_ok (A := F32 lm) Gyr) as (g & Eg & _ & Ig). unfold started_state. rewrite Eg.
  set (s0 := mkAR (A := F32 lm) g vnew (lit (Arith := F32 lm) 1 100) ClosedForm 1 false).
  assert (N : ar_new (A := F32 lm) = Ok s0) by (unfold ar_new; rewrite Eg; reflexivity).
  assert (C : cfg_finite (A := F32 lm) default_config).
  { intros x Hx. cbn in Hx. repeat (destruct Hx as [<-|Hx]; [first [apply (ok_f0 (A := F32 lm))|apply (ok_f1 (A := F32 lm))]|]). destruct Hx. }
  pose proof (ah_new (A := F32 lm) ck s0 N) as H0.
  apply (ah_call (A := F32 lm) ck s0 Fresh (AInit (A := F32 lm) qw qx qy qz default_config ts m order) Live H0); [apply an_init; auto|].
  pose proof (init_fresh_wp (A := F32 lm) qw qx qy qz default_config ts m order s0 (hist_inv _ _ _ H0)) as W. unfold wp in W. cbn [ar_do].
  destruct (ar_init (A := F32 lm) _ _ _ _ _ _ _ _ s0) as [s' [[]|e|]]; cbn [snd]; [discriminate|discriminate|destruct W].
Qed.
Lemma pair_of {X Y} (p : X * Y) y : snd p = y -> p = (fst p, y).
Proof. destruct p; cbn; congruence. Qed.

(*@ C42_zero_refuted *)
(** C42, violation: a filter initialised with the identity quaternion and given one huge but finite rate reports
    success, and its attitude is then zero *)
Lemma l_ar_zero_w :
  forall (lm : Libm) (ck : bool), exists (s s' : AR (A := F32 lm)), let A := F32 lm in
  ar_hist ck s Live /\ show_v (ar_attitude s) = (4, true, [sf 1; sf 0; sf 0; sf 0]) /\
  ar_update ck (z32 (2 ^ 72)) (z32 0) (z32 0) s = (s', Ok tt) /\ show_v (ar_attitude s') = (4, true, [sf 0; sf 0; sf 0; sf 0]).
Proof.
  intros lm ck. eexists. eexists. cbv zeta. split; [apply (started lm ck (z32 1) (z32 0) (z32 0) (z32 0) (z32 1) Euler 1); repeat split|].
  split; [vm_compute; reflexivity|]. split; [apply pair_of; vm_compute; reflexivity|]. vm_compute; reflexivity.
Qed.

(*@ C42_failed_update_refuted *)
(** C42, violation: a failed update can leave a half-written attitude: with the Euler method from a quaternion that
    is not unit, one component has been replaced when the next one overflows *)
Lemma l_ar_partial_w :
  forall (lm : Libm) (ck : bool), exists (s s' : AR (A := F32 lm)) (e : AhrsError), let A := F32 lm in
  let M := z32 (2 ^ 127) in let N := z32 (- 2 ^ 127) in
  ar_hist ck s Live /\ show_v (ar_attitude s) = (4, true, [sf 1; B2SF M; B2SF N; sf 2]) /\
  ar_update ck (z32 0) (z32 0) (z32 1) s = (s', Err e) /\ show_v (ar_attitude s') = (4, true, [sf (-1); B2SF M; B2SF N; sf 2]).
Proof.
  intros lm ck. eexists. eexists. eexists. cbv zeta. split; [apply (started lm ck (z32 1) (z32 (2 ^ 127)) (z32 (- 2 ^ 127)) (z32 2) (z32 2) Euler 1); repeat split|].
  split; [vm_compute; reflexivity|]. split; [apply pair_of; vm_compute; reflexivity|]. vm_compute; reflexivity.
Qed.

(*@ C41_nan_period *)
(** C41, violation: [init] does not check the sampling period.  With NaN or an infinity the
    filter is live, and yet no update that sees rotation ever succeeds with the Euler or Taylor methods *)
Lemma l_ar_nan_ts :
  forall (lm : Libm) (ck : bool) (s : AR (A := F32 lm)) (w : nat -> f32) (gx gy gz : f32), let A := F32 lm in
  ar_hist ck s Live -> is_finite (ar_ts s : f32) = false -> ar_method s = Euler \/ ar_method s = TaylorSeries ->
  let (s', o) := ar_update ck gx gy gz s in
  o = Ok tt -> (forall i, i < 3 -> sensor_get Gyr i (ar_gyr s') = Ok (w i)) -> (rate_norm w >? EPSILON)%F = false.
Proof.
  intros lm ck s w gx gy gz A H Nts HM. subst A. pose proof (hist_inv ck s Live H) as IV.
  destruct (live_facts s IV) as (c & raw & cor & f & Hs & Hc & Hf).
  pose proof (l_update (F32 lm) _ Gyr (ar_gyr s) c (raw3 (A := F32 lm) gx gy gz) ltac:(apply IV) Hc) as LU.
  pose proof (ar_update_wp (A := F32 lm) ck s c raw cor f (raw3 (A := F32 lm) gx gy gz) Hs ltac:(apply IV) ltac:(apply IV) Hf) as W.
  change (raw3 (A := F32 lm) gx gy gz 0) with gx in W, LU; change (raw3 (A := F32 lm) gx gy gz 1) with gy in W, LU; change (raw3 (A := F32 lm) gx gy gz 2) with gz in W, LU.
  cbv zeta in W. unfold wp in W.
  destruct (ar_update (A := F32 lm) ck gx gy gz s) as [s' [[]|e|]]; try discriminate. intros _ Hw. destruct W as (_ & EG & Se & W).
  rewrite EG in Hw. destruct (sensor_update (A := F32 lm) Gyr gx gy gz (ar_gyr s)) as [g' o']. destruct LU as (LU & _). destruct (LU Se) as [_ LG]. cbn [fst] in Hw.
  assert (EW : forall i, i < 3 -> corrected (A := F32 lm) Gyr c (raw3 (A := F32 lm) gx gy gz) 3 i = w i).
  { intros i Hi. specialize (LG i Hi). rewrite Hw in LG by auto. assert (E : Ok (E := AhrsError) (w i) = Ok (corrected (A := F32 lm) Gyr c (raw3 (A := F32 lm) gx gy gz) 3 i)) by exact LG. congruence. }
  assert (E : rate_norm (corrected (A := F32 lm) Gyr c (raw3 (A := F32 lm) gx gy gz) 3) = rate_norm (A := F32 lm) w).
  { unfold rate_norm. cbn [fsum]. rewrite !EW by lia. reflexivity. }
  rewrite E in W. destruct (@fltb (F32 lm) EPSILON (rate_norm (A := F32 lm) w)) eqn:B; [|reflexivity]. exfalso.
  destruct W as (_ & [_ SF] & _).
  assert (NF : forall z : f32, is_finite (Bmult mode_NE z (Bmult mode_NE (fhalf (A := F32 lm) : f32) (ar_ts s : f32))) = false).
  { intros z. destruct (ar_ts s : f32) as [| [] | |]; try discriminate; destruct z; reflexivity. }
  destruct HM as [E'|E']; rewrite E' in SF.
  - destruct SF as [SF _]. specialize (SF 0 ltac:(lia)). apply (valid_finite lm) in SF.
    assert (X : is_finite (eu_w (A := F32 lm) (ar_ts s) (corrected (A := F32 lm) Gyr c (raw3 (A := F32 lm) gx gy gz) 3) 0 : f32) = false) by apply NF.
    rewrite X in SF. discriminate.
  - destruct (SF 0 0 ltac:(lia) ltac:(lia)) as (V & _). apply (valid_finite lm) in V.
    assert (X : is_finite (ty_om (A := F32 lm) (ar_ts s) (corrected (A := F32 lm) Gyr c (raw3 (A := F32 lm) gx gy gz) 3) 0 0 : f32) = false) by apply NF.
    rewrite X in V. discriminate.
Qed.

(*@ example *)
(** a quarter-like turn by the Euler method: (1, 0, 0, 0) becomes (4/5, 0, 0, 3/5) *)
Example C42_example : forall (lm : Libm) (ck : bool), let A := F32 lm in
  let s := started_state lm (z32 1) (z32 0) (z32 0) (z32 0) (z32 2) Euler 1 in
  ar_hist ck s Live /\ show_v (ar_attitude s) = (4, true, [sf 1; sf 0; sf 0; sf 0]) /\
  shown (fun s => show_v (ar_attitude s)) (ar_update ck (z32 0) (z32 0) (lit32 3 4) s) =
    ((4, true, [B2SF (lit32 4 5); sf 0; sf 0; B2SF (lit32 3 5)]), Ok tt).
Proof. intros lm ck A s. split; [apply started; repeat split|]. split; vm_compute; reflexivity. Qed.
