(** C42: the angular-rate filter in f32. *)
(*@+*)
From Coq Require Import List Arith ZArith NArith Reals Lia Bool Lra SpecFloat.
From Flocq Require Import Core BinarySingleNaN.
From Verif Require Import M_Base M_Arith M_Utils M_Vector M_Matrix M_Quaternion M_Sensors M_Ar M_F32 M_RX
  S_Spec S_Linalg S_Norm S_Quat S_Sensors S_Ar P_Inst.
Import ListNotations.
Local Open Scope nat_scope.
(*@-*)
From Verif Require Import P_Hoare P_Cont P_Loops P_Access P_Pointwise P_Trans P_Float P_Product P_Diag P_Quat P_Rot P_Norm P_Sensors P_FErr P_Norm32 P_Ar.

(** ** C42 *)
Definition fmax32 : f32 := z32 340282346638528859811704183484516925440.
Lemma fmax32_val : is_finite fmax32 = true /\ B2R fmax32 = (bpow radix2 128 - bpow radix2 104)%R.
Proof. split; [reflexivity|]. unfold fmax32. cbn. unfold F2R. cbn. lra. Qed.
(** adding a number of magnitude at most 2 never overflows *)
Lemma plus_small (x y : f32) : is_finite x = true -> is_finite y = true -> (Rabs (B2R x) <= 2)%R -> is_finite (Bplus mode_NE x y) = true.
Proof.
  intros Fx Fy Hx. pose proof (Bplus_correct prec emax _ _ mode_NE x y Fx Fy) as C. cbn [round_mode] in C.
  assert (L : (Rabs (rnd32 (B2R x + B2R y)) < bpow radix2 emax)%R); [|rewrite Rlt_bool_true in C by exact L; tauto].
  rewrite <- round_NE_abs by (apply fexp_correct; reflexivity).
  destruct fmax32_val as [Fm Em]. pose proof (abs_B2R_le_emax_minus_prec prec emax _ y) as Hy. change (emax - prec)%Z with 104%Z in Hy. change emax with 128%Z in Hy.
  assert (F2 : is_finite (Bplus mode_NE fmax32 (z32 2)) = true) by (vm_compute; reflexivity).
  assert (E2 : B2R (z32 2) = 2%R) by (cbn; unfold F2R; cbn; lra).
  pose proof (plus_fin fmax32 (z32 2) Fm eq_refl F2) as E. rewrite E2 in E.
  apply Rle_lt_trans with (rnd32 (B2R fmax32 + 2)).
  - apply round_le; [apply fexp_correct; reflexivity|auto with typeclass_instances|]. eapply Rle_trans; [apply Rabs_triang|]. rewrite Em, Rplus_comm. apply Rplus_le_compat; [exact Hy|exact Hx].
  - rewrite <- E. eapply Rle_lt_trans; [apply Rle_abs|]. apply abs_B2R_lt_emax.
Qed.

Section Unit.
  Context (lm : Libm).
  Notation A := (F32 lm).
  Implicit Types (s : AR (A := A)).

  Lemma good_bound (f : nat -> f32) i : (i < 4)%nat -> good f -> (Rabs (B2R (f i)) <= 2)%R.
  Proof.
    intros Hi [H|H]; [|rewrite (H i Hi), Rabs_R0; lra].
    eapply Rle_trans; [apply (rnorm_bound 4 (fun i => B2R (f i)) i Hi)|]. apply Rabs_def2 in H. lra.
  Qed.
  Lemma good_ext (f g : nat -> f32) : (forall i, i < 4 -> f i = g i) -> good f -> good g.
  Proof.
    intros E [H|H]; [left|right].
    - rewrite (rnorm_ext 4 _ (fun i => B2R (f i))); [exact H|]. intros i Hi. rewrite E by auto. reflexivity.
    - intros i Hi. rewrite <- E by auto. auto.
  Qed.

  (** one update *)
  Lemma update_unit ck gx gy gz s c f : ar_inv s Live -> sensor_get_config Gyr (ar_gyr s) = Ok c -> vec_is (ar_attitude s) 4 f ->
    let (s', o) := ar_update ck gx gy gz s in
    let w := corrected Gyr c (raw3 gx gy gz) 3 in
    (o = Ok tt -> (rate_norm w >? EPSILON)%F = false -> ar_attitude s' = ar_attitude s) /\
    (o = Ok tt -> (rate_norm w >? EPSILON)%F = true -> exists g, vec_is (ar_attitude s') 4 g /\ good g) /\
    (forall e, o = Err e -> (ar_method s <> Euler \/ good f) -> ar_attitude s' = ar_attitude s).
  Proof.
    intros HI Hc Hf. destruct (live_facts s HI) as (c1 & raw & cor & f1 & Hs & Hc1 & _). rewrite Hc in Hc1. injection Hc1 as <-.
    destruct HI as (HR & I & AI & _).
    pose proof (ar_update_wp ck s c raw cor f (raw3 gx gy gz) Hs I AI Hf) as W. change (raw3 (A := F32 lm) gx gy gz 0) with gx in W; change (raw3 (A := F32 lm) gx gy gz 1) with gy in W; change (raw3 (A := F32 lm) gx gy gz 2) with gz in W. cbv zeta in W. unfold wp in W.
    destruct (ar_update ck gx gy gz s) as [s' [[]|e|]]; cbv zeta; (split; [|split]); try discriminate.
    - intros _ E. destruct W as (_ & _ & _ & W). rewrite E in W. exact W.
    - intros _ E. destruct W as (_ & _ & _ & W). rewrite E in W. destruct W as (_ & _ & v & Hv & EV).
      destruct (l_normalize_total lm v 4 _ Hv) as (v' & g & E' & Hg & G). rewrite EV in E'. injection E' as <-. exists g. auto.
    - intros e' _ HM. destruct W as (_ & _ & _ & [(_ & _ & W)|(_ & _ & [(_ & _ & W)|[(_ & _ & W)|(_ & [Sup HO] & SF & W)]])]); auto.
      exfalso. destruct W as [W|W].
      + apply W. intros i Hi. destruct SF as [_ SF]. destruct Sup as [E|[E|E]]; rewrite E in *; cbn [step].
        * apply (SF i 0 Hi ltac:(lia)). lia.
        * apply (SF i 0 Hi ltac:(lia)); [auto|lia].
        * destruct HM as [HM|HM]; [congruence|]. destruct SF as [_ SF]. apply (valid_finite lm). apply plus_small.
          -- apply (valid_finite lm). eapply vec_is_valid; eauto.
          -- apply (valid_finite lm). apply SF. exact Hi.
          -- apply good_bound; auto.
      + destruct W as (v & Hv & NE). destruct (l_normalize_total lm v 4 _ Hv) as (v' & g & E' & _). rewrite E' in NE. apply NE. reflexivity.
  Qed.
  Lemma later_good ck s0 s f0 : ar_inv s0 Live -> vec_is (ar_attitude s0) 4 f0 -> good f0 -> ar_later ck s0 s ->
    ar_inv s Live /\ exists f, vec_is (ar_attitude s) 4 f /\ good f.
  Proof.
    intros H0 Hf0 G0 L. induction L as [|s q L (IH & f & Hf & G) NP]; [eauto|]. destruct q as [qw qx qy qz c ts m order|gx gy gz]; cbn [ar_do fst snd] in *.
    - rewrite (init_live _ _ _ _ _ _ _ _ _ IH). cbn [fst]. eauto.
    - split; [apply update_live; auto|]. destruct (live_facts s IH) as (c & _ & _ & _ & _ & Hc & _).
      pose proof (update_unit ck gx gy gz s c f IH Hc Hf) as U. destruct (ar_update ck gx gy gz s) as [s' [[]|e|]]; cbn [fst snd] in *; [| |congruence].
      + destruct U as (U1 & U2 & _). destruct (rate_norm _ >? EPSILON)%F eqn:E; [apply U2; auto|rewrite U1 by auto; eauto].
      + destruct U as (_ & _ & U3). rewrite (U3 e) by auto. eauto.
  Qed.
End Unit.

(*@ C42_unit *)
(** C42, in f32 with any libm, any method and after any history: a successful update that saw rotation (the
    corrected rate, which is what the gyrometer then reports, has a norm above EPSILON) leaves an attitude
    of true norm within 1e-6 of 1, or exactly zero; one that saw none leaves the attitude as it was; and a failed
    one too, unless the method is Euler and the attitude was not unit. *)
Lemma l_ar_unit :
  forall (lm : Libm) (ck : bool) (s : AR (A := F32 lm)) (f w : nat -> f32) (gx gy gz : f32), let A := F32 lm in
  ar_hist ck s Live -> vec_is (ar_attitude s) 4 f ->
  let (s', o) := ar_update ck gx gy gz s in
  (o = Ok tt -> (forall i, i < 3 -> sensor_get Gyr i (ar_gyr s') = Ok (w i)) ->
     ((rate_norm w >? EPSILON)%F = true -> exists g, vec_is (ar_attitude s') 4 g /\ good g) /\
     ((rate_norm w >? EPSILON)%F = false -> ar_attitude s' = ar_attitude s)) /\
  (forall e, o = Err e -> ar_method s <> Euler \/ good f -> ar_attitude s' = ar_attitude s).
Proof.
  intros lm ck s f w gx gy gz A H Hf. subst A. pose proof (hist_inv ck s Live H) as IV.
  destruct (live_facts s IV) as (c & raw & cor & _ & Hs & Hc & _).
  pose proof (update_unit lm ck gx gy gz s c f IV Hc Hf) as U. pose proof (update_live (A := F32 lm) ck gx gy gz s IV) as [UL _].
  pose proof (l_update (F32 lm) _ Gyr (ar_gyr s) c (raw3 (A := F32 lm) gx gy gz) ltac:(apply IV) Hc) as LU. change (raw3 (A := F32 lm) gx gy gz 0) with gx in LU; change (raw3 (A := F32 lm) gx gy gz 1) with gy in LU; change (raw3 (A := F32 lm) gx gy gz 2) with gz in LU.
  destruct (ar_update (A := F32 lm) ck gx gy gz s) as [s' o] eqn:EU. cbn [fst snd] in UL. destruct U as (U1 & U2 & U3). split; [|exact U3].
  intros -> Hw. destruct (UL ltac:(discriminate)) as (_ & _ & EG). rewrite EG in Hw.
  assert (E : rate_norm (corrected (A := F32 lm) Gyr c (raw3 (A := F32 lm) gx gy gz) 3) = rate_norm (A := F32 lm) w).
  { pose proof (ar_update_wp (A := F32 lm) ck s c raw cor f (raw3 (A := F32 lm) gx gy gz) Hs ltac:(apply IV) ltac:(apply IV) Hf) as W. change (raw3 (A := F32 lm) gx gy gz 0) with gx in W; change (raw3 (A := F32 lm) gx gy gz 1) with gy in W; change (raw3 (A := F32 lm) gx gy gz 2) with gz in W. cbv zeta in W. unfold wp in W.
    rewrite EU in W. destruct W as (_ & _ & Se & _). destruct (sensor_update (A := F32 lm) Gyr gx gy gz (ar_gyr s)) as [g' o'].
    destruct LU as (LU & _). destruct (LU Se) as [_ LG]. cbn [fst] in Hw.
    assert (EW : forall i, i < 3 -> corrected (A := F32 lm) Gyr c (raw3 (A := F32 lm) gx gy gz) 3 i = w i).
    { intros i Hi. specialize (LG i Hi). rewrite Hw in LG by auto. assert (E : Ok (E := AhrsError) (w i) = Ok (corrected (A := F32 lm) Gyr c (raw3 (A := F32 lm) gx gy gz) 3 i)) by exact LG. congruence. }
    unfold rate_norm. cbn [fsum]. rewrite !EW by lia. reflexivity. }
  rewrite E in U1, U2. split; auto.
Qed.

(*@ C42_history *)
(** C42: once the attitude is unit (or zero) - in particular if the filter was initialised with a unit quaternion -
    it stays so along every further history of calls, successful or not: drift never accumulates *)
Lemma l_ar_history :
  forall (lm : Libm) (ck : bool) (s0 s : AR (A := F32 lm)) (f : nat -> f32), let A := F32 lm in
  ar_hist ck s0 Live -> vec_is (ar_attitude s0) 4 f -> good f -> ar_later ck s0 s ->
  exists v g, ar_get_attitude s = Ok v /\ vec_is v 4 g /\ good g.
Proof.
  intros lm ck s0 s f A H Hf G L. destruct (later_good lm ck s0 s f (hist_inv _ _ _ H) Hf G L) as ((_ & _ & E & _) & g & Hg & Gg).
  unfold ar_get_attitude. rewrite E. cbn [negb]. destruct (v_duplicate_ok _ _ _ Hg) as (v & -> & Hv). exists v, g. auto.
Qed.
