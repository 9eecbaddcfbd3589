(** C78: calibration of a sensor reading in f32. *)
(*@+*)
From Coq Require Import List Arith ZArith Reals Lia Bool Lra SpecFloat.
From Flocq Require Import Core BinarySingleNaN.
From Verif Require Import M_Base M_Arith M_Utils M_Vector M_Matrix M_Sensors M_F32
  S_Spec S_Linalg S_Sensors P_Inst P_InstF.
Import ListNotations.
Local Open Scope R_scope.
(*@-*)
From Coq Require Import Psatz.
From Verif Require Import S_F32 S_Norm P_Hoare P_Cont P_Loops P_Access P_Pointwise P_Trans P_Float P_Product S_Compare
  P_Compare P_Dot P_Norm P_FErr P_Norm32 P_FAcc P_F32Ar P_Lup32 P_Inv32 P_Sensors.

Lemma pow60 : (2 ^ 60 : R) = 1152921504606846976. Proof. change 2 with (IZR 2). rewrite pow_IZR. reflexivity. Qed.
Lemma pow122 : 4 * (2 ^ 61 * 2 ^ 50 : R) <= huge.
Proof.
  rewrite <- pow_add. unfold huge. change (bpow radix2 120) with (IZR (2 ^ 120)). change 2 with (IZR 2). change 4 with (IZR 4). rewrite pow_IZR, <- mult_IZR.
  apply IZR_le. vm_compute. discriminate.
Qed.
Lemma pow61 : (2 ^ 61 : R) <= bpow radix2 127.
Proof. change (bpow radix2 127) with (IZR (2 ^ 127)). change 2 with (IZR 2). rewrite pow_IZR. apply IZR_le. vm_compute. discriminate. Qed.

(** the configuration of a sensor a program can reach holds finite numbers *)
Lemma config_finite lm k (s : Sensor (A := F32 lm)) (c : Config (A := F32 lm)) : sreach k s -> sensor_get_config k s = Ok c ->
  (forall a b, (a < 3)%nat -> (b < 3)%nat -> is_finite (coefficient (A := F32 lm) k c a b : f32) = true) /\
  (forall a, (a < 3)%nat -> is_finite (bias (A := F32 lm) c a : f32) = true).
Proof.
  intros Hr Hc. destruct (reach_is (OK := F32_ok lm) k s Hr) as (c0 & raw0 & cor & Hs).
  assert (I : s_initialized s = true). { unfold sensor_get_config in Hc. destruct (s_initialized s); [auto|discriminate]. }
  rewrite (get_config_is k s c0 raw0 cor Hs I) in Hc. injection Hc as ->. destruct Hs as [H1 H2 _ _]. split.
  - intros a b Ha Hb. apply (valid_finite lm). eapply (mat_is_valid (A := F32 lm)) in H1; [exact H1|exact Hb|exact Ha].
  - intros a Ha. apply (valid_finite lm). eapply (vec_is_valid (A := F32 lm)) in H2; [exact H2|exact Ha].
Qed.

(** everything an update computes is finite and close to its exact value *)
Lemma calib_core lm k (c : Config (A := F32 lm)) (raw : nat -> T (Arith := F32 lm)) :
  (forall a b, (a < 3)%nat -> (b < 3)%nat -> is_finite (coefficient (A := F32 lm) k c a b : f32) = true) ->
  (forall a, (a < 3)%nat -> is_finite (bias (A := F32 lm) c a : f32) = true) ->
  (forall a, (a < 3)%nat -> is_finite (raw a : f32) = true /\ Rabs (B2R (raw a : f32)) <= 2 ^ 60 /\ Rabs (B2R (bias (A := F32 lm) c a : f32)) <= 2 ^ 60) ->
  (forall a b, (a < 3)%nat -> (b < 3)%nat -> Rabs (B2R (coefficient (A := F32 lm) k c a b : f32)) <= 2 ^ 50) ->
  (raw_finite (A := F32 lm) raw /\ unbiased_finite (A := F32 lm) c raw /\ corrected_finite (A := F32 lm) k c raw) /\
  forall b, (b < 3)%nat -> is_finite (corrected (A := F32 lm) k c raw 3 b : f32) = true /\
    let term a := B2R (coefficient (A := F32 lm) k c a b : f32) * (B2R (raw a : f32) - B2R (bias (A := F32 lm) c a : f32)) in
    Rabs (B2R (corrected (A := F32 lm) k c raw 3 b : f32) - (term 0%nat + term 1%nat + term 2%nat)) <=
      31 / 100000000 * (Rabs (term 0%nat) + Rabs (term 1%nat) + Rabs (term 2%nat)) + / 10 ^ 20.
Proof.
  intros FC FB Hraw Hco.
  pose proof eta_40 as [E0 E1]. assert (U : u = 1 / 16777216) by reflexivity. pose proof pow60 as P60. pose proof pow122 as P122.
  assert (P61 : (2 ^ 61 : R) = 2 * 2 ^ 60) by (rewrite <- tech_pow_Rmult; ring).
  assert (Un : forall a, (a < 3)%nat -> is_finite (unbiased (A := F32 lm) c raw a : f32) = true /\
            Rabs (B2R (unbiased (A := F32 lm) c raw a : f32) - (B2R (raw a : f32) - B2R (bias (A := F32 lm) c a : f32))) <=
              u * Rabs (B2R (raw a : f32) - B2R (bias (A := F32 lm) c a : f32)) + eta /\
            Rabs (B2R (raw a : f32) - B2R (bias (A := F32 lm) c a : f32)) <= 2 ^ 61).
  { intros a Ha. destruct (Hraw a Ha) as (F1 & B1 & B2). pose proof (FB a Ha) as F2.
    assert (D : Rabs (B2R (raw a : f32) - B2R (bias (A := F32 lm) c a : f32)) <= 2 ^ 61).
    { unfold Rminus. eapply Rle_trans; [apply Rabs_triang|]. rewrite Rabs_Ropp. lra. }
    destruct (minus_ok (raw a : f32) (bias (A := F32 lm) c a : f32) F1 F2 (Rle_trans _ _ _ D pow61)) as [F3 R3].
    change (unbiased (A := F32 lm) c raw a : f32) with (Bminus mode_NE (raw a : f32) (bias (A := F32 lm) c a : f32)).
    split; [exact F3|]. split; [|exact D]. rewrite R3. apply rnd_near. lra. }
  assert (AC : forall n b, (n <= 3)%nat -> (b < 3)%nat ->
     acc (INR n + 1) (corrected (A := F32 lm) k c raw n b)
       (Rsum n (fun a => B2R (coefficient (A := F32 lm) k c a b : f32) * B2R (unbiased (A := F32 lm) c raw a : f32)))
       (Rsum n (fun a => Rabs (B2R (coefficient (A := F32 lm) k c a b : f32) * B2R (unbiased (A := F32 lm) c raw a : f32))))).
  { intros n b Hn Hb. apply (fsum_acc lm n (fun a => coefficient (A := F32 lm) k c a b) (fun a => unbiased (A := F32 lm) c raw a)); [lia| |].
    - intros a Ha. split; [apply FC; lia|apply Un; lia].
    - eapply Rle_trans; [|exact P122]. eapply Rle_trans; [apply Rsum_le with (h := fun _ => (4 / 3) * (2 ^ 61 * 2 ^ 50))|].
      + intros a Ha. destruct (Un a ltac:(lia)) as (_ & B1 & B2). pose proof (Hco a b ltac:(lia) Hb) as B3. rewrite Rabs_mult.
        assert (Rabs (B2R (unbiased (A := F32 lm) c raw a : f32)) <= 4 / 3 * 2 ^ 61).
        { set (x := B2R (unbiased (A := F32 lm) c raw a : f32)) in *. set (d := B2R (raw a : f32) - B2R (bias (A := F32 lm) c a : f32)) in *.
          replace x with (x - d + d) by ring. eapply Rle_trans; [apply Rabs_triang|]. rewrite U in B1. lra. }
        replace (4 / 3 * (2 ^ 61 * 2 ^ 50)) with (2 ^ 50 * (4 / 3 * 2 ^ 61)) by field.
        apply Rmult_le_compat; auto using Rabs_pos.
      + set (z := 2 ^ 61 * 2 ^ 50) in *. assert (0 <= z) by (apply Rmult_le_pos; apply pow_le; lra).
        clear - H Hn. destruct n as [|[|[|[|]]]]; cbn [Rsum]; try lia; lra. }
  split.
  { split; [|split].
    - intros a Ha. apply (valid_finite lm), Hraw, Ha.
    - intros a Ha. apply (valid_finite lm). apply Un, Ha.
    - intros b n Hb Hn. apply (valid_finite lm). apply AC; lia. }
  intros b Hb.
  destruct (AC 3%nat b ltac:(lia) Hb) as (F & _ & _ & Eb). split; [exact F|]. cbv zeta.
  replace (INR 3 + 1) with 4 in Eb by (cbn; lra). cbn [Rsum] in Eb.
  assert (Tm : forall a, (a < 3)%nat -> Rabs (B2R (coefficient (A := F32 lm) k c a b : f32) * B2R (unbiased (A := F32 lm) c raw a : f32) -
       B2R (coefficient (A := F32 lm) k c a b : f32) * (B2R (raw a : f32) - B2R (bias (A := F32 lm) c a : f32))) <=
       u * Rabs (B2R (coefficient (A := F32 lm) k c a b : f32) * (B2R (raw a : f32) - B2R (bias (A := F32 lm) c a : f32))) + 2 ^ 60 * eta).
  { intros a Ha. destruct (Un a Ha) as (_ & B1 & _). pose proof (Hco a b Ha Hb) as B3.
    rewrite <- Rmult_minus_distr_l, !Rabs_mult. pose proof (Rabs_pos (B2R (coefficient (A := F32 lm) k c a b : f32))) as Q0.
    assert (2 ^ 50 <= 2 ^ 60) by (apply Rle_pow; [lra|lia]).
    eapply Rle_trans; [apply Rmult_le_compat_l; [exact Q0|exact B1]|]. nra. }
  pose proof (Tm 0%nat ltac:(lia)) as T0. pose proof (Tm 1%nat ltac:(lia)) as T1. pose proof (Tm 2%nat ltac:(lia)) as T2.
  set (r := B2R (corrected (A := F32 lm) k c raw 3 b)) in *.
  set (x0 := B2R (coefficient (A := F32 lm) k c 0 b : f32) * B2R (unbiased (A := F32 lm) c raw 0 : f32)) in *.
  set (x1 := B2R (coefficient (A := F32 lm) k c 1 b : f32) * B2R (unbiased (A := F32 lm) c raw 1 : f32)) in *.
  set (x2 := B2R (coefficient (A := F32 lm) k c 2 b : f32) * B2R (unbiased (A := F32 lm) c raw 2 : f32)) in *.
  set (t0 := B2R (coefficient (A := F32 lm) k c 0 b : f32) * (B2R (raw 0%nat : f32) - _)) in *.
  set (t1 := B2R (coefficient (A := F32 lm) k c 1 b : f32) * (B2R (raw 1%nat : f32) - _)) in *.
  set (t2 := B2R (coefficient (A := F32 lm) k c 2 b : f32) * (B2R (raw 2%nat : f32) - _)) in *.
  change (Rabs (r - (0 + x0 + x1 + x2)) <= 4 * (1001 / 1000) * u * (0 + Rabs x0 + Rabs x1 + Rabs x2) + 3 * 4 * eta) in Eb.
  assert (E2 : 2 ^ 60 * eta <= / 10 ^ 40 * 1152921504606846976) by (rewrite P60; nra).
  assert (E3 : / 10 ^ 40 * 1152921504606846976 <= / 10 ^ 20 / 10).
  { apply Rmult_le_reg_l with (10 ^ 40); [apply pow_lt; lra|]. rewrite <- Rmult_assoc, Rinv_r, Rmult_1_l by (apply pow_nonzero; lra).
    replace (10 ^ 40) with (10 ^ 20 * 10 ^ 20) by (rewrite <- pow_add; reflexivity). unfold Rdiv.
    replace (10 ^ 20 * 10 ^ 20 * (/ 10 ^ 20 * / 10)) with (10 ^ 20 * / 10) by (field; apply pow_nonzero; lra). lra. }
  assert (E4 : / 10 ^ 40 <= / 10 ^ 20 / 1000) by lra.
  rewrite U in Eb, T0, T1, T2.
  assert (E5 : 2 ^ 60 * eta <= / 10 ^ 20 / 10) by lra. assert (E6 : eta <= / 10 ^ 20 / 1000) by lra. assert (E7 : 0 < / 10 ^ 20) by (apply Rinv_0_lt_compat, pow_lt; lra).
  clear E2 E3 E4. revert Eb T0 T1 T2 E5 E6 E7. generalize (/ 10 ^ 20) as g, (2 ^ 60 * eta) as h. intros g h Eb T0 T1 T2 E5 E6 E7.
  assert (A0 : Rabs x0 <= (1 + 1 / 16777216) * Rabs t0 + g / 10).
  { replace x0 with (x0 - t0 + t0) by ring. eapply Rle_trans; [apply Rabs_triang|]. lra. }
  assert (A1 : Rabs x1 <= (1 + 1 / 16777216) * Rabs t1 + g / 10).
  { replace x1 with (x1 - t1 + t1) by ring. eapply Rle_trans; [apply Rabs_triang|]. lra. }
  assert (A2 : Rabs x2 <= (1 + 1 / 16777216) * Rabs t2 + g / 10).
  { replace x2 with (x2 - t2 + t2) by ring. eapply Rle_trans; [apply Rabs_triang|]. lra. }
  change (Rabs (r - (t0 + t1 + t2)) <= 31 / 100000000 * (Rabs t0 + Rabs t1 + Rabs t2) + g).
  replace (r - (t0 + t1 + t2)) with ((r - (0 + x0 + x1 + x2)) + ((x0 - t0) + (x1 - t1) + (x2 - t2))) by ring.
  eapply Rle_trans; [apply Rabs_triang|].
  pose proof (Rabs_triang (x0 - t0 + (x1 - t1)) (x2 - t2)). pose proof (Rabs_triang (x0 - t0) (x1 - t1)).
  pose proof (Rabs_pos t0). pose proof (Rabs_pos t1). pose proof (Rabs_pos t2). lra.
Qed.

(*@ C78_calibration *)
(** C78 (f32), for every sensor a program can reach and initialised with the configuration c, whatever happened to it
    before: if the raw reading is finite, readings and biases are at most 2^60 and coefficients at most 2^50 in size,
    then the update succeeds and every reported axis is the calibration matrix applied to (raw - bias), exact up to
    3.1e-7 times the sum of the absolute terms plus 1e-20 *)
Lemma l_calib32 :
  forall (lm : Libm) (k : kind) (s : Sensor (A := F32 lm)) (c : Config (A := F32 lm)) (raw : nat -> T (Arith := F32 lm)),
  sreach k s -> sensor_get_config k s = Ok c ->
  (forall a, (a < 3)%nat -> is_finite (raw a : f32) = true /\ Rabs (B2R (raw a : f32)) <= 2 ^ 60 /\ Rabs (B2R (bias (A := F32 lm) c a : f32)) <= 2 ^ 60) ->
  (forall a b, (a < 3)%nat -> (b < 3)%nat -> Rabs (B2R (coefficient (A := F32 lm) k c a b : f32)) <= 2 ^ 50) ->
  let (s', o) := sensor_update (A := F32 lm) k (raw 0%nat) (raw 1%nat) (raw 2%nat) s in
  o = Ok tt /\ sensor_get_config k s' = Ok c /\
  forall b, (b < 3)%nat -> exists r : f32, sensor_get k b s' = Ok r /\ is_finite r = true /\
    let term a := B2R (coefficient (A := F32 lm) k c a b : f32) * (B2R (raw a : f32) - B2R (bias (A := F32 lm) c a : f32)) in
    Rabs (B2R r - (term 0%nat + term 1%nat + term 2%nat)) <=
      31 / 100000000 * (Rabs (term 0%nat) + Rabs (term 1%nat) + Rabs (term 2%nat)) + / 10 ^ 20.
Proof.
  intros lm k s c raw Hr Hc Hraw Hco. destruct (config_finite lm k s c Hr Hc) as [FC FB].
  pose proof (l_update (F32 lm) (F32_ok lm) k s c raw Hr Hc) as W.
  destruct (sensor_update (A := F32 lm) k (raw 0%nat) (raw 1%nat) (raw 2%nat) s) as [s' o]. destruct W as (W & _ & W').
  destruct (calib_core lm k c raw FC FB Hraw Hco) as (X & Y). destruct (W X) as (-> & G).
  split; [auto|]. split; [auto|]. intros b Hb. exists (corrected (A := F32 lm) k c raw 3 b). split; [exact (G b Hb)|]. exact (Y b Hb).
Qed.

(*@ C78_axis *)
(** C78 (f32): with no cross coefficient feeding the axis (a diagonal calibration), the reported value has relative error
    at most 3.1e-7 (plus 1e-20): scale times (raw - bias) *)
Lemma l_calib_axis :
  forall (lm : Libm) (k : kind) (s : Sensor (A := F32 lm)) (c : Config (A := F32 lm)) (raw : nat -> T (Arith := F32 lm)) (b : nat),
  sreach k s -> sensor_get_config k s = Ok c -> (b < 3)%nat ->
  (forall a, (a < 3)%nat -> is_finite (raw a : f32) = true /\ Rabs (B2R (raw a : f32)) <= 2 ^ 60 /\ Rabs (B2R (bias (A := F32 lm) c a : f32)) <= 2 ^ 60) ->
  (forall a b, (a < 3)%nat -> (b < 3)%nat -> Rabs (B2R (coefficient (A := F32 lm) k c a b : f32)) <= 2 ^ 50) ->
  (forall a, (a < 3)%nat -> a <> b -> B2R (coefficient (A := F32 lm) k c a b : f32) = 0) ->
  exists r : f32, sensor_get k b (fst (sensor_update (A := F32 lm) k (raw 0%nat) (raw 1%nat) (raw 2%nat) s)) = Ok r /\
    let x := B2R (named (A := F32 lm) c b b : f32) * (B2R (raw b : f32) - B2R (bias (A := F32 lm) c b : f32)) in
    Rabs (B2R r - x) <= 31 / 100000000 * Rabs x + / 10 ^ 20.
Proof.
  intros lm k s c raw b Hr Hc Hb Hraw Hco Z. pose proof (l_calib32 lm k s c raw Hr Hc Hraw Hco) as W.
  destruct (sensor_update (A := F32 lm) k (raw 0%nat) (raw 1%nat) (raw 2%nat) s) as [s' o]. destruct W as (_ & _ & W).
  destruct (W b Hb) as (r & G & _ & B). cbv zeta in B. exists r. split; [exact G|]. cbv zeta.
  assert (D : named (A := F32 lm) c b b = coefficient (A := F32 lm) k c b b).
  { destruct k; [reflexivity|reflexivity|]. do 3 (destruct b as [|b]; [reflexivity|]). lia. }
  rewrite D. destruct b as [|[|[|]]]; [| | |lia].
  - rewrite (Z 1%nat), (Z 2%nat) in B by lia. rewrite !Rmult_0_l, !Rplus_0_r, Rabs_R0, !Rplus_0_r in B. exact B.
  - rewrite (Z 0%nat), (Z 2%nat) in B by lia. rewrite !Rmult_0_l, !Rplus_0_l, !Rplus_0_r, Rabs_R0, !Rplus_0_l, !Rplus_0_r in B. exact B.
  - rewrite (Z 0%nat), (Z 1%nat) in B by lia. rewrite !Rmult_0_l, !Rplus_0_l, Rabs_R0, !Rplus_0_l in B. exact B.
Qed.

(** a sensor made, initialised and configured with integers *)
Lemma make_sensor lm k (l : list Z) : length l = 12%nat -> Forall (fun z => (Z.abs z <= 2 ^ 24)%Z) l ->
  exists (s : Sensor (A := F32 lm)) (c : Config (A := F32 lm)), sreach k s /\ sensor_get_config k s = Ok c /\ fields (A := F32 lm) c = map z32 l.
Proof.
  intros Hl Fl. destruct (l_new (F32 lm) (F32_ok lm) k) as (s & _ & Hr & I).
  destruct (of_fields (A := F32 lm) (map z32 l)) as (c & Ec); [exact (eq_trans (map_length z32 l) Hl)|].
  pose proof (l_config (F32 lm) (F32_ok lm) k s c Hr (CInit c) (or_introl (conj I eq_refl))) as W.
  pose proof (sr_call k s (CInit c) Hr) as Hr'. destruct (do_call k (CInit c) s) as [s' o]. destruct W as (W & _).
  exists s', c. split; [exact Hr'|]. split; [|exact Ec]. apply W. rewrite Ec. intros x Hx. apply (in_map_iff z32 l x) in Hx.
  destruct Hx as (z & <- & Hz). apply (valid_finite lm). rewrite Forall_forall in Fl. apply (z32_R z), Fl, Hz.
Qed.
Lemma zval z : (Z.abs z <= 2 ^ 24)%Z -> is_finite (z32 z) = true /\ B2R (z32 z) = IZR z.
Proof. intros H. apply (z32_R z), H. Qed.
Lemma zbound z : (Z.abs z <= 2 ^ 24)%Z -> Rabs (B2R (z32 z)) <= 2 ^ 50.
Proof.
  intros H. destruct (zval z H) as [_ ->]. rewrite <- abs_IZR. change 2 with (IZR 2). rewrite pow_IZR. apply IZR_le.
  assert (2 ^ 24 <= 2 ^ Z.of_nat 50)%Z by (vm_compute; discriminate). lia.
Qed.
Lemma pow5060 : (2 ^ 50 : R) <= 2 ^ 60. Proof. apply Rle_pow; [lra|lia]. Qed.

Definition cut_raw (a : nat) : f32 := match a with O => z32 1 | _ => z32 16777216 end.

Lemma cut_sensor lm : exists (s : Sensor (A := F32 lm)) (c : Config (A := F32 lm)), sreach Acc s /\ sensor_get_config Acc s = Ok c /\
  (coefficient (A := F32 lm) Acc c 0 0 = z32 1 /\ coefficient (A := F32 lm) Acc c 1 0 = z32 1 /\ coefficient (A := F32 lm) Acc c 2 0 = z32 (-1)) /\
  (forall a, (a < 3)%nat -> bias (A := F32 lm) c a = z32 0) /\
  (forall a b, (a < 3)%nat -> (b < 3)%nat -> exists z, (Z.abs z <= 1)%Z /\ coefficient (A := F32 lm) Acc c a b = z32 z).
Proof.
  destruct (make_sensor lm Acc [1; 1; 1; 0; 0; 1; 0; -1; 0; 0; 0; 0]%Z eq_refl) as (s & c & Hr & Hc & E).
  { repeat constructor; vm_compute; discriminate. }
  exists s, c. split; [exact Hr|]. split; [exact Hc|]. clear Hc Hr s. unfold fields in E. cbn [map] in E.
  remember z32 as f. injection E. intros. subst f.
  unfold coefficient, named, bias.
  split; [auto|]. split.
  - intros a Ha. destruct a as [|[|[|]]]; [auto|auto|auto|lia].
  - intros a b Ha Hb. destruct a as [|[|[|]]]; [| | |lia]; (destruct b as [|[|[|]]]; [| | |lia]); eexists; (split; [|eassumption]); vm_compute; discriminate.
Qed.

(*@ C78_relative_refuted *)
(** C78 (f32), violated: the error is not small relative to the answer itself.  An accelerometer with coefficients 1 and
    -1 and no bias reports exactly 0 for a reading whose calibrated value is 1 *)
Lemma l_calib_cut :
  forall lm : Libm,
  exists (s : Sensor (A := F32 lm)) (c : Config (A := F32 lm)) (raw : nat -> T (Arith := F32 lm)), sreach Acc s /\ sensor_get_config Acc s = Ok c /\
  let term a := B2R (coefficient (A := F32 lm) Acc c a 0 : f32) * (B2R (raw a : f32) - B2R (bias (A := F32 lm) c a : f32)) in
  term 0%nat + term 1%nat + term 2%nat = 1 /\ (forall a, (a < 3)%nat -> Rabs (B2R (coefficient (A := F32 lm) Acc c a 0 : f32)) = 1) /\
  exists r : f32, sensor_get Acc 0 (fst (sensor_update (A := F32 lm) Acc (raw 0%nat) (raw 1%nat) (raw 2%nat) s)) = Ok r /\ B2R r = 0.
Proof.
  intros lm. destruct (cut_sensor lm) as (s & c & Hr & Hc & (C0 & C1 & C2) & Hb & Hco). exists s, c, cut_raw.
  split; [exact Hr|]. split; [exact Hc|]. cbv beta zeta. rewrite C0, C1, C2, !Hb by lia. unfold cut_raw.
  destruct (zval 1 ltac:(vm_compute; discriminate)) as [_ R1]. destruct (zval (-1) ltac:(vm_compute; discriminate)) as [_ R2].
  destruct (zval 0 ltac:(vm_compute; discriminate)) as [_ R0]. destruct (zval 16777216 ltac:(vm_compute; discriminate)) as [_ R3].
  split; [rewrite R0, R1, R2, R3; lra|]. split.
  { intros a Ha. destruct a as [|[|[|]]]; [rewrite C0|rewrite C1|rewrite C2|lia]; rewrite ?R1, ?R2; [apply Rabs_R1|apply Rabs_R1|rewrite Rabs_left; lra]. }
  pose proof (l_update (F32 lm) (F32_ok lm) Acc s c cut_raw Hr Hc) as W.
  pose proof (l_calib32 lm Acc s c cut_raw Hr Hc) as W2.
  change (cut_raw 0) with (z32 1) in *. change (cut_raw 1) with (z32 16777216) in *. change (cut_raw 2) with (z32 16777216) in *.
  assert (FR : forall a, (a < 3)%nat -> is_finite (cut_raw a) = true /\ Rabs (B2R (cut_raw a)) <= 2 ^ 60 /\ Rabs (B2R (bias (A := F32 lm) c a : f32)) <= 2 ^ 60).
  { intros a Ha. rewrite Hb by auto. pose proof pow5060.
    assert (K : forall z, (Z.abs z <= 2 ^ 24)%Z -> is_finite (z32 z) = true /\ Rabs (B2R (z32 z)) <= 2 ^ 60 /\ Rabs (B2R (z32 0)) <= 2 ^ 60).
    { intros z Hz. split; [apply zval, Hz|]. split; eapply Rle_trans; try exact H; apply zbound; [exact Hz|vm_compute; discriminate]. }
    destruct a; apply K; vm_compute; discriminate. }
  specialize (W2 FR). destruct (sensor_update (A := F32 lm) Acc (z32 1) (z32 16777216) (z32 16777216) s) as [s' o] eqn:Eu.
  destruct W2 as (Eo & _ & G).
  { intros a b Ha Hb'. destruct (Hco a b Ha Hb') as (z & Hz & ->). apply zbound. assert (1 <= 2 ^ 24)%Z by (vm_compute; discriminate). lia. }
  destruct W as (_ & N & _). cbn [fst].
  pose proof (l_update (F32 lm) (F32_ok lm) Acc s c cut_raw Hr Hc) as W3.
  change (cut_raw 0) with (z32 1) in W3. change (cut_raw 1) with (z32 16777216) in W3. change (cut_raw 2) with (z32 16777216) in W3.
  rewrite Eu in W3. destruct W3 as (S1 & S2 & _).
  destruct (G 0%nat ltac:(lia)) as (r & Gr & Fr & _). exists r. split; [exact Gr|].
  destruct (Classical_Prop.classic (raw_finite (A := F32 lm) cut_raw /\ unbiased_finite (A := F32 lm) c cut_raw /\ corrected_finite (A := F32 lm) Acc c cut_raw)) as [Y|Y].
  2:{ exfalso. destruct (S2 Y) as (e & Ee & _). congruence. }
  destruct (S1 Y) as (_ & G2). pose proof (G2 0%nat ltac:(lia)) as G3. rewrite Gr in G3.
  rewrite C0, C1, C2, !Hb in G3 by lia.
  match type of G3 with Ok _ = Ok ?x => assert (G4 : r = x) by congruence; rewrite G4 end. clear - lm.
  match goal with |- B2R ?x = 0 => assert (E : B2SF (x : f32) = S754_zero false) by (vm_compute; reflexivity); destruct (x : f32); try discriminate E; reflexivity end.
Qed.

Lemma l_calib_example (lm : Libm) :
  exists (s : Sensor (A := F32 lm)) (c : Config (A := F32 lm)) (raw : nat -> T (Arith := F32 lm)), sreach Acc s /\ sensor_get_config Acc s = Ok c /\
  (forall a, (a < 3)%nat -> is_finite (raw a : f32) = true /\ Rabs (B2R (raw a : f32)) <= 2 ^ 60 /\ Rabs (B2R (bias (A := F32 lm) c a : f32)) <= 2 ^ 60) /\
  (forall a b, (a < 3)%nat -> (b < 3)%nat -> Rabs (B2R (coefficient (A := F32 lm) Acc c a b : f32)) <= 2 ^ 50) /\
  B2R (coefficient (A := F32 lm) Acc c 2 0 : f32) = -1 /\ B2R (raw 1%nat : f32) = 16777216.
Proof.
  destruct (cut_sensor lm) as (s & c & Hr & Hc & (C0 & C1 & C2) & Hb & Hco). exists s, c, cut_raw. split; [exact Hr|]. split; [exact Hc|].
  split; [|split; [|split]].
  - intros a Ha. rewrite Hb by auto. pose proof pow5060.
    assert (K : forall z, (Z.abs z <= 2 ^ 24)%Z -> is_finite (z32 z) = true /\ Rabs (B2R (z32 z)) <= 2 ^ 60 /\ Rabs (B2R (z32 0)) <= 2 ^ 60).
    { intros z Hz. split; [apply zval, Hz|]. split; eapply Rle_trans; try exact H; apply zbound; [exact Hz|vm_compute; discriminate]. }
    destruct a; apply K; vm_compute; discriminate.
  - intros a b Ha Hb'. destruct (Hco a b Ha Hb') as (z & Hz & ->). apply zbound. assert (1 <= 2 ^ 24)%Z by (vm_compute; discriminate). lia.
  - rewrite C2. apply zval. vm_compute. discriminate.
  - apply (zval 16777216). vm_compute. discriminate.
Qed.

(*@ example *)
(** the hypotheses of C78_calibration are met, with readings of opposite effect and cross coefficients *)
Example C78_example : forall lm : Libm,
  exists (s : Sensor (A := F32 lm)) (c : Config (A := F32 lm)) (raw : nat -> T (Arith := F32 lm)), sreach Acc s /\ sensor_get_config Acc s = Ok c /\
  (forall a, (a < 3)%nat -> is_finite (raw a : f32) = true /\ Rabs (B2R (raw a : f32)) <= 2 ^ 60 /\ Rabs (B2R (bias (A := F32 lm) c a : f32)) <= 2 ^ 60) /\
  (forall a b, (a < 3)%nat -> (b < 3)%nat -> Rabs (B2R (coefficient (A := F32 lm) Acc c a b : f32)) <= 2 ^ 50) /\
  B2R (coefficient (A := F32 lm) Acc c 2 0 : f32) = -1 /\ B2R (raw 1%nat : f32) = 16777216.
Proof. exact l_calib_example. Qed.
