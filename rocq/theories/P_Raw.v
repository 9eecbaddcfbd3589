(** C79: from raw readings to the attitude in mode AM, in f32. *)
(*@+*)
From Coq Require Import List Arith ZArith NArith Reals Lia Bool Lra SpecFloat.
From Flocq Require Import Core BinarySingleNaN.
From Verif Require Import M_Base M_Arith M_Utils M_Vector M_Matrix M_Quaternion M_Sensors M_Ar M_Aqua M_F32
  S_Spec S_Linalg S_Norm S_Quat S_Sensors S_Ar S_Aqua S_F32 S_Reading S_Rest S_Raw P_Inst P_InstF.
Import ListNotations.
Local Open Scope R_scope.
(*@-*)
From Coq Require Import Psatz.
From Verif Require Import P_Float P_Norm P_FErr P_Norm32 P_Quat P_Rot P_Sensors P_Aqua P_AquaR P_AquaM P_FAcc P_F32Mul P_F32Rot P_F32App P_F32Am P_AmGeo P_Am32 P_RestGeo P_MargRun P_RestF P_Rest32 P_AmTrue P_Qr32 P_Calib32.

(** directions of nearby vectors *)
Lemma dir_near (x y : nat -> R) : 0 < rnorm 3 x -> 0 < rnorm 3 y ->
  vdist 3 (fun i => y i / rnorm 3 y) (fun i => x i / rnorm 3 x) <= 2 * (vdist 3 y x / rnorm 3 x).
Proof.
  intros Px Py. set (n := rnorm 3 x) in *. set (m := rnorm 3 y) in *.
  assert (E : vdist 3 (fun i => y i / m) (fun i => x i / n) = rnorm 3 (fun i => / n * (y i - x i) + (/ m - / n) * y i)).
  { apply rnorm_ext. intros i Hi. field. lra. }
  rewrite E. eapply Rle_trans; [apply rnorm_tri|]. rewrite !rnorm_scal. fold m. change (rnorm 3 (fun i => y i - x i)) with (vdist 3 y x).
  pose proof (vdist_norm y x) as D. fold n m in D.
  assert (A1 : Rabs (/ m - / n) * m = Rabs (m - n) / n).
  { replace (/ m - / n) with ((n - m) * / (m * n)) by (field; lra). rewrite Rabs_mult, (Rabs_pos_eq (/ (m * n))) by (left; apply Rinv_0_lt_compat; nra).
    rewrite Rabs_minus_sym. field. lra. }
  rewrite A1, Rabs_pos_eq by (left; apply Rinv_0_lt_compat; lra). unfold Rdiv.
  assert (0 < / n) by (apply Rinv_0_lt_compat; lra). nra.
Qed.

(** a reading of ordinary size is accepted, and the value reported points in the calibrated direction *)
Lemma reading_near lm k (s : Sensor (A := F32 lm)) (c : Config (A := F32 lm)) (x y z : T (Arith := F32 lm)) (K : R) : sreach k s -> sensor_get_config k s = Ok c ->
  ordinary k c (raw3 x y z) -> mixing k c (raw3 x y z) K -> 1 <= K <= 10000 -> 3 * eps <= rnorm 3 (calibrated k c (raw3 x y z)) <= bpow radix2 59 ->
  exists v, reading (lm := lm) k c x y z v /\ 2 * eps <= rnorm 3 v <= bpow radix2 60 /\
    vdist 3 (fun i => v i / rnorm 3 v) (fun i => calibrated k c (raw3 x y z) i / rnorm 3 (calibrated k c (raw3 x y z))) <= 13 / 10000000 * K.
Proof.
  intros Hr Hc [Hraw Hco] HM HK [HL HH]. destruct (config_finite lm k s c Hr Hc) as [FC FB].
  destruct (calib_core lm k c (raw3 x y z) FC FB Hraw Hco) as ((R1 & R2 & R3) & B).
  set (v := fun b => B2R (corrected (A := F32 lm) k c (raw3 x y z) 3 b : f32)). exists v.
  split. { split; [exact R1|]. split; [exact R2|]. split; [exact R3|]. intros i Hi. reflexivity. }
  set (w := calibrated k c (raw3 x y z)) in *. set (n := rnorm 3 w) in *. unfold eps in *.
  assert (C : forall b, (b < 3)%nat -> Rabs (v b - w b) <= 32 / 100000000 * K * n).
  { intros b Hb. destruct (B b Hb) as (_ & B1). cbv zeta in B1. pose proof (HM b Hb) as B2.
    change (Rabs (v b - w b) <= 31 / 100000000 * (Rabs (contribution k c (raw3 x y z) b 0) + Rabs (contribution k c (raw3 x y z) b 1) + Rabs (contribution k c (raw3 x y z) b 2)) + / 10 ^ 20) in B1.
    fold w n in B2. assert (3 / 10000 <= K * n) by nra.
    assert (/ 10 ^ 20 <= 1 / 100000000 * (3 / 10000)) by lra. lra. }
  assert (D : vdist 3 v w <= 64 / 100000000 * K * n).
  { unfold vdist. eapply Rle_trans; [apply (rnorm_cell 3 _ (32 / 100000000 * K * n)); [lia|nra|exact C]|]. lra. }
  pose proof (vdist_norm v w) as N. fold n in N. assert (N' : - vdist 3 v w <= rnorm 3 v - n <= vdist 3 v w) by (split; [pose proof (Rle_abs (- (rnorm 3 v - n))) as Q; rewrite Rabs_Ropp in Q; lra|pose proof (Rle_abs (rnorm 3 v - n)); lra]).
  assert (D2 : 64 / 100000000 * K * n <= 1 / 100 * n) by nra.
  assert (B60 : bpow radix2 60 = 2 * bpow radix2 59) by (change 60%Z with (1 + 59)%Z; rewrite bpow_plus; reflexivity).
  split; [lra|]. eapply Rle_trans; [apply dir_near; fold n; lra|]. fold n.
  assert (vdist 3 v w / n <= 64 / 100000000 * K); [|lra]. apply Rmult_le_reg_r with n; [lra|]. unfold Rdiv. rewrite Rmult_assoc, Rinv_l by lra. lra.
Qed.

(*@ C79_raw *)
(** C79 (f32), for every libm, every live filter in mode AM with any calibration and any history: let the exact calibrated
    acceleration and field (coefficients times raw minus bias) point within eta of the true vertical and within mu of the
    true field, for a true attitude t.  If the contributions of the axes are at most Ka and Km times the length of the
    whole, then an update with the raw readings succeeds, with a tilt error of at most
    (eta + 1.3e-6 Ka)/2 + 1.5e-5 and a heading error of at most 0.51 rho / h *)
Lemma l_raw_am :
  forall (lm : Libm) (s : Aqua (A := F32 lm)) (ca cm : Config (A := F32 lm)) (gx gy gz : option (T (Arith := F32 lm)))
    (ax ay az mx my mz : T (Arith := F32 lm)) (t : quat) (h v eta mu Ka Km : R),
  aq_hist s Live -> aq_mode s = AM -> aq_get_accelerometer_config s = Ok ca -> aq_get_magnetometer_config s = Ok cm ->
  let a := calibrated Acc ca (raw3 ax ay az) in let m := calibrated Mag cm (raw3 mx my mz) in
  ordinary Acc ca (raw3 ax ay az) -> ordinary Mag cm (raw3 mx my mz) ->
  mixing Acc ca (raw3 ax ay az) Ka -> mixing Mag cm (raw3 mx my mz) Km -> 1 <= Ka <= 10000 -> 1 <= Km <= 10000 ->
  3 * eps <= rnorm 3 a <= bpow radix2 59 -> 3 * eps <= rnorm 3 m <= bpow radix2 59 ->
  unitq t -> 2 / 1000 <= h -> h * h + v * v = 1 ->
  vdist 3 (fun i => a i / rnorm 3 a) (qrot t (triple 0 0 (-1))) <= eta ->
  vdist 3 (fun i => m i / rnorm 3 m) (qrot t (triple h 0 v)) <= mu ->
  let rho := (mu + 13 / 10000000 * Km) + 102 / 100 * (eta + 13 / 10000000 * Ka) + 14 / 100000 in rho <= 1 / 3 * h ->
  exists s' w q, aq_update gx gy gz ax ay az mx my mz s = (s', Ok tt) /\ aq_get_attitude s' = Ok w /\ quat_f w q /\
    Rabs (qnorm q - 1) < / 1000000 /\ tilt_error q t <= (eta + 13 / 10000000 * Ka) / 2 + 15 / 1000000 /\ heading_error q t <= 51 / 100 * (rho / h).
Proof.
  intros lm s ca cm gx gy gz ax ay az mx my mz t h v eta mu Ka Km HH EM Ca Cm a m Oa Om Ma Mm HKa HKm Na Nm Ut Hh Hv Da Dm rho Hrho.
  destruct (aq_hist_inv s Live HH) as ((_ & Sa & Sm) & _).
  destruct (reading_near lm Acc (aq_acc s) ca ax ay az Ka Sa Ca Oa Ma HKa Na) as (a' & Ra & Na' & Da').
  destruct (reading_near lm Mag (aq_mag s) cm mx my mz Km Sm Cm Om Mm HKm Nm) as (m' & Rm & Nm' & Dm').
  apply (l_am_true lm s ca cm gx gy gz ax ay az mx my mz a' m' t h v (eta + 13 / 10000000 * Ka) (mu + 13 / 10000000 * Km)); auto.
  - eapply Rle_trans; [apply vdist_tri|]. rewrite Rplus_comm. apply Rplus_le_compat; [exact Da|exact Da'].
  - eapply Rle_trans; [apply vdist_tri|]. rewrite Rplus_comm. apply Rplus_le_compat; [exact Dm|exact Dm'].
Qed.

(** a live filter whose accelerometer has scales 2, 3, 1, a cross coefficient and a bias *)
Definition raw_l : list Z := [2; 3; 1; 0; 1; 0; 0; 0; 0; 1; 0; 0]%Z.
Lemma raw_started lm : exists (s : Aqua (A := F32 lm)) (ca : Config (A := F32 lm)), aq_hist s Live /\ aq_mode s = AM /\
  aq_get_accelerometer_config s = Ok ca /\ aq_get_magnetometer_config s = Ok default_config /\ fields (A := F32 lm) ca = map z32 raw_l.
Proof.
  destruct (started_am32 lm) as (s & HH & EM & Ca & Cm).
  destruct (of_fields (A := F32 lm) (map z32 raw_l)) as (c & Ec); [reflexivity|].
  assert (Fc : cfg_finite (A := F32 lm) c).
  { intros x Hx. rewrite Ec in Hx. apply (in_map_iff z32 raw_l x) in Hx. destruct Hx as (z & <- & Hz).
    apply (valid_finite lm). apply (zval z). cbn in Hz. repeat (destruct Hz as [<-|Hz]; [vm_compute; discriminate|]). contradiction. }
  destruct (l_aq_configure (F32 lm) (F32_ok lm) s c HH) as (W & _ & _).
  pose proof (qh_call s Live (QSetAcc c) Live HH) as H2. cbn [aq_do] in H2. destruct (aq_set_accelerometer_config c s) as [s' o].
  destruct W as (W & _ & SS & _ & _ & _ & Emg). destruct (W Fc) as [_ G]. exists s', c. cbn [fst] in H2. split; [|split; [|split; [|split]]].
  - apply H2. apply qn_other. intros [x E]. discriminate E.
  - destruct SS as (E & _). rewrite E. exact EM.
  - exact G.
  - unfold aq_get_magnetometer_config in *. rewrite Emg. exact Cm.
  - exact Ec.
Qed.

(** contributions of integer readings under integer coefficients *)
Lemma contr_z lm k (c : Config (A := F32 lm)) raw b a (zc zr zb : Z) : coefficient (A := F32 lm) k c a b = z32 zc -> raw a = z32 zr -> bias (A := F32 lm) c a = z32 zb ->
  (Z.abs zc <= 2 ^ 24)%Z -> (Z.abs zr <= 2 ^ 24)%Z -> (Z.abs zb <= 2 ^ 24)%Z -> contribution (lm := lm) k c raw b a = IZR (zc * (zr - zb)).
Proof.
  intros E1 E2 E3 H1 H2 H3. unfold contribution. rewrite E1, E2, E3. destruct (zval zc H1) as [_ ->]. destruct (zval zr H2) as [_ ->]. destruct (zval zb H3) as [_ ->].
  rewrite mult_IZR, minus_IZR. reflexivity.
Qed.
Definition zraw (x y z : Z) (i : nat) : Z := match i with O => x | 1%nat => y | _ => z end.
Lemma raw3_z lm x y z i : (i < 3)%nat -> raw3 (A := F32 lm) (z32 x) (z32 y) (z32 z) i = z32 (zraw x y z i).
Proof. intros H. destruct i as [|[|[|]]]; [reflexivity|reflexivity|reflexivity|lia]. Qed.
Lemma ordinary_z lm k (c : Config (A := F32 lm)) x y z (C : nat -> nat -> Z) (Bi : nat -> Z) :
  (forall a b, (a < 3)%nat -> (b < 3)%nat -> coefficient (A := F32 lm) k c a b = z32 (C a b) /\ (Z.abs (C a b) <= 2 ^ 24)%Z) ->
  (forall a, (a < 3)%nat -> bias (A := F32 lm) c a = z32 (Bi a) /\ (Z.abs (Bi a) <= 2 ^ 24)%Z) ->
  (forall a, (a < 3)%nat -> (Z.abs (zraw x y z a) <= 2 ^ 24)%Z) ->
  ordinary (lm := lm) k c (raw3 (A := F32 lm) (z32 x) (z32 y) (z32 z)) /\
  forall a b, (a < 3)%nat -> (b < 3)%nat -> contribution (lm := lm) k c (raw3 (A := F32 lm) (z32 x) (z32 y) (z32 z)) b a = IZR (C a b * (zraw x y z a - Bi a)).
Proof.
  intros HC HB HR. pose proof pow5060 as P. split; [split|].
  - intros a Ha. rewrite raw3_z by auto. destruct (HB a Ha) as [-> B2]. pose proof (HR a Ha) as B1. split; [apply zval, B1|].
    split; (eapply Rle_trans; [apply zbound; assumption|exact P]).
  - intros a b Ha Hb. destruct (HC a b Ha Hb) as [-> B]. apply zbound, B.
  - intros a b Ha Hb. destruct (HC a b Ha Hb) as [E1 B1]. destruct (HB a Ha) as [E2 B2]. apply contr_z; auto. apply raw3_z, Ha.
Qed.

Definition rawC (a b : nat) : Z := (match a, b with 0%nat, 0%nat => 2 | 1%nat, 1%nat => 3 | 2%nat, 2%nat => 1 | 0%nat, 2%nat => 1 | _, _ => 0 end)%Z.
Definition rawB (a : nat) : Z := (match a with O => 1 | _ => 0 end)%Z.
Definition idC (a b : nat) : Z := if (a =? b)%nat then 1%Z else 0%Z.

Lemma am_raw_ex : forall lm, exists (s : Aqua (A := F32 lm)) (ca : Config (A := F32 lm)), aq_hist s Live /\ aq_mode s = AM /\
  aq_get_accelerometer_config s = Ok ca /\ aq_get_magnetometer_config s = Ok default_config /\
  let ra := raw3 (A := F32 lm) (z32 (-9)) (z32 4) (z32 1) in let rm := raw3 (A := F32 lm) (z32 125) (z32 0) (z32 0) in
  let a := calibrated Acc ca ra in let m := calibrated Mag default_config rm in
  ordinary Acc ca ra /\ ordinary Mag default_config rm /\ mixing Acc ca ra 1 /\ mixing Mag default_config rm 1 /\
  3 * eps <= rnorm 3 a <= bpow radix2 59 /\ 3 * eps <= rnorm 3 m <= bpow radix2 59 /\
  let t := Quat (4 / 5) (2 / 5) (2 / 5) (1 / 5) in unitq t /\
  vdist 3 (fun i => a i / rnorm 3 a) (qrot t (triple 0 0 (-1))) <= 1 / 100 /\
  vdist 3 (fun i => m i / rnorm 3 m) (qrot t (triple (3 / 5) 0 (4 / 5))) <= 2 / 100 /\
  (2 / 100 + 13 / 10000000 * 1) + 102 / 100 * (1 / 100 + 13 / 10000000 * 1) + 14 / 100000 <= 1 / 3 * (3 / 5).
Proof.
  intros lm. destruct (raw_started lm) as (s & ca & HH & EM & Ca & Cm & Ef). exists s, ca. do 4 (split; [assumption|]). cbv zeta. clear HH EM Ca Cm s.
  assert (P24 : forall z, (Z.abs z <= 125)%Z -> (Z.abs z <= 2 ^ 24)%Z) by (intros z Hz; eapply Z.le_trans; [exact Hz|vm_compute; discriminate]).
  assert (HCa : forall a b, (a < 3)%nat -> (b < 3)%nat -> coefficient (A := F32 lm) Acc ca a b = z32 (rawC a b) /\ (Z.abs (rawC a b) <= 2 ^ 24)%Z).
  { unfold fields in Ef. cbn [map raw_l] in Ef. remember z32 as f. injection Ef. intros. subst f. unfold coefficient, named.
    destruct a as [|[|[|]]]; [| | |lia]; (destruct b as [|[|[|]]]; [| | |lia]); (split; [assumption|apply P24; vm_compute; discriminate]). }
  assert (HBa : forall a, (a < 3)%nat -> bias (A := F32 lm) ca a = z32 (rawB a) /\ (Z.abs (rawB a) <= 2 ^ 24)%Z).
  { unfold fields in Ef. cbn [map raw_l] in Ef. remember z32 as f. injection Ef. intros. subst f. unfold bias.
    destruct a as [|[|[|]]]; [| | |lia]; (split; [assumption|apply P24; vm_compute; discriminate]). }
  assert (HCm : forall a b, (a < 3)%nat -> (b < 3)%nat -> coefficient (A := F32 lm) Mag default_config a b = z32 (idC a b) /\ (Z.abs (idC a b) <= 2 ^ 24)%Z).
  { intros a b Ha Hb. destruct a as [|[|[|]]]; [| | |lia]; (destruct b as [|[|[|]]]; [| | |lia]); (split; [apply B2SF_inj; vm_compute; reflexivity|apply P24; vm_compute; discriminate]). }
  assert (HBm : forall a, (a < 3)%nat -> bias (A := F32 lm) default_config a = z32 0 /\ (Z.abs 0 <= 2 ^ 24)%Z).
  { intros a Ha. destruct a as [|[|[|]]]; [| | |lia]; (split; [apply B2SF_inj; vm_compute; reflexivity|apply P24; vm_compute; discriminate]). }
  destruct (ordinary_z lm Acc ca (-9) 4 1 rawC rawB HCa HBa) as [Oa Ka].
  { intros a Ha. apply P24. destruct a as [|[|]]; vm_compute; discriminate. }
  destruct (ordinary_z lm Mag default_config 125 0 0 idC (fun _ => 0%Z) HCm HBm) as [Om Km].
  { intros a Ha. apply P24. destruct a as [|[|]]; vm_compute; discriminate. }
  assert (Va : forall i, (i < 3)%nat -> calibrated Acc ca (raw3 (A := F32 lm) (z32 (-9)) (z32 4) (z32 1)) i = triple (-20) 12 (-9) i).
  { intros i Hi. unfold calibrated. rewrite !Ka by lia. rewrite <- !plus_IZR. destruct i as [|[|[|]]]; [reflexivity|reflexivity|reflexivity|lia]. }
  assert (Vm : forall i, (i < 3)%nat -> calibrated Mag default_config (raw3 (A := F32 lm) (z32 125) (z32 0) (z32 0)) i = triple 125 0 0 i).
  { intros i Hi. unfold calibrated. rewrite !Km by lia. rewrite <- !plus_IZR. destruct i as [|[|[|]]]; [reflexivity|reflexivity|reflexivity|lia]. }
  rewrite (rnorm_ext 3 _ _ Va), (rnorm_ext 3 _ _ Vm).
  assert (Na : rnorm 3 (triple (-20) 12 (-9)) = 25) by (apply norm_tri; lra). assert (Nm : rnorm 3 (triple 125 0 0) = 125) by (apply norm_tri; lra).
  split; [exact Oa|]. split; [exact Om|].
  split. { intros b Hb. rewrite (rnorm_ext 3 _ _ Va), Na, !Ka by lia. rewrite <- !abs_IZR, <- !plus_IZR, <- mult_IZR. apply IZR_le. destruct b as [|[|[|]]]; [| | |lia]; vm_compute; discriminate. }
  split. { intros b Hb. rewrite (rnorm_ext 3 _ _ Vm), Nm, !Km by lia. rewrite <- !abs_IZR, <- !plus_IZR, <- mult_IZR. apply IZR_le. destruct b as [|[|[|]]]; [| | |lia]; vm_compute; discriminate. }
  assert (B : 128 <= bpow radix2 59) by (change 128 with (bpow radix2 7); apply bpow_le; lia).
  rewrite Na, Nm. unfold eps. split; [lra|]. split; [lra|]. split; [unfold unitq, qnorm2; cbn; field|].
  split; [|split; [|lra]]; (eapply Rle_trans; [apply vdist_0; intros i Hi; cbv beta; rewrite ?Va, ?Vm by exact Hi; destruct i as [|[|[|i]]]; [| | |lia]; cbn; field|lra]).
Qed.
(*@ example *)
(** an accelerometer with scales 2, 3, 1, a cross coefficient and a bias, at the attitude of C67_example *)
Example C79_example : forall lm, exists (s : Aqua (A := F32 lm)) (ca : Config (A := F32 lm)), aq_hist s Live /\ aq_mode s = AM /\
  aq_get_accelerometer_config s = Ok ca /\ aq_get_magnetometer_config s = Ok default_config /\
  let ra := raw3 (A := F32 lm) (z32 (-9)) (z32 4) (z32 1) in let rm := raw3 (A := F32 lm) (z32 125) (z32 0) (z32 0) in
  let a := calibrated Acc ca ra in let m := calibrated Mag default_config rm in
  ordinary Acc ca ra /\ ordinary Mag default_config rm /\ mixing Acc ca ra 1 /\ mixing Mag default_config rm 1 /\
  3 * eps <= rnorm 3 a <= bpow radix2 59 /\ 3 * eps <= rnorm 3 m <= bpow radix2 59 /\
  let t := Quat (4 / 5) (2 / 5) (2 / 5) (1 / 5) in unitq t /\
  vdist 3 (fun i => a i / rnorm 3 a) (qrot t (triple 0 0 (-1))) <= 1 / 100 /\
  vdist 3 (fun i => m i / rnorm 3 m) (qrot t (triple (3 / 5) 0 (4 / 5))) <= 2 / 100 /\
  (2 / 100 + 13 / 10000000 * 1) + 102 / 100 * (1 / 100 + 13 / 10000000 * 1) + 14 / 100000 <= 1 / 3 * (3 / 5).
Proof. exact am_raw_ex. Qed.
