(** C88: from an f32 attitude through its rotation matrix to its rotation vector. *)
(*@+*)
From Coq Require Import List Arith ZArith Reals Lia Bool Lra SpecFloat.
From Flocq Require Import Core BinarySingleNaN.
From Verif Require Import M_Base M_Arith M_Utils M_Vector M_Matrix M_Quaternion M_F32
  S_Spec S_Linalg S_Norm S_Quat S_F32 S_Decomp S_Track S_Interp32 P_Inst P_InstF P_Interp32 P_Log32.
Import ListNotations.
Local Open Scope R_scope.
(*@-*)
From Coq Require Import Psatz.
From Verif Require Import P_Float P_Norm P_FErr P_Norm32 P_Quat P_Rot P_FAcc P_F32Mul P_F32Rot P_AmGeo P_Lup32 P_RestGeo P_MargRun P_Rest32 P_Am32 P_AmTrue P_Angles.

(** the unit quaternion of the turn by t about (x, y, z) and Rodrigues' formula *)
Lemma rodrigues_rotmat t x y z i j : x * x + y * y + z * z = 1 -> (i < 3)%nat -> (j < 3)%nat ->
  rotmat (Quat (cos (t / 2)) (sin (t / 2) * x) (sin (t / 2) * y) (sin (t / 2) * z)) i j = rodrigues t x y z i j.
Proof.
  intros U Hi Hj. unfold rodrigues. cbv zeta.
  assert (E2 : cos t = cos (t / 2) * cos (t / 2) - sin (t / 2) * sin (t / 2)) by (rewrite <- cos_2a; f_equal; field).
  assert (E3 : sin t = 2 * sin (t / 2) * cos (t / 2)) by (rewrite <- sin_2a; f_equal; field).
  pose proof (sin2_cos2 (t / 2)) as SC. unfold Rsqr in SC. rewrite E2, E3. set (C := cos (t / 2)) in *. set (S := sin (t / 2)) in *.
  assert (K : C * C = 1 - S * S) by lra. assert (Z : z * z = 1 - x * x - y * y) by lra.
  unfold rotmat, qrot, basis, rid.
  destruct i as [|[|[|i]]]; [| | |lia]; (destruct j as [|[|[|j]]]; [| | |lia]); cbn; ring [K Z].
Qed.

(*@ C88_attitude *)
(** C88: an f32 attitude of norm 1 up to 1e-6, within e of the turn by t about a unit axis or of its negative: the rotation matrix
    is computed, and if the determinant of that matrix can be computed, both forms of the logarithm of that matrix succeed, with
    every element within 12 (2 e + d + 7e-6) / sin^2 t of t times the cross-product matrix of the axis *)
Lemma l_rotvec :
  forall (lm : Libm) (v : Vec (T (Arith := F32 lm))) (q : quat) (t x y z e d : R), quat_f v q -> Rabs (qnorm q - 1) <= / 1000000 ->
  libm_accurate lm d 5 -> acos_accurate lm d -> x * x + y * y + z * z = 1 -> 0 < t < PI ->
  let p := Quat (cos (t / 2)) (sin (t / 2) * x) (sin (t / 2) * y) (sin (t / 2) * z) in
  qdist (qunit q) p <= e \/ qdist (qunit q) (qneg p) <= e ->
  2 * e + 7 / 1000000 <= sin t * sin t / 200 -> 0 <= d <= sin t / 100 ->
  exists m, q_convert_to_dcm v = Ok m /\ forall b, m_is_so_n m = Ok b ->
    exists ml ml' l, m_log m = Ok ml /\ m_log_in_place m = (ml', Ok tt) /\ mat_f ml 3 3 l /\ mat_f ml' 3 3 l /\
      forall i j, (i < 3)%nat -> (j < 3)%nat -> Rabs (l i j - t * cross_m x y z i j) <= 12 * (2 * e + d + 7 / 1000000) / (sin t * sin t).
Proof.
  intros lm v q t x y z e d Hq HN HL HC U Ht p HD He Hd.
  destruct (l_dcm32 lm v q (/ 1000000) Hq HN ltac:(lra)) as (m & a & Em & Hm & _ & Ha). exists m. split; [exact Em|]. intros b Hb.
  assert (N0 : 0 < qnorm q) by (apply Rabs_le_inv in HN; lra). pose proof (qunit_unit q N0) as Uq.
  assert (Up : unitq p).
  { unfold unitq, qnorm2, p. cbn [Qw Qx Qy Qz]. pose proof (sin2_cos2 (t / 2)) as SC. unfold Rsqr in SC. set (C := cos (t / 2)) in *. set (S := sin (t / 2)) in *.
    replace (C * C + S * x * (S * x) + S * y * (S * y) + S * z * (S * z)) with (C * C + S * S * (x * x + y * y + z * z)) by ring. rewrite U. lra. }
  assert (P0 : exists p', unitq p' /\ qdist (qunit q) p' <= e /\ forall i j, rotmat p' i j = rotmat p i j).
  { destruct HD as [D|D]; [exists p; split; [exact Up|]; split; [exact D|reflexivity]|].
    exists (qneg p). split; [unfold unitq, qnorm2 in *; cbn [qneg qscale Qw Qx Qy Qz]; rewrite <- Up; ring|]. split; [exact D|]. intros i j. unfold rotmat, qrot. destruct i as [|[|[|i]]]; cbn; ring. }
  destruct P0 as (p' & Up' & D & EP). assert (E0 : 0 <= e) by (eapply Rle_trans; [|exact D]; apply sqrt_pos).
  destruct (l_log32 lm m a t x y z (2 * e + 6 / 1000000) d b Hm HL HC U Ht) as (ml & ml' & l & L1 & L2 & L3 & L4 & L5); [|lra|lra|exact Hd|exact Hb|].
  - intros i j Hi Hj. rewrite <- rodrigues_rotmat by assumption. fold p. rewrite <- EP.
    replace (a i j - rotmat p' i j) with ((a i j - rotmat (qunit q) i j) + (rotmat (qunit q) i j - rotmat p' i j)) by ring.
    eapply Rle_trans; [apply Rabs_triang|]. pose proof (Ha i j Hi Hj) as A1.
    assert (A2 : Rabs (rotmat (qunit q) i j - rotmat p' i j) <= 2 * e).
    { unfold rotmat. eapply Rle_trans; [apply (vdist_comp (qrot (qunit q) (basis j)) (qrot p' (basis j)) i Hi)|]. eapply Rle_trans; [apply (qrot_close _ _ (basis j) Uq Up')|].
      rewrite basis_1 by exact Hj. lra. }
    lra.
  - exists ml, ml', l. repeat (split; [assumption|]). intros i j Hi Hj. eapply Rle_trans; [apply L5; assumption|]. right. field.
    assert (0 < sin t) by (apply sin_gt_0; lra). lra.
Qed.

Lemma half_so lm : exists m, q_convert_to_dcm (mk_vec (A := F32 lm) (map (fun _ => lit (Arith := F32 lm) 1 2) [0; 1; 2; 3]%nat)) = Ok m /\ m_is_so_n m = Ok true.
Proof.
  assert (E : rmap (fun m => m_is_so_n (A := F32 lm) m) (q_convert_to_dcm (mk_vec (A := F32 lm) (map (fun _ => lit (Arith := F32 lm) 1 2) [0; 1; 2; 3]%nat))) = Ok (Ok true)) by (vm_compute; reflexivity).
  destruct (q_convert_to_dcm _) as [m| |]; cbn [rmap] in E; try discriminate. exists m. split; [reflexivity|]. injection E as E. exact E.
Qed.
Lemma rotvec_ex : let v := mk_vec (A := F32 edge_libm) (map (fun _ => lit (Arith := F32 edge_libm) 1 2) [0; 1; 2; 3]%nat) in
  let q := Quat (/ 2) (/ 2) (/ 2) (/ 2) in let t := 2 * PI / 3 in let a := / sqrt 3 in
  quat_f (lm := edge_libm) v q /\ qnorm q = 1 /\ libm_accurate edge_libm (5 / 10000000) 5 /\ acos_accurate edge_libm (5 / 10000000) /\
  a * a + a * a + a * a = 1 /\ 0 < t < PI /\ qunit q = Quat (cos (t / 2)) (sin (t / 2) * a) (sin (t / 2) * a) (sin (t / 2) * a) /\
  sin t * sin t = 3 / 4 /\ 0 <= 5 / 10000000 <= sin t / 100 /\
  exists m, q_convert_to_dcm v = Ok m /\ m_is_so_n m = Ok true.
Proof.
  cbv zeta. pose proof PI_RGT_0 as P0. assert (S3 : 0 < sqrt 3) by (apply sqrt_lt_R0; lra). assert (Q3 : sqrt 3 * sqrt 3 = 3) by (apply sqrt_sqrt; lra).
  assert (UQ : unitq (Quat (/ 2) (/ 2) (/ 2) (/ 2))) by (unfold unitq, qnorm2; cbn; lra).
  assert (ST : sin (2 * PI / 3) = sqrt 3 / 2) by (replace (2 * PI / 3) with (2 * (PI / 3)) by field; apply sin_2PI3).
  assert (IA : / sqrt 3 * / sqrt 3 = / 3) by (rewrite <- Rinv_mult, Q3; reflexivity).
  split.
  { assert (V : is_finite (lit (Arith := F32 edge_libm) 1 2 : f32) = true /\ B2R (lit (Arith := F32 edge_libm) 1 2 : f32) = IZR 8388608 * bpow radix2 (-24)) by (apply sf_val; vm_compute; reflexivity).
    destruct V as [V1 V2]. assert (P24 : bpow radix2 (-24) = / 16777216) by (cbn; lra). rewrite P24 in V2.
    exists (fun i => nth i (map (fun _ => lit (Arith := F32 edge_libm) 1 2) [0; 1; 2; 3]%nat) (B754_zero false : f32)). split.
    - apply (fvec_is edge_libm); [cbn [length map]; lia|]. repeat constructor; exact V1.
    - intros i Hi. destruct i as [|[|[|[|i]]]]; [| | | |lia]; cbn [nth map]; rewrite V2; change (IZR 8388608 * / 16777216 = / 2); lra. }
  split; [apply unit_norm; exact UQ|]. split; [apply edge_sin|]. split; [exact edge_acos|]. split; [rewrite IA; lra|]. split; [lra|]. split.
  { rewrite qunit_of_unit by exact UQ. replace (2 * PI / 3 / 2) with (PI / 3) by field. rewrite cos_PI3, sin_PI3.
    assert (E : sqrt 3 / 2 * / sqrt 3 = / 2) by (field; lra). rewrite E. f_equal; field. }
  rewrite ST. split; [replace (sqrt 3 / 2 * (sqrt 3 / 2)) with (sqrt 3 * sqrt 3 / 4) by field; rewrite Q3; lra|]. split; [assert (1 <= sqrt 3) by (rewrite <- sqrt_1; apply sqrt_le_1_alt; lra); lra|].
  exact (half_so edge_libm).
Qed.
(*@ example *)
(** C88_attitude hypotheses, with e = 0: a third of a turn about (1, 1, 1), whose quaternion has the components 1/2 *)
Example C88_example_attitude : let v := mk_vec (A := F32 edge_libm) (map (fun _ => lit (Arith := F32 edge_libm) 1 2) [0; 1; 2; 3]%nat) in
  let q := Quat (/ 2) (/ 2) (/ 2) (/ 2) in let t := 2 * PI / 3 in let a := / sqrt 3 in
  quat_f (lm := edge_libm) v q /\ qnorm q = 1 /\ libm_accurate edge_libm (5 / 10000000) 5 /\ acos_accurate edge_libm (5 / 10000000) /\
  a * a + a * a + a * a = 1 /\ 0 < t < PI /\ qunit q = Quat (cos (t / 2)) (sin (t / 2) * a) (sin (t / 2) * a) (sin (t / 2) * a) /\
  sin t * sin t = 3 / 4 /\ 0 <= 5 / 10000000 <= sin t / 100 /\
  exists m, q_convert_to_dcm v = Ok m /\ m_is_so_n m = Ok true.
Proof. exact rotvec_ex. Qed.
