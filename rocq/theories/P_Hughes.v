(** C34: [hughes] near the identity and near the half turns. *)
(*@+*)
From Coq Require Import List Arith ZArith Reals Lia Bool Lra Psatz.
From Flocq Require Import Core BinarySingleNaN.
From Verif Require Import M_Base M_Arith M_Utils M_Vector M_Matrix M_Quaternion M_F32 M_RX
  S_Spec S_Linalg S_Norm S_Quat P_Inst P_InstQ.
Import ListNotations.
Local Open Scope R_scope.
(*@-*)
From Verif Require Import P_Hoare P_Cont P_Loops P_Access P_Pointwise P_Trans P_Float P_Product
  P_Compare P_Diag P_Dot P_Norm P_FErr P_Norm32 P_Quat P_Rot P_Dcm.

Lemma exec_pw v n (f g : nat -> R) (h : nat -> T (Arith := RX)) (c : Vec (T (Arith := RX)) -> Vec (T (Arith := RX)) * res LinalgError unit) :
  pointwise_v (A := RX) n (fun i => Some (f i)) h (c v) -> (forall i, (i < n)%nat -> h i = Some (g i)) ->
  exists v', exec c v = Ok v' /\ vec_r v' n g.
Proof.
  intros P E. assert (V : forall i, (i < n)%nat -> valid (A := RX) (h i)) by (intros i Hi; rewrite E by auto; apply valid_RX).
  destruct P as [(_ & S & H)|(i & k & Hi & B & _)].
  - exists (fst (c v)). unfold exec. destruct (c v) as [v' r]; cbn in *. subst r. split; [reflexivity|]. eapply vec_is_ext; [exact H|]. exact E.
  - exfalso. apply (bad_Some_not (A := RX) _ _ B), V, Hi.
Qed.
Lemma pow_half a : 0 <= a -> rx_pow (Some a) (Some (1 / 2)) = Some (sqrt a).
Proof.
  intros H. unfold rx_pow. assert (Z : Zfloor (1 / 2) = 0%Z) by (apply Zfloor_imp; cbn; lra). rewrite Z, Req_bool_false by lra. cbn [andb].
  destruct (Rle_lt_or_eq_dec 0 a H) as [L| <-].
  - rewrite Rlt_bool_true by auto. f_equal. replace (1 / 2) with (/ 2) by lra. apply Rpower_sqrt, L.
  - rewrite Rlt_bool_false, Req_bool_true, Rlt_bool_true by lra. cbn [andb]. rewrite sqrt_0. reflexivity.
Qed.

(*@ C34_hughes_near_identity *)
(** C34, violation: [hughes] reports the identity for every rotation by up to about half a degree, whatever its axis *)
Lemma l_hughes_id :
  forall (v dcm : _) (s : nat -> R) (q : quat),
  vec_r v 4 s -> mat_r dcm 3 3 (rotmat q) -> unitq q -> 4 * (1 - Qw q * Qw q) <= eps ->
  exists v', q_hughes dcm v = (v', Ok tt) /\ quat_r v' (Quat 1 0 0 0).
Proof.
  intros v dcm s q Hv Hd U Hi. pose proof U as U1. unfold unitq, qnorm2 in U1.
  assert (B : forall t, 0 <= t * t) by (intros; nra).
  pose proof (B (Qw q)) as Bw. pose proof (B (Qx q)) as Bx. pose proof (B (Qy q)) as By. pose proof (B (Qz q)) as Bz.
  unfold q_hughes.
  rewrite guard_bind by (unfold reads; rewrite (q_guard_ok _ _ Hv); reflexivity).
  erewrite sbind_ok by (apply lift_ok; exact (trace_r dcm q Hd U)).
  rewrite fm1_RX, f3_RX, f1_RX, fhalf_RX, eps_RX, f0_RX. rewrite clip_RX, rclip_in by lra. cbv zeta.
  erewrite sbind_ok by (apply lift_ok; rewrite allclose_RX; reflexivity).
  rewrite Rle_bool_true by (rewrite Rabs_left1; lra). eapply q_fillq_r; eauto.
Qed.

(*@ C34_hughes_near_half_turn *)
(** C34, violation: when |w| is at most EPSILON, [hughes] returns |w| and the square roots of w^2 + x^2, w^2 + y^2 and
    w^2 + z^2, so that a half turn keeps the magnitudes of its axis and loses the signs *)
Lemma l_hughes_pi :
  forall (v dcm : _) (s : nat -> R) (q : quat),
  vec_r v 4 s -> mat_r dcm 3 3 (rotmat q) -> unitq q -> Rabs (Qw q) <= eps ->
  exists v', q_hughes dcm v = (v', Ok tt) /\
    quat_r v' (Quat (Rabs (Qw q)) (sqrt (Qw q * Qw q + Qx q * Qx q)) (sqrt (Qw q * Qw q + Qy q * Qy q)) (sqrt (Qw q * Qw q + Qz q * Qz q))).
Proof.
  intros v dcm s q Hv Hd U Hw. pose proof U as U1. unfold unitq, qnorm2 in U1.
  assert (B : forall t, 0 <= t * t) by (intros; nra).
  pose proof (B (Qw q)) as Bw. pose proof (B (Qx q)) as Bx. pose proof (B (Qy q)) as By. pose proof (B (Qz q)) as Bz.
  assert (W2 : Qw q * Qw q <= eps * eps) by (rewrite <- (Rabs_pos_eq (Qw q * Qw q)) by auto; rewrite Rabs_mult; apply Rmult_le_compat; auto using Rabs_pos).
  assert (E0 : 0 < eps) by (unfold eps; lra). assert (E1 : eps * eps <= 1 / 1000000) by (unfold eps; lra).
  assert (E2 : eps <= 1 / 1000) by (unfold eps; lra).
  unfold q_hughes.
  rewrite guard_bind by (unfold reads; rewrite (q_guard_ok _ _ Hv); reflexivity).
  erewrite sbind_ok by (apply lift_ok; exact (trace_r dcm q Hd U)).
  rewrite fm1_RX, f3_RX, f1_RX, fhalf_RX, eps_RX, f0_RX. rewrite clip_RX, rclip_in by lra. cbv zeta.
  erewrite sbind_ok by (apply lift_ok; rewrite allclose_RX; reflexivity).
  rewrite Rle_bool_false by (rewrite Rabs_left; lra).
  cbn [fadd RX rx2]. rewrite fsqrt_RX by lra. cbn [fmul RX rx2].
  rewrite (sqrt_abs (1 + (4 * (Qw q * Qw q) - 1)) (2 * Qw q)) by ring.
  rewrite Rabs_mult, (Rabs_right 2) by lra.
  replace (1 / 2 * (2 * Rabs (Qw q))) with (Rabs (Qw q)) by field.
  erewrite sbind_ok by (apply lift_ok; rewrite allclose_RX; reflexivity).
  rewrite Rle_bool_true by (rewrite Rminus_0_r, Rabs_Rabsolu; auto).
  destruct (m_diag_ok (A := RX) true dcm 3 3 _ 0 Hd ltac:(lia)) as (d & Ed & Hdg). change (m_diag true dcm (Some 0%Z)) with (m_diag true dcm None) in Ed.
  set (r := fun t => Qw q * Qw q + t * t).
  pose (g0 := fun i => 2 * r (triple (Qx q) (Qy q) (Qz q) i) - 1).
  assert (Hd0 : vec_r d 3 g0).
  { eapply vec_is_ext; [exact Hdg|]. intros i Hi. cbv beta. unfold g0, r. destruct i as [|[|[|i]]]; [| | |lia]; cbn [triple Nat.add Z.to_nat Z.opp].
    - rewrite (r00 dcm q Hd U). reflexivity.
    - rewrite (r11 dcm q Hd U). reflexivity.
    - rewrite (r22 dcm q Hd U). reflexivity. }
  assert (RP : forall t, 0 <= r t) by (intros t; unfold r; pose proof (B t); lra).
  destruct (exec_pw d 3 g0 (fun i => 2 * r (triple (Qx q) (Qy q) (Qz q) i)) _ _ (v_add_scalar_in_place_pw (A := RX) d 3 _ Hd0 (Some 1))) as (d1 & E1' & H1).
  { intros i Hi. cbn. f_equal. unfold g0. ring. }
  destruct (exec_pw d1 3 _ (fun i => r (triple (Qx q) (Qy q) (Qz q) i)) _ _ (v_mul_by_scalar_in_place_pw (A := RX) d1 3 _ H1 (Some (1 / 2)))) as (d2 & E2' & H2).
  { intros i Hi. cbn. f_equal. field. }
  destruct (exec_pw d2 3 _ (fun i => sqrt (r (triple (Qx q) (Qy q) (Qz q) i))) _ _ (v_power_elements_pw (A := RX) d2 3 _ H2 (Some (1 / 2)))) as (d3 & E3' & H3).
  { intros i Hi. apply pow_half, RP. }
  erewrite sbind_ok.
  2:{ erewrite sbind_ok by (apply lift_ok; exact Ed). erewrite sbind_ok by (apply lift_ok; exact E1'). erewrite sbind_ok by (apply lift_ok; exact E2').
      erewrite sbind_ok by (apply lift_ok; exact E3'). erewrite sbind_ok by (apply lift_ok; apply (vi_get _ _ _ H3); lia).
      erewrite sbind_ok by (apply lift_ok; apply (vi_get _ _ _ H3); lia). erewrite sbind_ok by (apply lift_ok; apply (vi_get _ _ _ H3); lia). reflexivity. }
  cbv iota. eapply quat_set4_r; eauto.
Qed.

(*@ example *)
Example C34_hughes_example :
  let q := Quat (249999 / 250001) 0 (1000 / 250001) 0 in let h := Quat 0 (3 / 5) (- 4 / 5) 0 in
  quat_r (rvec [249999 / 250001; 0; 1000 / 250001; 0]) q /\ unitq q /\ 4 * (1 - Qw q * Qw q) <= eps /\
  quat_r (rvec [0; 3 / 5; - 4 / 5; 0]) h /\ unitq h /\ Rabs (Qw h) <= eps.
Proof.
  cbv zeta. split; [apply rquat_is|]. unfold unitq, qnorm2, eps; cbn. rewrite Rabs_R0. split; [lra|]. split; [lra|]. split; [apply rquat_is|]. split; lra.
Qed.
