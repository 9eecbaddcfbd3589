(** C90: the Euler angles of a filter with an adaptive gain at rest. *)
(*@+*)
From Coq Require Import Reals List Arith Lia Lra.
From Flocq Require Import Core BinarySingleNaN.
From Verif Require Import M_Base M_Arith M_Vector M_Quaternion M_Sensors M_Ar M_Aqua M_F32 S_Spec S_Linalg S_Norm S_Quat S_Sensors S_Ar S_Aqua S_F32 S_Reading S_Rest S_Euler32 S_Angles S_Twin P_Inst P_InstF P_Rest32 P_Euler32.
Local Open Scope R_scope.
(*@-*)
From Verif Require Import P_Angles P_Twin.

(*@ C90_angles *)
(** C90: so the Euler angles of a filter with an adaptive gain settle as those of C89_rest do *)
Lemma l_twin_angles :
  forall (ka kb h d : R), 0 < ka <= 1 -> 0 < kb <= 1 -> 0 < h -> 0 < d ->
  exists N, forall (lm : Libm) (s s0 : Aqua (A := F32 lm)) (cg ca cm : Config (A := F32 lm)) (q t : quat) (ts ta tm e eta mu dl roll pitch yaw : R) (z : nat -> nat -> T (Arith := F32 lm)),
  aq_hist s Live -> alike s s0 -> marg32 s0 cg ca cm q ts ka ta kb tm -> unitq t -> (forall n, resting cg ca cm t h ts e eta mu (z n)) ->
  quiet ka kb h e eta mu -> near_truth q t h -> steady s -> libm_angles lm dl -> euler_of t roll pitch yaw ->
  let b := tilt_rest ka e eta + heading_rest ka kb h e eta mu + d in / 100 <= cos pitch -> 20 * b <= cos pitch ->
  forall n, (N <= n)%nat -> exists s' w r p y, run_with z n s = Some s' /\ aq_get_attitude s' = Ok w /\
    q_convert_to_euler w = Ok (r, p, y) /\ angles_within r p y roll pitch yaw ((201 / 100 * b + 8 / 1000000) / cos pitch + dl / 2).
Proof.
  intros ka kb h d Hka Hkb Hh Hd. destruct (l_rest_angles ka kb h d Hka Hkb Hh Hd) as (N & K). exists N.
  intros lm s s0 cg ca cm q t ts ta tm e eta mu dl roll pitch yaw z H AL M U R Q NT ST LA EU b B1 B2 n Hn.
  destruct (run_twin lm s s0 cg ca cm q t ts ka ta kb tm h e eta mu z H AL M U R Q NT ST n) as (s' & s0' & R1 & R01 & H1 & AL1 & EA & _).
  destruct (K lm s0 cg ca cm q t ts ta tm e eta mu dl roll pitch yaw z M U R Q NT LA EU B1 B2 n Hn) as (s0'' & w & r & p & y & R02 & Ew & Ec & HA). rewrite R01 in R02. injection R02 as <-.
  exists s', w, r, p, y. split; [exact R1|]. split; [rewrite <- Ew, (alike_put _ _ AL1); reflexivity|]. split; [exact Ec|exact HA].
Qed.

Lemma twin_angles_ex : exists (s s0 : Aqua (A := F32 angle_libm)) ts ka ta kb tm roll pitch yaw,
  aq_hist s Live /\ aq_adaptive s = true /\ alike s s0 /\ steady s /\
  marg32 s0 default_config default_config default_config qone ts ka ta kb tm /\ unitq ex_t /\
  resting (lm := angle_libm) default_config default_config default_config ex_t (3 / 5) ts 0 0 0 (ex_z angle_libm) /\
  quiet ka kb (3 / 5) 0 0 0 /\ near_truth qone ex_t (3 / 5) /\ 0 < ka <= 1 /\ 0 < kb <= 1 /\
  libm_angles angle_libm (5 / 10000000) /\ euler_of ex_t roll pitch yaw /\ / 100 <= cos pitch /\
  20 * (tilt_rest ka 0 0 + heading_rest ka kb (3 / 5) 0 0 0 + / 100) <= cos pitch.
Proof.
  destruct (rest_ex_one angle_libm) as (s & s0 & ts & ka & ta & kb & tm & H & AD & _ & AL & ST & M & U & HR & HQ & HT & _ & HK & HB).
  destruct (euler_exists _ U) as (roll & pitch & yaw & HE & HC & HS); [unfold ex_t; cbn [Qw Qx Qy Qz]; lra|]. unfold ex_t in HS. cbn [Qw Qx Qy Qz] in HS.
  assert (C1 : cos pitch = 1) by nra. pose proof (m32_kb _ _ _ _ _ _ _ _ _ _ M) as KB.
  exists s, s0, ts, ka, ta, kb, tm, roll, pitch, yaw. do 9 (split; [assumption|]). split; [lra|]. split; [lra|]. split; [exact angle_accurate|]. split; [exact HE|].
  rewrite C1. split; [lra|].
  assert (T1 : tilt_rest ka 0 0 <= 506 / 100000).
  { unfold tilt_rest, tilt_drift. apply Rmult_le_reg_r with (4 / 5 * ka); [lra|]. unfold Rdiv. rewrite Rmult_assoc, Rinv_l by lra. lra. }
  assert (T2 : heading_rest ka kb (3 / 5) 0 0 0 <= 3 / 100).
  { unfold heading_rest, heading_drift. set (T := tilt_rest ka 0 0) in *.
    apply Rmult_le_reg_r with (4 / 5 * kb); [lra|]. unfold Rdiv at 1. rewrite Rmult_assoc, Rinv_l by lra.
    assert ((204 / 100 * T + 0 + 7 / 100000) / (3 / 5) <= 18 / 1000) by lra.
    assert (kb * ((204 / 100 * T + 0 + 7 / 100000) / (3 / 5)) <= kb * (18 / 1000)) by (apply Rmult_le_compat_l; lra). lra. }
  lra.
Qed.
(*@ example *)
(** the filter of C90_example, with a libm whose angles are accurate *)
Example C90_example_angles : exists (s s0 : Aqua (A := F32 angle_libm)) ts ka ta kb tm roll pitch yaw,
  aq_hist s Live /\ aq_adaptive s = true /\ alike s s0 /\ steady s /\
  marg32 s0 default_config default_config default_config qone ts ka ta kb tm /\ unitq ex_t /\
  resting (lm := angle_libm) default_config default_config default_config ex_t (3 / 5) ts 0 0 0 (ex_z angle_libm) /\
  quiet ka kb (3 / 5) 0 0 0 /\ near_truth qone ex_t (3 / 5) /\ 0 < ka <= 1 /\ 0 < kb <= 1 /\
  libm_angles angle_libm (5 / 10000000) /\ euler_of ex_t roll pitch yaw /\ / 100 <= cos pitch /\
  20 * (tilt_rest ka 0 0 + heading_rest ka kb (3 / 5) 0 0 0 + / 100) <= cos pitch.
Proof. exact twin_angles_ex. Qed.
