(** Generated by tools/gen_properties.py from P_TwinA.v: property theorems only. *)

From Coq Require Import Reals List Arith Lia Lra.
From Flocq Require Import Core BinarySingleNaN.
From Verif Require Import M_Base M_Arith M_Vector M_Quaternion M_Sensors M_Ar M_Aqua M_F32 S_Spec S_Linalg S_Norm S_Quat S_Sensors S_Ar S_Aqua S_F32 S_Reading S_Rest S_Euler32 S_Angles S_Twin P_Inst P_InstF P_Rest32 P_Euler32.
Local Open Scope R_scope.

From Verif Require Import P_TwinA.

(** C90: so the Euler angles of a filter with an adaptive gain settle as those of C89_rest do *)
Theorem C90_angles :
  forall (ka kb h d : R), 0 < ka <= 1 -> 0 < kb <= 1 -> 0 < h -> 0 < d ->
  exists N, forall (lm : Libm) (s s0 : Aqua (A := F32 lm)) (cg ca cm : Config (A := F32 lm)) (q t : quat) (ts ta tm e eta mu dl roll pitch yaw : R) (z : nat -> nat -> T (Arith := F32 lm)),
  aq_hist s Live -> alike s s0 -> marg32 s0 cg ca cm q ts ka ta kb tm -> unitq t -> (forall n, resting cg ca cm t h ts e eta mu (z n)) ->
  quiet ka kb h e eta mu -> near_truth q t h -> steady s -> libm_angles lm dl -> euler_of t roll pitch yaw ->
  let b := tilt_rest ka e eta + heading_rest ka kb h e eta mu + d in / 100 <= cos pitch -> 20 * b <= cos pitch ->
  forall n, (N <= n)%nat -> exists s' w r p y, run_with z n s = Some s' /\ aq_get_attitude s' = Ok w /\
    q_convert_to_euler w = Ok (r, p, y) /\ angles_within r p y roll pitch yaw ((201 / 100 * b + 8 / 1000000) / cos pitch + dl / 2).
Proof. exact l_twin_angles. Qed.
Print Assumptions C90_angles.

(** the filter of C90_example, with a libm whose angles are accurate *)
Example C90_example_angles : exists (s s0 : Aqua (A := F32 angle_libm)) ts ka ta kb tm roll pitch yaw,
  aq_hist s Live /\ aq_adaptive s = true /\ alike s s0 /\ steady s /\
  marg32 s0 default_config default_config default_config qone ts ka ta kb tm /\ unitq ex_t /\
  resting (lm := angle_libm) default_config default_config default_config ex_t (3 / 5) ts 0 0 0 (ex_z angle_libm) /\
  quiet ka kb (3 / 5) 0 0 0 /\ near_truth qone ex_t (3 / 5) /\ 0 < ka <= 1 /\ 0 < kb <= 1 /\
  libm_angles angle_libm (5 / 10000000) /\ euler_of ex_t roll pitch yaw /\ / 100 <= cos pitch /\
  20 * (tilt_rest ka 0 0 + heading_rest ka kb (3 / 5) 0 0 0 + / 100) <= cos pitch.
Proof. exact twin_angles_ex. Qed.
