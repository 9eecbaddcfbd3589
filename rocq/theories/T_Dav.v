(** Generated by tools/gen_properties.py from P_Dav.v: property theorems only. *)

From Coq Require Import List Arith ZArith NArith Reals Lia Bool Lra SpecFloat.
From Flocq Require Import Core BinarySingleNaN.
From Verif Require Import M_Base M_Arith M_Utils M_Vector M_Matrix M_Quaternion M_Sensors M_Ar M_F32
  S_Spec S_Linalg S_Quat S_Sensors S_Ar S_Dav P_Inst.
Import ListNotations.
Local Open Scope nat_scope.

From Verif Require Import P_Dav.

(** C45, for every arithmetic and after any history: the first [init] succeeds exactly when both weights are in
    [EPSILON, 1] and records them, with the gravity and dip given or else 9.81 and 0; a later one is refused.  VIOLATIONS: after a first [init] with a bad weight every later
    [init] fails, even with good weights; and no update ever succeeds - after a successful [init] they all report an
    uninitialised accelerometer - nor changes anything. *)
Theorem C45_lifecycle :
  forall (A : Arith) (OK : ArithOk A) (s : Davenport) (p : phase), dv_hist s p ->
  forall (w1 w2 : T) (g mdip : option T) (ax ay az mx my mz : T),
  match p with
  | Fresh =>
      dv_update ax ay az mx my mz s = (s, Err DavenportFilterNotInit) /\
      let (s', o) := dv_init w1 w2 g mdip s in
      (weight_ok w1 /\ weight_ok w2 -> o = Ok tt /\ dv_w1 s' = w1 /\ dv_w2 s' = w2 /\
         dv_g s' = match g with Some x => x | None => lit 981 100 end /\ dv_mdip s' = match mdip with Some x => x | None => f0 end) /\
      (~ (weight_ok w1 /\ weight_ok w2) -> o = Err InvalidDavenportWeights)
  | Stuck =>
      dv_update ax ay az mx my mz s = (s, Err DavenportFilterNotInit) /\
      dv_init w1 w2 g mdip s = (s, Err (LinErr AlreadyInit))
  | Live =>
      dv_update ax ay az mx my mz s = (s, Err AccNotInit) /\
      dv_init w1 w2 g mdip s = (s, Err DavenportFilterAlreadyInit)
  end.
Proof. exact l_dv. Qed.
Print Assumptions C45_lifecycle.

(** C45, violation: in particular no program can ever make an update succeed *)
Theorem C45_never :
  forall (A : Arith) (OK : ArithOk A) (s : Davenport) (ax ay az mx my mz : T), dv_reach s ->
  dv_update ax ay az mx my mz s = (s, Err DavenportFilterNotInit) \/ dv_update ax ay az mx my mz s = (s, Err AccNotInit).
Proof. exact l_dv_never. Qed.
Print Assumptions C45_never.

(** the weights accepted, in f32: the finite floats between EPSILON and 1 *)
Theorem C45_weights :
  forall (lm : Libm) (w : f32),
  weight_ok (A := F32 lm) w <-> is_finite w = true /\ (B2R (EPSILON (A := F32 lm)) <= B2R w <= 1)%R.
Proof. exact l_dv_weight. Qed.
Print Assumptions C45_weights.

(** C45, violation: a filter whose first weights were (0, 1/2) cannot be repaired *)
Theorem C45_stuck_refuted :
  forall (lm : Libm), exists s : Davenport (A := F32 lm), dv_hist s Stuck /\
  forall q, snd (dv_do q s) <> Ok tt /\ fst (dv_do q s) = s.
Proof. exact l_dv_stuck. Qed.
Print Assumptions C45_stuck_refuted.

(** C45, violation: nor would it help if the sensors could be initialised: from ANY state whatever, reachable or not,
    an update never touches the attitude *)
Theorem C45_attitude :
  forall (A : Arith) (s : Davenport) (ax ay az mx my mz : T), dv_attitude (fst (dv_update ax ay az mx my mz s)) = dv_attitude s.
Proof. exact l_dv_attitude. Qed.
Print Assumptions C45_attitude.

(** a live filter, initialised with the weights 1 and 1/2 *)
Example C45_example : forall lm, exists s : Davenport (A := F32 lm), dv_hist s Live /\ dv_reach s /\ dv_w2 s = lit (Arith := F32 lm) 1 2.
Proof. exact dv_example. Qed.
