(** Specification vocabulary for the Aqua filter: its life cycle as an automaton driven by the
    arguments of the calls only. *)
From Coq Require Import List Arith ZArith Bool Reals.
From Flocq Require Import BinarySingleNaN.
From Verif Require Import M_Base M_Arith M_Utils M_Vector M_Matrix M_Quaternion M_Sensors M_Ar M_Aqua M_F32 M_RX
  S_Spec S_Linalg S_Norm S_Quat S_Sensors S_Ar.
Import ListNotations.

Section Aqua.
  Context {A : Arith}.

  (** the arguments of [init] *)
  Record aq_args := mkArgs {
    ia_mode : Mode;
    ia_qw : option T; ia_qx : option T; ia_qy : option T; ia_qz : option T;
    ia_gyr : option Config; ia_acc : Config; ia_mag : Config;
    ia_ts : T; ia_adaptive : bool; ia_alpha : T; ia_beta : T; ia_t1 : T; ia_t2 : T;
    ia_t_acc : T; ia_t_mag : T; ia_g : option T; ia_h : option T
  }.
  Definition aq_init_with (a : aq_args) : Aqua -> Aqua * res AhrsError unit :=
    aq_init (ia_mode a) (ia_qw a) (ia_qx a) (ia_qy a) (ia_qz a) (ia_gyr a) (ia_acc a) (ia_mag a) (ia_ts a)
      (ia_adaptive a) (ia_alpha a) (ia_beta a) (ia_t1 a) (ia_t2 a) (ia_t_acc a) (ia_t_mag a) (ia_g a) (ia_h a).
  (** the conditions under which [init] succeeds: a gyrometer configuration in mode MARG, finite
      configurations for the sensors in use, an initial quaternion with either no component or four
      finite ones.  Nothing else is checked. *)
  Definition args_ok (a : aq_args) : Prop :=
    (ia_mode a = MARG -> exists c, ia_gyr a = Some c /\ cfg_finite c) /\
    cfg_finite (ia_acc a) /\ cfg_finite (ia_mag a) /\
    ((ia_qw a = None /\ ia_qx a = None /\ ia_qy a = None /\ ia_qz a = None) \/
     exists w x y z, ia_qw a = Some w /\ ia_qx a = Some x /\ ia_qy a = Some y /\ ia_qz a = Some z /\ quat_finite w x y z).
  (** the attitude asked for *)
  Definition args_attitude (a : aq_args) : nat -> T :=
    match ia_qw a, ia_qx a, ia_qy a, ia_qz a with
    | Some w, Some x, Some y, Some z => quad w x y z
    | _, _, _, _ => quad f1 f0 f0 f0
    end.

  (** what a caller may do with a filter (the getters change nothing) *)
  Inductive aq_call :=
  | QInit (a : aq_args)
  | QSetAcc (c : Config) | QSetGyr (c : Config) | QSetMag (c : Config)
  | QUpdate (gx gy gz : option T) (ax ay az mx my mz : T).
  Definition aq_do (q : aq_call) (s : Aqua) : Aqua * res AhrsError unit :=
    match q with
    | QInit a => aq_init_with a s
    | QSetAcc c => aq_set_accelerometer_config c s
    | QSetGyr c => aq_set_gyrometer_config c s
    | QSetMag c => aq_set_magnetometer_config c s
    | QUpdate gx gy gz ax ay az mx my mz => aq_update gx gy gz ax ay az mx my mz s
    end.
  Definition is_init (q : aq_call) : Prop := exists a, q = QInit a.
  (** Fresh: no [init] so far; Stuck: the first one had bad arguments; Live: it had good ones *)
  Inductive aq_next : phase -> aq_call -> phase -> Prop :=
  | qn_bad a : ~ args_ok a -> aq_next Fresh (QInit a) Stuck
  | qn_init a : args_ok a -> aq_next Fresh (QInit a) Live
  | qn_again p a : p <> Fresh -> aq_next p (QInit a) p
  | qn_other p q : ~ is_init q -> aq_next p q p.
  Inductive aq_hist : Aqua -> phase -> Prop :=
  | qh_new s : aq_new = Ok s -> aq_hist s Fresh
  | qh_call s p q p' : aq_hist s p -> aq_next p q p' -> aq_hist (fst (aq_do q s)) p'.
  Inductive aq_later (s0 : Aqua) : Aqua -> Prop :=
  | ql_here : aq_later s0 s0
  | ql_call s q : aq_later s0 s -> aq_later s0 (fst (aq_do q s)).
  (** the settings that no update may change *)
  Definition aq_same_settings (s s' : Aqua) : Prop :=
    aq_mode s' = aq_mode s /\ aq_ts s' = aq_ts s /\ aq_adaptive s' = aq_adaptive s /\ aq_beta s' = aq_beta s /\
    aq_t1 s' = aq_t1 s /\ aq_t2 s' = aq_t2 s /\ aq_t_acc s' = aq_t_acc s /\ aq_t_mag s' = aq_t_mag s /\
    aq_g s' = aq_g s /\ aq_h s' = aq_h s /\ aq_initialized s' = aq_initialized s.
  Definition aq_same_configs (s s' : Aqua) : Prop :=
    aq_get_gyrometer_config s' = aq_get_gyrometer_config s /\
    aq_get_accelerometer_config s' = aq_get_accelerometer_config s /\
    aq_get_magnetometer_config s' = aq_get_magnetometer_config s.
  (** the errors of a failed first [init] *)
  Definition bad_init (a : aq_args) (e : AhrsError) : Prop :=
    is_utils e \/ (e = NoGyroconfig /\ ia_mode a = MARG /\ ia_gyr a = None) \/
    (e = InvalidInitQuaternion /\ (ia_qw a <> None \/ ia_qx a <> None \/ ia_qy a <> None \/ ia_qz a <> None) /\
       (ia_qw a = None \/ ia_qx a = None \/ ia_qy a = None \/ ia_qz a = None)).
  (** the errors of a failed update with complete measurements *)
  Definition aq_err (e : AhrsError) : Prop :=
    is_utils e \/ e = LinErr InvalidAlpha \/ e = InvalidAquaInterpolationTreshold \/ e = InvalidAdaptiveGainTresholds.
  (** the norm of the corrected acceleration, as the code computes it *)
  Definition acc_norm (a : nat -> T) : T := let n := fsqrt (fsum 3 (fun i => a i * a i)%F) in if (n <=? EPSILON)%F then f0 else n.
  (** the adaptive gain, as a formula of the norm [n] of the acceleration and the reference [g] *)
  Definition new_gain (t1 t2 g gain n : T) : T :=
    let err := fabs ((n - g) / g)%F in
    if (err <=? t1)%F then gain else if (t1 <? err)%F && (err <? t2)%F then (gain * (t1 - err) / t1)%F else f0.
End Aqua.

(** a gain that is a zero or a NaN *)
Definition dead_gain (x : f32) : Prop := match x with B754_zero _ | B754_nan => True | _ => False end.
(** calls after which no update has failed *)
Inductive aq_smooth (lm : Libm) (s0 : Aqua (A := F32 lm)) : Aqua (A := F32 lm) -> Prop :=
| qs_here : aq_smooth lm s0 s0
| qs_other s q : aq_smooth lm s0 s -> (forall gx gy gz ax ay az mx my mz, q <> QUpdate gx gy gz ax ay az mx my mz) -> aq_smooth lm s0 (fst (aq_do q s))
| qs_update s gx gy gz ax ay az mx my mz : aq_smooth lm s0 s -> snd (aq_update gx gy gz ax ay az mx my mz s) = Ok tt ->
    aq_smooth lm s0 (fst (aq_update gx gy gz ax ay az mx my mz s)).
