(** Specification vocabulary for the adaptive gain: two filters that differ at most in whether the gain is adaptive, and
    calls whose acceleration leaves an adaptive gain alone. *)
From Coq Require Import List Reals.
From Flocq Require Import Core BinarySingleNaN.
From Verif Require Import M_Base M_Arith M_Sensors M_Ar M_Aqua M_F32 S_Spec S_Sensors S_Ar S_Aqua.
Import ListNotations.

Section Twin.
  Context {A : Arith}.
  Definition alike (s s0 : Aqua) : Prop :=
    aq_mode s0 = aq_mode s /\ aq_gyr s0 = aq_gyr s /\ aq_acc s0 = aq_acc s /\ aq_mag s0 = aq_mag s /\ aq_attitude s0 = aq_attitude s /\
    aq_ts s0 = aq_ts s /\ aq_alpha s0 = aq_alpha s /\ aq_beta s0 = aq_beta s /\ aq_t1 s0 = aq_t1 s /\ aq_t2 s0 = aq_t2 s /\
    aq_t_acc s0 = aq_t_acc s /\ aq_t_mag s0 = aq_t_mag s /\ aq_g s0 = aq_g s /\ aq_h s0 = aq_h s /\ aq_initialized s0 = aq_initialized s.
  (** the thresholds are in order, and the norm of the acceleration is within the first one of the reference *)
  Definition calm (s : Aqua) (q : aq_call) : Prop :=
    match q with
    | QUpdate gx gy gz ax ay az mx my mz => aq_mode s = MARG ->
        (aq_t2 s <=? aq_t1 s)%F = false /\
        forall ca, aq_get_accelerometer_config s = Ok ca ->
          (fabs ((acc_norm (corrected Acc ca (raw3 ax ay az) 3) - aq_g s) / aq_g s) <=? aq_t1 s)%F = true
    | _ => True
    end.
  (** several calls: the filter afterwards, and what each call returned *)
  Fixpoint aq_calls (l : list aq_call) (s : Aqua) : Aqua * list (res AhrsError unit) :=
    match l with
    | [] => (s, [])
    | q :: l => let (s1, o) := aq_do q s in let (s2, os) := aq_calls l s1 in (s2, o :: os)
    end.
  Fixpoint all_calm (l : list aq_call) (s : Aqua) : Prop :=
    match l with [] => True | q :: l => calm s q /\ all_calm l (fst (aq_do q s)) end.
  (** the same arguments of the initialisation but for the flag *)
  Definition with_flag (b : bool) (a : aq_args) : aq_args :=
    mkArgs (ia_mode a) (ia_qw a) (ia_qx a) (ia_qy a) (ia_qz a) (ia_gyr a) (ia_acc a) (ia_mag a) (ia_ts a) b
      (ia_alpha a) (ia_beta a) (ia_t1 a) (ia_t2 a) (ia_t_acc a) (ia_t_mag a) (ia_g a) (ia_h a).
End Twin.

(** thresholds and a reference for which accelerations of a length between 0.931 and 1.069 leave the gain alone *)
Definition steady {lm : Libm} (s : Aqua (A := F32 lm)) : Prop :=
  is_finite (aq_g s : f32) = true /\ is_finite (aq_t1 s : f32) = true /\ fleb (Arith := F32 lm) (aq_t2 s) (aq_t1 s) = false /\
  (1 / 2 <= B2R (aq_g s : f32) <= 2 /\ 7 / 100 + Rabs (B2R (aq_g s : f32) - 1) <= B2R (aq_t1 s : f32) * B2R (aq_g s : f32))%R.
