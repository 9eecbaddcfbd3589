(** Specification vocabulary for feeding raw gyrometer samples to the angular-rate filter. *)
From Coq Require Import List Reals ZArith.
From Flocq Require Import Core BinarySingleNaN.
From Verif Require Import M_Base M_Arith M_Sensors M_Ar M_F32 S_Spec S_Linalg S_Norm S_Quat S_Sensors S_Ar S_F32 S_Track S_Raw.
Import ListNotations.
Local Open Scope R_scope.

Section Feed.
  Context {lm : Libm}.
  (** a raw sample together with the rate at which the body really turned *)
  Record sample := Sample { raw_x : T (Arith := F32 lm); raw_y : T (Arith := F32 lm); raw_z : T (Arith := F32 lm); true_rate : nat -> R }.
  Definition raws (z : sample) : nat -> T (Arith := F32 lm) := raw3 (A := F32 lm) (raw_x z) (raw_y z) (raw_z z).
  (** a caller's loop: update with each sample, stop at the first error *)
  Fixpoint ar_feed (ck : bool) (l : list sample) (s : AR (A := F32 lm)) : AR (A := F32 lm) * res AhrsError unit :=
    match l with
    | [] => (s, Ok tt)
    | z :: l => match ar_update (A := F32 lm) ck (raw_x z) (raw_y z) (raw_z z) s with
                | (s1, Ok _) => ar_feed ck l s1
                | r => r
                end
    end.
  (** how far the exact calibrated sample is from the true rate, plus the rounding of calibrating a sample whose
      axes are made of contributions of total size M *)
  Definition rate_error (c : Config (A := F32 lm)) (M : R) (z : sample) : R :=
    vdist 3 (calibrated Gyr c (raws z)) (true_rate z) + 63 / 100000000 * M + / 10 ^ 19.
  Definition bounded (c : Config (A := F32 lm)) (M : R) (z : sample) : Prop :=
    ordinary Gyr c (raws z) /\ forall b, (b < 3)%nat ->
    Rabs (contribution Gyr c (raws z) b 0) + Rabs (contribution Gyr c (raws z) b 1) + Rabs (contribution Gyr c (raws z) b 2) <= M.
End Feed.
Arguments sample : clear implicits.
