(** Specification vocabulary for the Davenport filter. *)
From Coq Require Import List Arith ZArith Bool.
From Verif Require Import M_Base M_Arith M_Utils M_Vector M_Matrix M_Quaternion M_Sensors M_Ar S_Spec S_Linalg S_Sensors S_Ar.

Section Dav.
  Context {A : Arith}.

  (** what a caller may do with a filter: there is nothing else in its public interface *)
  Inductive dv_call :=
  | DInit (w1 w2 : T) (g mdip : option T)
  | DUpdate (ax ay az mx my mz : T).
  Definition dv_do (q : dv_call) (s : Davenport) : Davenport * res AhrsError unit :=
    match q with
    | DInit w1 w2 g mdip => dv_init w1 w2 g mdip s
    | DUpdate ax ay az mx my mz => dv_update ax ay az mx my mz s
    end.
  (** a weight is at least EPSILON and at most 1 (hence not NaN) *)
  Definition weight_ok (w : T) : Prop := fleb EPSILON w = true /\ fleb w f1 = true.
  (** Fresh: no [init] so far; Stuck: the first one had a bad weight; Live: it had good weights *)
  Inductive dv_next : phase -> dv_call -> phase -> Prop :=
  | dn_bad w1 w2 g mdip : ~ (weight_ok w1 /\ weight_ok w2) -> dv_next Fresh (DInit w1 w2 g mdip) Stuck
  | dn_init w1 w2 g mdip : weight_ok w1 -> weight_ok w2 -> dv_next Fresh (DInit w1 w2 g mdip) Live
  | dn_again p w1 w2 g mdip : p <> Fresh -> dv_next p (DInit w1 w2 g mdip) p
  | dn_update p ax ay az mx my mz : dv_next p (DUpdate ax ay az mx my mz) p.
  Inductive dv_hist : Davenport -> phase -> Prop :=
  | dh_new s : dv_new = Ok s -> dv_hist s Fresh
  | dh_call s p q p' : dv_hist s p -> dv_next p q p' -> dv_hist (fst (dv_do q s)) p'.
  (** reachable by any calls at all *)
  Inductive dv_reach : Davenport -> Prop :=
  | dr_new s : dv_new = Ok s -> dv_reach s
  | dr_call s q : dv_reach s -> dv_reach (fst (dv_do q s)).
End Dav.
