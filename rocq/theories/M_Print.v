(** Model of the std-only output functions.  Standard output is the list of things written so far; how a number
    is written with three decimals is not modelled. *)
From Coq Require Import List Arith.
From Verif Require Import M_Base M_Arith M_Utils M_Vector M_Matrix M_Quaternion M_Sensors M_Ar.
Import ListNotations.

Section Print.
  Context {A : Arith}.
  (** a number with three decimals, [\t], [\n] *)
  Inductive token := Number (x : T) | Tab | Newline.
  Definition put {E} (t : token) : ST (list token) E unit := modify (fun o => o ++ [t]).

  (** linalg/src/vector.rs:162-174 *)
  Definition v_print (self : Vec T) : ST (list token) LinalgError unit :=
    for_ (range 0 (v_rows self)) (fun row =>
      let! element := lift (v_get self row) in
      put (Number element) ;;! put Newline) ;;!
    put Newline.

  (** linalg/src/matrix.rs:229-245 *)
  Definition m_print (self : Mat T) : ST (list token) LinalgError unit :=
    for_ (range 0 (m_rows self)) (fun row =>
      for_ (range 0 (m_cols self)) (fun col =>
        let! element := lift (m_get self row col) in
        put (Number element) ;;! put Tab) ;;!
      put Newline) ;;!
    put Newline.

  (** open_ahrs/src/ar.rs:182-193 *)
  Definition ar_print_attitude (self : AR) : ST (list token) AhrsError unit :=
    if negb (ar_initialized self) then sthrow ARFilterNotInit
    else smap_err LinErr (v_print (ar_attitude self)).
End Print.
