(** Specification vocabulary for dsp: complex numbers as pairs of reals with the textbook operations. *)
From Coq Require Import Reals.
From Verif Require Import M_Base M_Arith M_Dsp M_RX.
Local Open Scope R_scope.

Record cplx := Cplx { Re : R; Im : R }.
Definition cadd (a b : cplx) : cplx := Cplx (Re a + Re b) (Im a + Im b).
Definition csub (a b : cplx) : cplx := Cplx (Re a - Re b) (Im a - Im b).
Definition cmul (a b : cplx) : cplx := Cplx (Re a * Re b - Im a * Im b) (Re a * Im b + Im a * Re b).
Definition copp (a : cplx) : cplx := Cplx (- Re a) (- Im a).
Definition cconj (a : cplx) : cplx := Cplx (Re a) (- Im a).
Definition cabs (a : cplx) : R := sqrt (Re a * Re a + Im a * Im a).
Definition cpolar (r t : R) : cplx := Cplx (r * cos t) (r * sin t).
Definition cexp (a : cplx) : cplx := cpolar (exp (Re a)) (Im a).

(** the complex number of a program holding [c], in exact arithmetic *)
Definition cx (c : cplx) : Complex (A := RX) := mkComplex (A := RX) (Some (Re c)) (Some (Im c)).
(** numerically zero: both parts within EPSILON *)
Definition czero (c : cplx) : Prop := Rabs (Re c) <= 1 / 10000 /\ Rabs (Im c) <= 1 / 10000.
