(** Specification vocabulary for the angular-rate filter: its life cycle as an automaton driven by
    the arguments of the calls only, and the values an update computes. *)
From Coq Require Import List Arith ZArith NArith Bool Reals.
From Flocq Require Import BinarySingleNaN.
From Verif Require Import M_Base M_Arith M_Utils M_Vector M_Matrix M_Quaternion M_Sensors M_Ar M_F32 M_RX
  S_Spec S_Linalg S_Norm S_Quat S_Sensors.
Import ListNotations.

Section Ar.
  Context {A : Arith}.

  Definition cfg_finite (c : Config) : Prop := forall x, In x (fields c) -> valid x.
  Definition quat_finite (w x y z : T) : Prop := valid w /\ valid x /\ valid y /\ valid z.

  Definition raw3 (x y z : T) (i : nat) : T := nth i [x; y; z] f0.

  (** what a caller may do with a filter *)
  Inductive ar_call :=
  | AInit (qw qx qy qz : T) (c : Config) (ts : T) (m : NIM) (order : nat)
  | AUpdate (gx gy gz : T).
  Definition ar_do (ck : bool) (q : ar_call) (s : AR) : AR * res AhrsError unit :=
    match q with
    | AInit qw qx qy qz c ts m order => ar_init qw qx qy qz c ts m order s
    | AUpdate gx gy gz => ar_update ck gx gy gz s
    end.

  (** Fresh: no [init] with a finite configuration so far; Stuck: the first one had a quaternion
      that was not finite; Live: the first one had finite arguments *)
  Inductive phase := Fresh | Stuck | Live.
  Inductive ar_next : phase -> ar_call -> phase -> Prop :=
  | an_config qw qx qy qz c ts m order : ~ cfg_finite c ->
      ar_next Fresh (AInit qw qx qy qz c ts m order) Fresh
  | an_quat qw qx qy qz c ts m order : cfg_finite c -> ~ quat_finite qw qx qy qz ->
      ar_next Fresh (AInit qw qx qy qz c ts m order) Stuck
  | an_init qw qx qy qz c ts m order : cfg_finite c -> quat_finite qw qx qy qz ->
      ar_next Fresh (AInit qw qx qy qz c ts m order) Live
  | an_again p qw qx qy qz c ts m order : p <> Fresh ->
      ar_next p (AInit qw qx qy qz c ts m order) p
  | an_update p gx gy gz : ar_next p (AUpdate gx gy gz) p.

  (** the states reachable by any sequence of calls, whether they succeed or fail (a panic ends
      the program) *)
  Inductive ar_hist (ck : bool) : AR -> phase -> Prop :=
  | ah_new s : ar_new = Ok s -> ar_hist ck s Fresh
  | ah_call s p q p' : ar_hist ck s p -> ar_next p q p' -> snd (ar_do ck q s) <> Panic ->
      ar_hist ck (fst (ar_do ck q s)) p'.
  Inductive ar_later (ck : bool) (s0 : AR) : AR -> Prop :=
  | al_here : ar_later ck s0 s0
  | al_call s q : ar_later ck s0 s -> snd (ar_do ck q s) <> Panic -> ar_later ck s0 (fst (ar_do ck q s)).
  (** n updates with the same measurement, all successful *)
  Inductive ar_repeat (ck : bool) (gx gy gz : T) : nat -> AR -> AR -> Prop :=
  | ap_0 s : ar_repeat ck gx gy gz 0 s s
  | ap_S n s s1 s' : ar_repeat ck gx gy gz n s s1 -> ar_update ck gx gy gz s1 = (s', Ok tt) ->
      ar_repeat ck gx gy gz (S n) s s'.

  (** ** what an update computes, in the order of the machine operations *)
  (** Omega(w) *)
  Definition omega_t (w : nat -> T) (i j : nat) : T :=
    nth (4 * i + j) [f0;  (- w 0)%F; (- w 1)%F; (- w 2)%F;
                     w 0; f0;        w 2;       (- w 1)%F;
                     w 1; (- w 2)%F; f0;        w 0;
                     w 2; w 1;       (- w 0)%F; f0] f0.
  Definition idm (i j : nat) : T := if i =? j then f1 else f0.
  (** cos t I + sin t / n Omega *)
  Definition cf_mat (ts : T) (w : nat -> T) (n : T) (i j : nat) : T :=
    (idm i j * fcos (n * ts / f2) + omega_t w i j * (fsin (n * ts / f2) / n))%F.
  (** the factorial modulo 2^64 *)
  Fixpoint Nfact (n : nat) : N := match n with 0 => 1%N | S k => (N.of_nat n * Nfact k)%N end.
  (** element-wise powers of the cells of ts/2 Omega over factorials *)
  Definition ty_om (ts : T) (w : nat -> T) (i j : nat) : T := (omega_t w i j * (fhalf * ts))%F.
  Definition ty_term (ts : T) (w : nat -> T) (k i j : nat) : T :=
    (fpow (ty_om ts w i j) (fofnat k) * (f1 / fofN (Nfact k mod 2 ^ 64)))%F.
  Fixpoint ty_mat (ts : T) (w : nat -> T) (k i j : nat) : T :=
    match k with 0 => idm i j | S k' => (ty_mat ts w k' i j + ty_term ts w (S k') i j)%F end.
  Definition eu_w (ts : T) (w : nat -> T) (i : nat) : T := (quad f0 (w 0) (w 1) (w 2) i * (fhalf * ts))%F.
  Definition q_prod (f g : nat -> T) : nat -> T :=
    quad (f 0 * g 0 - f 1 * g 1 - f 2 * g 2 - f 3 * g 3)%F
         (f 0 * g 1 + f 1 * g 0 - f 3 * g 2 + f 2 * g 3)%F
         (f 0 * g 2 + f 3 * g 1 + g 0 * f 2 - f 1 * g 3)%F
         (f 0 * g 3 - f 2 * g 1 + f 1 * g 2 + g 0 * f 3)%F.
  (** the quaternion before normalisation *)
  Definition step (m : NIM) (order : nat) (ts : T) (f w : nat -> T) (n : T) (i : nat) : T :=
    match m with
    | ClosedForm => fsum 4 (fun j => cf_mat ts w n i j * f j)%F
    | TaylorSeries => fsum 4 (fun j => ty_mat ts w order i j * f j)%F
    | Euler => (f i + q_prod (eu_w ts w) f i)%F
    | _ => f i
    end.
  Definition supported (m : NIM) : Prop := m = ClosedForm \/ m = TaylorSeries \/ m = Euler.
  (** every value written on the way is finite; with overflow checks the term 21! is never reached *)
  Definition step_finite (ck : bool) (m : NIM) (order : nat) (ts : T) (f w : nat -> T) (n : T) : Prop :=
    (forall i j, i < 4 -> j < 4 -> valid (omega_t w i j)) /\
    match m with
    | ClosedForm => forall i j, i < 4 -> j < 4 ->
        valid (idm i j * fcos (n * ts / f2))%F /\ valid (omega_t w i j * (fsin (n * ts / f2) / n))%F /\
        valid (cf_mat ts w n i j) /\
        forall k, 1 <= k <= 4 -> valid (fsum k (fun j => cf_mat ts w n i j * f j)%F)
    | TaylorSeries => forall i j, i < 4 -> j < 4 ->
        valid (ty_om ts w i j) /\
        (forall k, 1 <= k <= order -> (ck = true -> k <= 21) -> valid (fpow (ty_om ts w i j) (fofnat k))) /\
        (forall k, 1 <= k <= order -> (ck = true -> k <= 20) -> valid (ty_term ts w k i j) /\ valid (ty_mat ts w k i j)) /\
        ((ck = true -> order <= 20) -> forall k, 1 <= k <= 4 -> valid (fsum k (fun j => ty_mat ts w order i j * f j)%F))
    | Euler => (forall i, i < 4 -> valid (eu_w ts w i)) /\ (forall i, i < 4 -> valid (q_prod (eu_w ts w) f i))
    | _ => True
    end.
  (** the rate whose norm is compared with EPSILON, norms below it counting as zero *)
  Definition rate_norm (w : nat -> T) : T :=
    let r := fsqrt (fsum 3 (fun i => w i * w i))%F in if (r <=? EPSILON)%F then f0 else r.
End Ar.

Local Open Scope R_scope.
(** the incremental rotation over a time t at the constant body rate w *)
Definition turn (w : nat -> R) (t : R) : quat :=
  let n := sqrt (w 0%nat * w 0%nat + w 1%nat * w 1%nat + w 2%nat * w 2%nat) in
  Quat (cos (n * t / 2)) (sin (n * t / 2) * (w 0%nat / n)) (sin (n * t / 2) * (w 1%nat / n)) (sin (n * t / 2) * (w 2%nat / n)).
Definition purer (w : nat -> R) : quat := Quat 0 (w 0%nat) (w 1%nat) (w 2%nat).
Definition qnormalized (q : quat) : quat := qscale (/ qnorm q) q.
(** Omega(w): the matrix of q -> q (0, w) *)
Definition omr (w : nat -> R) (i j : nat) : R :=
  nth (4 * i + j) [0;       - w 0%nat; - w 1%nat; - w 2%nat;
                   w 0%nat; 0;         w 2%nat;   - w 1%nat;
                   w 1%nat; - w 2%nat; 0;         w 0%nat;
                   w 2%nat; w 1%nat;   - w 0%nat; 0] 0.
Definition qapp (M : nat -> nat -> R) (q : quat) : quat :=
  let r i := Rsum 4 (fun j => M i j * qf q j) in Quat (r 0%nat) (r 1%nat) (r 2%nat) (r 3%nat).
(** I + sum of the powers, TAKEN CELL BY CELL, of t/2 Omega over the factorials *)
Definition taylor_cells (order : nat) (t : R) (w : nat -> R) (i j : nat) : R :=
  rid i j + Rsum order (fun k => (t / 2 * omr w i j) ^ S k / INR (fact (S k))).
(** an f32 quaternion of true norm within 1e-6 of 1, or exactly zero *)
Definition good (f : nat -> f32) : Prop :=
  Rabs (rnorm 4 (fun i => B2R (f i)) - 1) < / 1000000 \/ forall i, (i < 4)%nat -> B2R (f i) = 0.
