(** Specification vocabulary, independent of how the model's operations are written:
    what it is for a container to represent a mathematical vector or matrix. *)
From Coq Require Import List Arith ZArith Bool.
From Verif Require Import M_Base M_Arith M_Utils M_Vector M_Matrix.
Import ListNotations.

Section Spec.
  Context {A : Arith}.

  (** a float that is neither NaN nor infinite *)
  Definition valid (x : T) : Prop := fnan x = false /\ finf x = false.

  (** what is wrong with a float that is not valid; NaN first *)
  Definition bad (x : T) : option UtilsError :=
    if fnan x then Some Nan else if finf x then Some Inf else None.

  (** well-formed storage: shape limits and finiteness *)
  Record wfm (m : Mat T) : Prop := {
    wfm_len : length (m_elems m) = 16;
    wfm_rows : m_rows m <= 4;
    wfm_cols : m_cols m <= 4;
    wfm_pos : m_initialized m = true -> 1 <= m_rows m /\ 1 <= m_cols m;
    wfm_fin : Forall valid (m_elems m)
  }.
  Record wfv (v : Vec T) : Prop := {
    wfv_len : length (v_elems v) = 4;
    wfv_rows : v_rows v <= 4;
    wfv_pos : v_initialized v = true -> 1 <= v_rows v;
    wfv_fin : Forall valid (v_elems v)
  }.

  (** [m] is an initialised r x c matrix whose elements, as seen by [get_element], are
      given by [f] *)
  Record mat_is (m : Mat T) (r c : nat) (f : nat -> nat -> T) : Prop := {
    mi_wf : wfm m;
    mi_init : m_initialized m = true;
    mi_rows : m_rows m = r;
    mi_cols : m_cols m = c;
    mi_get : forall i j, i < r -> j < c -> m_get m i j = Ok (f i j)
  }.
  Record vec_is (v : Vec T) (n : nat) (f : nat -> T) : Prop := {
    vi_wf : wfv v;
    vi_init : v_initialized v = true;
    vi_rows : v_rows v = n;
    vi_get : forall i, i < n -> v_get v i = Ok (f i)
  }.

  Definition fupd2 (f : nat -> nat -> T) (i j : nat) (x : T) : nat -> nat -> T :=
    fun a b => if (a =? i) && (b =? j) then x else f a b.
  Definition fupd1 (f : nat -> T) (i : nat) (x : T) : nat -> T :=
    fun a => if a =? i then x else f a.

  (** row-major order of cells *)
  Definition before (a b i j : nat) : bool := (a <? i) || ((a =? i) && (b <? j)).

  (** The meaning of an element-wise operation on an r x c object that held [f] and is to
      receive [g]: complete if every new value is finite, otherwise stopped at the first
      offending cell with the cells before it written and the others untouched. *)
  Definition pointwise_m (r c : nat) (f g : nat -> nat -> T)
      (out : Mat T * res LinalgError unit) : Prop :=
    ((forall i j, i < r -> j < c -> valid (g i j)) /\
     snd out = Ok tt /\ mat_is (fst out) r c g)
    \/
    (exists i j k, i < r /\ j < c /\ bad (g i j) = Some k /\
       (forall a b, a < r -> b < c -> before a b i j = true -> valid (g a b)) /\
       snd out = Err (UtilsErr k) /\
       mat_is (fst out) r c (fun a b => if before a b i j then g a b else f a b)).
  Definition pointwise_v (n : nat) (f g : nat -> T)
      (out : Vec T * res LinalgError unit) : Prop :=
    ((forall i, i < n -> valid (g i)) /\ snd out = Ok tt /\ vec_is (fst out) n g)
    \/
    (exists i k, i < n /\ bad (g i) = Some k /\
       (forall a, a < i -> valid (g a)) /\
       snd out = Err (UtilsErr k) /\
       vec_is (fst out) n (fun a => if a <? i then g a else f a)).
  (** the same for operations that return a new object *)
  Definition pointwise_mnew (r c : nat) (g : nat -> nat -> T) (out : res LinalgError (Mat T)) : Prop :=
    ((forall i j, i < r -> j < c -> valid (g i j)) /\ exists m, out = Ok m /\ mat_is m r c g)
    \/
    (exists i j k, i < r /\ j < c /\ bad (g i j) = Some k /\
       (forall a b, a < r -> b < c -> before a b i j = true -> valid (g a b)) /\
       out = Err (UtilsErr k)).
  Definition pointwise_vnew (n : nat) (g : nat -> T) (out : res LinalgError (Vec T)) : Prop :=
    ((forall i, i < n -> valid (g i)) /\ exists v, out = Ok v /\ vec_is v n g)
    \/
    (exists i k, i < n /\ bad (g i) = Some k /\ (forall a, a < i -> valid (g a)) /\
       out = Err (UtilsErr k)).
End Spec.

(** the literals written into containers by the library itself are finite *)
Class ArithOk (A : Arith) : Prop := {
  ok_f0 : valid f0;
  ok_f1 : valid f1;
  ok_fm1 : valid fm1;
  ok_eps : valid EPSILON
}.
