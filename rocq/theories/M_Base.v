(** Control-flow vocabulary of the model: Rust [Result], panics, [&mut] methods,
    loops, fixed-size arrays and machine integers.  No property is stated here. *)
From Coq Require Import List Arith ZArith NArith Bool.
Import ListNotations.
Set Implicit Arguments.

(** [Result<A,E>] extended with the panic outcome (index out of bounds, integer
    overflow with overflow checks on). *)
Inductive res (E A : Type) : Type :=
| Ok (a : A)
| Err (e : E)
| Panic.
Arguments Ok {E A} a.
Arguments Err {E A} e.
Arguments Panic {E A}.

Section Res.
  Variables E A B : Type.
  (** the [?] operator *)
  Definition rbind (r : res E A) (k : A -> res E B) : res E B :=
    match r with Ok a => k a | Err e => Err e | Panic => Panic end.
  Definition rmap (f : A -> B) (r : res E A) : res E B :=
    match r with Ok a => Ok (f a) | Err e => Err e | Panic => Panic end.
  (** [Result::map_err], also the implicit [From] conversion done by [?] *)
  Definition map_err (E' : Type) (f : E -> E') (r : res E A) : res E' A :=
    match r with Ok a => Ok a | Err e => Err (f e) | Panic => Panic end.
End Res.

(** A [&mut self] method: new state of [self] and outcome.  The new state is
    returned on failure as well, because Rust keeps the writes done before [Err]. *)
Definition ST (S E A : Type) : Type := S -> S * res E A.

Section State.
  Variables S E : Type.
  Definition sret (A : Type) (a : A) : ST S E A := fun s => (s, Ok a).
  Definition sthrow (A : Type) (e : E) : ST S E A := fun s => (s, Err e).
  Definition sbind (A B : Type) (c : ST S E A) (k : A -> ST S E B) : ST S E B :=
    fun s => match c s with
             | (s', Ok a) => k a s'
             | (s', Err e) => (s', Err e)
             | (s', Panic) => (s', Panic)
             end.
  (** a [?]-expression that does not touch the state *)
  Definition lift (A : Type) (r : res E A) : ST S E A := fun s => (s, r).
  (** a [?]-expression that reads the state *)
  Definition reads (A : Type) (f : S -> res E A) : ST S E A := fun s => (s, f s).
  Definition modify (f : S -> S) : ST S E unit := fun s => (f s, Ok tt).
  (** run a mutating method on a local variable; the local is lost on failure *)
  Definition exec (c : ST S E unit) (s : S) : res E S :=
    match c s with
    | (s', Ok _) => Ok s'
    | (_, Err e) => Err e
    | (_, Panic) => Panic
    end.
  (** [for i in l { body(i) }] where the body may return early with an error *)
  Fixpoint for_ (l : list nat) (body : nat -> ST S E unit) : ST S E unit :=
    match l with
    | [] => sret tt
    | i :: l' => sbind (body i) (fun _ => for_ l' body)
    end.
  (** the same with [break]: the body answers whether to go on *)
  Fixpoint for_break (l : list nat) (body : nat -> ST S E bool) : ST S E unit :=
    match l with
    | [] => sret tt
    | i :: l' => sbind (body i) (fun go => if go then for_break l' body else sret tt)
    end.
End State.
Arguments sret {S E A} a _.
Arguments sthrow {S E A} e _.
Arguments sbind {S E A B} c k _.
Arguments lift {S E A} r _.
Arguments reads {S E A} f _.
Arguments modify {S E} f _.
Arguments exec {S E} c s.
Arguments for_ {S E} l body _.
Arguments for_break {S E} l body _.

(** run a method on a component of the state ([self.field.method(..)?]) *)
Definition zoom (S S' E A : Type) (get : S -> S') (put : S' -> S -> S)
  (c : ST S' E A) : ST S E A :=
  fun s => let (s', r) := c (get s) in (put s' s, r).

(** change of error type performed by [?] through [From] / [map_err] *)
Definition smap_err (S E E' A : Type) (f : E -> E') (c : ST S E A) : ST S E' A :=
  fun s => let (s', r) := c s in (s', map_err f r).

Notation "'let?' x ':=' e 'in' k" := (rbind e (fun x => k))
  (at level 200, x pattern, e at level 100, k at level 200, right associativity).
Notation "'let!' x ':=' e 'in' k" := (sbind e (fun x => k))
  (at level 200, x pattern, e at level 100, k at level 200, right associativity).
Notation "e ';;!' k" := (sbind e (fun _ => k))
  (at level 100, k at level 200, right associativity).

(** [a..b] *)
Definition range (a b : nat) : list nat := seq a (b - a).

(** [for i in l { acc = f(i, acc)? }] on a local accumulator *)
Fixpoint rfold (E B : Type) (l : list nat) (f : nat -> B -> res E B) (acc : B) : res E B :=
  match l with
  | [] => Ok acc
  | i :: l' => rbind (f i acc) (rfold l' f)
  end.

(** [for i in l { if !test(i)? { return Ok(false) } }; Ok(true)] *)
Fixpoint rall (E : Type) (l : list nat) (test : nat -> res E bool) : res E bool :=
  match l with
  | [] => Ok true
  | i :: l' => rbind (test i) (fun b => if b then rall l' test else Ok false)
  end.

Arguments rfold {E B} l f acc.
Arguments rall {E} l test.

(** fixed-size arrays *)
Definition arr_get (E X : Type) (l : list X) (i : nat) : res E X :=
  match nth_error l i with Some x => Ok x | None => Panic end.
Fixpoint upd (X : Type) (l : list X) (i : nat) (x : X) : list X :=
  match l, i with
  | [], _ => []
  | _ :: t, 0 => x :: t
  | h :: t, S i' => h :: upd t i' x
  end.
Definition arr_set (E X : Type) (l : list X) (i : nat) (x : X) : res E (list X) :=
  if i <? length l then Ok (upd l i x) else Panic.

(** u8 arithmetic; [ck] = overflow checks enabled (debug profile) *)
Definition u8_add (E : Type) (ck : bool) (a b : nat) : res E nat :=
  if a + b <? 256 then Ok (a + b) else if ck then Panic else Ok ((a + b) mod 256).
Definition u8_sub (E : Type) (ck : bool) (a b : nat) : res E nat :=
  if b <=? a then Ok (a - b) else if ck then Panic else Ok (256 + a - b).
(** i8 result of an integer computation *)
Definition i8_chk (E : Type) (ck : bool) (z : Z) : res E Z :=
  if ((-128 <=? z) && (z <=? 127))%Z then Ok z
  else if ck then Panic else Ok (((z + 128) mod 256) - 128)%Z.

Arguments arr_get {E X} l i.
Arguments arr_set {E X} l i x.
Arguments upd {X} l i x.
Arguments u8_add {E} ck a b.
Arguments u8_sub {E} ck a b.
Arguments i8_chk {E} ck z.
