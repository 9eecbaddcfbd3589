(** Weakest-precondition rules for the control-flow vocabulary of M_Base.v. *)
From Coq Require Import List Arith Lia Bool.
From Verif Require Import M_Base.
Import ListNotations.
#[global] Arguments Nat.ltb : simpl never.

(** [Q]: on success, [X]: on error (with the state left behind), [P]: on panic *)
Definition wp {S E A} (c : ST S E A) (s : S) (Q : A -> S -> Prop) (X : E -> S -> Prop)
  (P : Prop) : Prop :=
  match c s with (s', Ok a) => Q a s' | (s', Err e) => X e s' | (_, Panic) => P end.
Definition rwp {E A} (r : res E A) (Q : A -> Prop) (X : E -> Prop) (P : Prop) : Prop :=
  match r with Ok a => Q a | Err e => X e | Panic => P end.

Section Rules.
  Context {S E : Type}.
  Implicit Types (s : S).

  Lemma wp_conseq {A} (c : ST S E A) s (Q Q' : A -> S -> Prop) (X X' : E -> S -> Prop) (P P' : Prop) :
    wp c s Q X P -> (forall a s', Q a s' -> Q' a s') -> (forall e s', X e s' -> X' e s') ->
    (P -> P') -> wp c s Q' X' P'.
  Proof. unfold wp. destruct (c s) as [s' [a|e|]]; auto. Qed.

  Lemma wp_bind {A B} (c : ST S E A) (k : A -> ST S E B) s Q X P :
    wp c s (fun a s' => wp (k a) s' Q X P) X P -> wp (sbind c k) s Q X P.
  Proof. unfold wp, sbind. destruct (c s) as [s' [a|e|]]; auto. Qed.

  Lemma wp_sret {A} (a : A) s (Q : A -> S -> Prop) (X : E -> S -> Prop) P : Q a s -> wp (sret a) s Q X P.
  Proof. auto. Qed.
  Lemma wp_sthrow {A} (e : E) s (Q : A -> S -> Prop) (X : E -> S -> Prop) P : X e s -> wp (sthrow e) s Q X P.
  Proof. auto. Qed.
  Lemma wp_lift {A} (r : res E A) s (Q : A -> S -> Prop) (X : E -> S -> Prop) P :
    rwp r (fun a => Q a s) (fun e => X e s) P -> wp (lift r) s Q X P.
  Proof. unfold wp, rwp, lift. destruct r; auto. Qed.
  Lemma wp_reads {A} (f : S -> res E A) s (Q : A -> S -> Prop) (X : E -> S -> Prop) P :
    rwp (f s) (fun a => Q a s) (fun e => X e s) P -> wp (reads f) s Q X P.
  Proof. unfold wp, rwp, reads. destruct (f s); auto. Qed.
  Lemma wp_modify (f : S -> S) s (Q : unit -> S -> Prop) (X : E -> S -> Prop) P :
    Q tt (f s) -> wp (modify f) s Q X P.
  Proof. auto. Qed.

  Lemma wp_exec (c : ST S E unit) s (Q : S -> Prop) (X : E -> Prop) P :
    wp c s (fun _ s' => Q s') (fun e _ => X e) P -> rwp (exec c s) Q X P.
  Proof. unfold wp, rwp, exec. destruct (c s) as [s' [a|e|]]; auto. Qed.

  Lemma wp_for_list (I : list nat -> S -> Prop) l (body : nat -> ST S E unit) s (Q : unit -> S -> Prop) (X : E -> S -> Prop) (P : Prop) :
    I l s ->
    (forall i l' s, I (i :: l') s -> wp (body i) s (fun _ s' => I l' s') X P) ->
    (forall s, I [] s -> Q tt s) ->
    wp (for_ l body) s Q X P.
  Proof.
    intros H Hb HQ. revert s H. induction l as [|i l IH]; intros s H; cbn [for_].
    - apply wp_sret; auto.
    - apply wp_bind. eapply wp_conseq; [apply Hb, H| |auto|auto].
      intros u s' H'. cbn in H' |- *. apply IH, H'.
  Qed.

  Lemma range_cons a b : a < b -> range a b = a :: range (Datatypes.S a) b.
  Proof. intros H. unfold range. replace (b - a) with (Datatypes.S (b - Datatypes.S a)) by lia. reflexivity. Qed.
  Lemma range_nil a b : b <= a -> range a b = [].
  Proof. intros H. unfold range. replace (b - a) with 0 by lia. reflexivity. Qed.
  Lemma range_snoc a b : a <= b -> range a (Datatypes.S b) = range a b ++ [b].
  Proof.
    intros H. unfold range. replace (Datatypes.S b - a) with (Datatypes.S (b - a)) by lia.
    rewrite seq_S. f_equal. f_equal. lia.
  Qed.
  Lemma in_range_ a b i : In i (range a b) <-> a <= i < b.
  Proof. unfold range. rewrite in_seq. lia. Qed.

  Lemma wp_for (I : nat -> S -> Prop) a b (body : nat -> ST S E unit) s (Q : unit -> S -> Prop) (X : E -> S -> Prop) (P : Prop) :
    I a s ->
    (forall i s, a <= i < b -> I i s -> wp (body i) s (fun _ s' => I (Datatypes.S i) s') X P) ->
    (forall s, I (max a b) s -> Q tt s) ->
    wp (for_ (range a b) body) s Q X P.
  Proof.
    intros H Hb HQ.
    destruct (Nat.le_gt_cases b a) as [Hab|Hab].
    { rewrite range_nil by auto. apply wp_sret, HQ. rewrite Nat.max_l by auto. exact H. }
    rewrite Nat.max_r in HQ by lia.
    remember (b - a) as n eqn:Hn. revert a s Hab Hn H Hb.
    induction n as [|n IH]; intros a s Hab Hn H Hb; [lia|].
    rewrite range_cons by auto. cbn [for_]. apply wp_bind.
    eapply wp_conseq; [apply Hb; [lia|exact H]| |auto|auto].
    intros u s' H'. cbn in H' |- *.
    destruct (Nat.eq_dec (Datatypes.S a) b) as [Heq|Hne]; [subst|].
    - rewrite range_nil by auto. apply wp_sret. auto.
    - apply IH; [lia|lia|exact H'|]. intros i s0 Hi. apply Hb. lia.
  Qed.

  (** descending loop [(a..b).rev()]; [I i] holds when the indices >= i are done *)
  Lemma wp_for_rev (I : nat -> S -> Prop) a b (body : nat -> ST S E unit) s (Q : unit -> S -> Prop) (X : E -> S -> Prop) (P : Prop) :
    I (max a b) s ->
    (forall i s, a <= i < b -> I (Datatypes.S i) s -> wp (body i) s (fun _ s' => I i s') X P) ->
    (forall s, I a s -> Q tt s) ->
    wp (for_ (rev (range a b)) body) s Q X P.
  Proof.
    intros H Hb HQ.
    destruct (Nat.le_gt_cases b a) as [Hab|Hab].
    { rewrite range_nil by auto. cbn [rev app for_]. apply wp_sret, HQ. rewrite Nat.max_l in H by auto. exact H. }
    rewrite Nat.max_r in H by lia.
    remember (b - a) as n eqn:Hn. revert b s Hab Hn H Hb.
    induction n as [|n IH]; intros b s Hab Hn H Hb; [lia|].
    destruct b as [|b]; [lia|].
    rewrite range_snoc by lia. rewrite rev_app_distr. cbn [rev app for_]. apply wp_bind.
    eapply wp_conseq; [apply Hb; [lia|exact H]| |auto|auto].
    intros u s' H'. cbn in H' |- *.
    destruct (Nat.eq_dec a b) as [Heq|Hne]; [subst|].
    - rewrite range_nil by auto. cbn [rev app for_]. apply wp_sret. auto.
    - apply IH; [lia|lia|exact H'|]. intros i s0 Hi. apply Hb. lia.
  Qed.

  (** loop with break: [I i] before iteration [i], [Q] on leaving *)
  Lemma wp_for_break (I : nat -> S -> Prop) a b (body : nat -> ST S E bool) s (Q : unit -> S -> Prop) (X : E -> S -> Prop) (P : Prop) :
    I a s ->
    (forall i s, a <= i < b -> I i s ->
       wp (body i) s (fun go s' => if go then I (Datatypes.S i) s' else Q tt s') X P) ->
    (forall s, I (max a b) s -> Q tt s) ->
    wp (for_break (range a b) body) s Q X P.
  Proof.
    intros H Hb HQ.
    destruct (Nat.le_gt_cases b a) as [Hab|Hab].
    { rewrite range_nil by auto. apply wp_sret, HQ. rewrite Nat.max_l by auto. exact H. }
    rewrite Nat.max_r in HQ by lia.
    remember (b - a) as n eqn:Hn. revert a s Hab Hn H Hb.
    induction n as [|n IH]; intros a s Hab Hn H Hb; [lia|].
    rewrite range_cons by auto. cbn [for_break]. apply wp_bind.
    eapply wp_conseq; [apply Hb; [lia|exact H]| |auto|auto].
    intros go s' H'. cbn in H' |- *. destruct go; [|apply wp_sret; exact H'].
    destruct (Nat.eq_dec (Datatypes.S a) b) as [Heq|Hne]; [subst|].
    - rewrite range_nil by auto. apply wp_sret. auto.
    - apply IH; [lia|lia|exact H'|]. intros i s0 Hi. apply Hb. lia.
  Qed.

  Lemma wp_zoom {S'} {A} (get : S -> S') put (c : ST S' E A) s Q X P :
    wp c (get s) (fun a t => Q a (put t s)) (fun e t => X e (put t s)) P ->
    wp (zoom get put c) s Q X P.
  Proof. unfold wp, zoom. destruct (c (get s)) as [s' [a|e|]]; auto. Qed.

  Lemma wp_smap_err {E' A} (f : E' -> E) (c : ST S E' A) s Q X P :
    wp c s Q (fun e s' => X (f e) s') P -> wp (smap_err f c) s Q X P.
  Proof. unfold wp, smap_err. destruct (c s) as [s' [a|e|]]; auto. Qed.

  Lemma rwp_conseq {A} (r : res E A) (Q Q' : A -> Prop) (X X' : E -> Prop) (P P' : Prop) :
    rwp r Q X P -> (forall a, Q a -> Q' a) -> (forall e, X e -> X' e) -> (P -> P') -> rwp r Q' X' P'.
  Proof. unfold rwp. destruct r; auto. Qed.
  Lemma rwp_bind {A B} (r : res E A) (k : A -> res E B) Q X P :
    rwp r (fun a => rwp (k a) Q X P) X P -> rwp (rbind r k) Q X P.
  Proof. unfold rwp, rbind. destruct r; auto. Qed.
  Lemma rwp_map_err {E' A} (f : E' -> E) (r : res E' A) Q X P :
    rwp r Q (fun e => X (f e)) P -> rwp (map_err f r) Q X P.
  Proof. unfold rwp, map_err. destruct r; auto. Qed.

  Lemma rwp_fold {B} (I : nat -> B -> Prop) a b (f : nat -> B -> res E B) acc (Q : B -> Prop) (X : E -> Prop) (P : Prop) :
    I a acc ->
    (forall i acc, a <= i < b -> I i acc -> rwp (f i acc) (I (Datatypes.S i)) X P) ->
    (forall acc, I (max a b) acc -> Q acc) ->
    rwp (rfold (range a b) f acc) Q X P.
  Proof.
    intros H Hb HQ.
    destruct (Nat.le_gt_cases b a) as [Hab|Hab].
    { rewrite range_nil by auto. cbn. apply HQ. rewrite Nat.max_l by auto. exact H. }
    rewrite Nat.max_r in HQ by lia.
    remember (b - a) as n eqn:Hn. revert a acc Hab Hn H Hb.
    induction n as [|n IH]; intros a acc Hab Hn H Hb; [lia|].
    rewrite range_cons by auto. cbn [rfold]. apply rwp_bind.
    eapply rwp_conseq; [apply Hb; [lia|exact H]| |auto|auto].
    intros acc' H'. cbn in H' |- *.
    destruct (Nat.eq_dec (Datatypes.S a) b) as [Heq|Hne]; [subst|].
    - rewrite range_nil by auto. cbn. auto.
    - apply IH; [lia|lia|exact H'|]. intros i s0 Hi. apply Hb. lia.
  Qed.

  (** a test loop: [t i] is what the test of index [i] decides *)
  Lemma rwp_rall (t : nat -> Prop) a b (f : nat -> res E bool) (Q : bool -> Prop) X P :
    (forall i, a <= i < b -> rwp (f i) (fun x => x = true <-> t i) X P) ->
    (forall x : bool, (x = true <-> forall i, a <= i < b -> t i) -> Q x) ->
    rwp (rall (range a b) f) Q X P.
  Proof.
    intros Hb HQ.
    remember (b - a) as n eqn:Hn. revert a Hn Hb HQ.
    induction n as [|n IH]; intros a Hn Hb HQ.
    { rewrite range_nil by lia. cbn. apply HQ. split; [intros _ i Hi; lia|auto]. }
    rewrite range_cons by lia. cbn [rall]. apply rwp_bind.
    eapply rwp_conseq; [apply Hb; lia| |auto|auto].
    intros x Hx. cbn. destruct x.
    - apply IH; [lia|intros; apply Hb; lia|].
      intros x Hx'. apply HQ. rewrite Hx'. split; intros H i Hi.
      + destruct (Nat.eq_dec i a) as [->|]; [apply Hx; auto|apply H; lia].
      + apply H; lia.
    - cbn. apply HQ. split; [discriminate|]. intros H. apply Hx, H. lia.
  Qed.
End Rules.

(** from a wp with an equality for each outcome back to an equation *)
Lemma wp_elim {S E A} (c : ST S E A) s Q X P : wp c s Q X P ->
  (exists a s', c s = (s', Ok a) /\ Q a s') \/ (exists e s', c s = (s', Err e) /\ X e s')
  \/ (exists s', c s = (s', Panic) /\ P).
Proof. unfold wp. destruct (c s) as [s' [a|e|]]; eauto 10. Qed.
Lemma rwp_ok {E A} (r : res E A) Q X P a : rwp r Q X P -> r = Ok a -> Q a.
Proof. intros H ->. exact H. Qed.
Lemma wp_ok {S E A} (c : ST S E A) s Q X P a s' : wp c s Q X P -> c s = (s', Ok a) -> Q a s'.
Proof. unfold wp. intros H Hc. rewrite Hc in H. exact H. Qed.

(** to unfold a method [fun self => (...) self] at its actual argument *)
Lemma wp_fold {S E A} (c c' : ST S E A) s (Q : A -> S -> Prop) (X : E -> S -> Prop) (P : Prop) :
  c s = c' s -> wp c' s Q X P -> wp c s Q X P.
Proof. unfold wp. intros ->. auto. Qed.

(** Equational stepping through a bind. *)
Lemma sbind_ok {S E X Y} (c : ST S E X) (k : X -> ST S E Y) s s' a :
  c s = (s', Ok a) -> sbind c k s = k a s'.
Proof. intros H. unfold sbind. rewrite H. reflexivity. Qed.
Lemma sbind_err {S E X Y} (c : ST S E X) (k : X -> ST S E Y) s s' e :
  c s = (s', Err e) -> sbind c k s = (s', Err e).
Proof. intros H. unfold sbind. rewrite H. reflexivity. Qed.
Lemma sbind_panic {S E X Y} (c : ST S E X) (k : X -> ST S E Y) s s' :
  c s = (s', Panic) -> sbind c k s = (s', Panic).
Proof. intros H. unfold sbind. rewrite H. reflexivity. Qed.
Lemma lift_ok {S E X} (r : res E X) (s : S) a : r = Ok a -> lift r s = (s, Ok a).
Proof. intros ->. reflexivity. Qed.
Lemma lift_err {S E X} (r : res E X) (s : S) e : r = Err e -> lift r s = (s, Err e).
Proof. intros ->. reflexivity. Qed.
