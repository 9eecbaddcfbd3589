(** C64: what the print functions write. *)
(*@+*)
From Coq Require Import String List Arith ZArith NArith Reals Lia Bool Lra SpecFloat.
From Flocq Require Import Core BinarySingleNaN.
From Verif Require Import M_Base M_Arith M_Utils M_Vector M_Matrix M_Quaternion M_Sensors M_Ar M_F32 M_Print
  S_Spec S_Reach S_Linalg S_Quat S_Sensors S_Ar P_Inst.
Import ListNotations.
Local Open Scope nat_scope.
Local Open Scope list_scope.
(*@-*)
From Verif Require Import P_Hoare P_Cont P_Loops P_Access P_Float P_Quat P_Sensors P_Ar P_Reach.

Section Print.
  Context {A : Arith}.
  Lemma print_loop (body : nat -> ST (list token) LinalgError unit) (g : nat -> list token) n k o :
    (forall i o, i < k + n -> body i o = (o ++ g i, Ok tt)) ->
    for_ (seq k n) body o = (o ++ flat_map g (seq k n), Ok tt).
  Proof.
    revert k o. induction n as [|n IH]; intros k o H; cbn [seq for_ flat_map].
    - unfold sret. rewrite app_nil_r. reflexivity.
    - unfold sbind. rewrite H by lia. rewrite IH by (intros; apply H; lia). rewrite app_assoc. reflexivity.
  Qed.
  Lemma flat_map_ext_in' (B : Type) (f g : nat -> list B) l : (forall i, In i l -> f i = g i) -> flat_map f l = flat_map g l.
  Proof. intros H. induction l as [|x l IH]; cbn; [reflexivity|]. rewrite H by (left; reflexivity). rewrite IH by (intros; apply H; right; assumption). reflexivity. Qed.
  Lemma v_print_is v n f o : vec_is v n f ->
    v_print v o = (o ++ flat_map (fun i => [Number (f i); Newline]) (seq 0 n) ++ [Newline], Ok tt).
  Proof.
    intros H. unfold v_print, range. rewrite (vi_rows _ _ _ H), Nat.sub_0_r. unfold sbind at 1.
    rewrite (print_loop _ (fun i => [Number (f i); Newline]) n 0).
    - unfold put, modify. rewrite <- app_assoc. reflexivity.
    - intros i o' Hi. unfold sbind, lift, put, modify. rewrite (vi_get _ _ _ H) by lia. rewrite <- app_assoc. reflexivity.
  Qed.
  Lemma m_print_is m r c f o : mat_is m r c f ->
    m_print m o = (o ++ flat_map (fun i => flat_map (fun j => [Number (f i j); Tab]) (seq 0 c) ++ [Newline]) (seq 0 r) ++ [Newline], Ok tt).
  Proof.
    intros H. unfold m_print, range. rewrite (mi_rows _ _ _ _ H), (mi_cols _ _ _ _ H), !Nat.sub_0_r. unfold sbind at 1.
    rewrite (print_loop _ (fun i => flat_map (fun j => [Number (f i j); Tab]) (seq 0 c) ++ [Newline]) r 0).
    - unfold put, modify. rewrite <- app_assoc. reflexivity.
    - intros i o' Hi. unfold sbind at 1. rewrite (print_loop _ (fun j => [Number (f i j); Tab]) c 0).
      + unfold put, modify. rewrite <- app_assoc. reflexivity.
      + intros j o'' Hj. unfold sbind, lift, put, modify. rewrite (mi_get _ _ _ _ H) by lia. rewrite <- app_assoc. reflexivity.
  Qed.
End Print.

(*@ C64_vector *)
(** C64: printing any initialised vector a program can get hold of succeeds and writes its elements, as [get_element]
    returns them, in order and one per line, then an empty line *)
Lemma l_v_print :
  forall (A : Arith) (OK : ArithOk A) (ck : bool) (v : Vec T) (n : nat) (o : list token), reach ck (OV v) -> v_get_rows v = Ok n ->
  exists f, (forall i, i < n -> v_get v i = Ok (f i)) /\
    v_print v o = (o ++ flat_map (fun i => [Number (f i); Newline]) (seq 0 n) ++ [Newline], Ok tt).
Proof.
  intros A OK ck v n o H N. destruct (l_vector A OK ck v H) as (W & _). unfold v_get_rows in N.
  destruct (v_initialized v) eqn:I; cbn in N; [injection N as N|discriminate].
  assert (V : vec_is v n (vec_of v)) by (constructor; [exact W|exact I|exact N|intros i Hi; apply v_get_in; auto; lia]).
  exists (vec_of v). split; [apply V|apply v_print_is, V].
Qed.

(*@ C64_matrix *)
(** C64: the same for matrices: row by row, a tabulator after each element, a newline after each row and one more
    at the end *)
Lemma l_m_print :
  forall (A : Arith) (OK : ArithOk A) (ck : bool) (m : Mat T) (r c : nat) (o : list token), reach ck (OM m) -> m_get_rows m = Ok r -> m_get_cols m = Ok c ->
  exists f, (forall i j, i < r -> j < c -> m_get m i j = Ok (f i j)) /\
    m_print m o = (o ++ flat_map (fun i => flat_map (fun j => [Number (f i j); Tab]) (seq 0 c) ++ [Newline]) (seq 0 r) ++ [Newline], Ok tt).
Proof.
  intros A OK ck m r c o H N1 N2. destruct (l_matrix A OK ck m H) as (W & _). unfold m_get_rows in N1. unfold m_get_cols in N2.
  destruct (m_initialized m) eqn:I; cbn in N1, N2; [injection N1 as N1; injection N2 as N2|discriminate].
  assert (V : mat_is m r c (mat_of m)) by (constructor; [exact W|exact I|exact N1|exact N2|intros i j Hi Hj; apply m_get_in; auto; lia]).
  eexists. split; [apply V|apply m_print_is, V].
Qed.

(*@ C64_attitude *)
(** C64: [print_attitude] of the angular-rate filter, after any history: before a successful [init] it writes nothing and
    reports that the filter is not initialised; afterwards it writes the four components that [get_attitude] returns *)
Lemma l_ar_print :
  forall (A : Arith) (OK : ArithOk A) (ck : bool) (s : AR) (p : phase) (o : list token), ar_hist ck s p ->
  match p with
  | Live => exists v w x y z, ar_get_attitude s = Ok v /\ vec_is v 4 (quad w x y z) /\
      ar_print_attitude s o = (o ++ [Number w; Newline; Number x; Newline; Number y; Newline; Number z; Newline; Newline], Ok tt)
  | _ => ar_print_attitude s o = (o, Err ARFilterNotInit)
  end.
Proof.
  intros A OK ck s p o H. pose proof (hist_inv ck s p H) as (_ & I). unfold ar_print_attitude. destruct p.
  - destruct I as (_ & _ & ->). reflexivity.
  - destruct I as (_ & ->). reflexivity.
  - destruct I as (_ & E & f & Hf). rewrite E. cbn [negb]. unfold ar_get_attitude. rewrite E. cbn [negb].
    destruct (v_duplicate_ok _ _ _ Hf) as (v & -> & Hv). exists v, (f 0), (f 1), (f 2), (f 3). split; [reflexivity|]. split.
    + eapply vec_is_ext; [exact Hv|]. intros i Hi. destruct i as [|[|[|[|i]]]]; try reflexivity; lia.
    + unfold smap_err. rewrite (v_print_is _ 4 f) by exact Hf. reflexivity.
Qed.

(*@ C64_uninitialised_refuted *)
(** C64, violation: unlike every other method, [print] of a container that was never initialised does not report [NotInit]: it
    succeeds and writes an empty line *)
Lemma l_print_new :
  forall (lm : Libm) (ck : bool) (o : list token), exists (v : Vec (T (Arith := F32 lm))) (m : Mat (T (Arith := F32 lm))),
  reach (A := F32 lm) ck (OV v) /\ reach (A := F32 lm) ck (OM m) /\ v_get_rows v = Err NotInit /\ m_get_rows m = Err NotInit /\
  v_print (A := F32 lm) v o = (o ++ [Newline], Ok tt) /\ m_print (A := F32 lm) m o = (o ++ [Newline], Ok tt).
Proof.
  intros lm ck o. exists vnew, mnew. repeat split; try constructor.
Qed.

Lemma print_ex_h : forall lm ck, exists (m : Mat (T (Arith := F32 lm))), reach (A := F32 lm) ck (OM m) /\ m_get_rows m = Ok 2 /\ m_get_cols m = Ok 3.
Proof.
  intros lm ck. exists (fst (m_init (A := F32 lm) 2 3 mnew)). split; [|split; reflexivity].
  eapply (reach_call (A := F32 lm) ck _ _ _ _ _ _ (call_m_init (A := F32 lm) ck 2 3 mnew)).
  - intros x [<-|[]]. constructor.
  - left. reflexivity.
Qed.
(*@ example *)
Example C64_example : forall lm ck, exists (m : Mat (T (Arith := F32 lm))), reach (A := F32 lm) ck (OM m) /\ m_get_rows m = Ok 2 /\ m_get_cols m = Ok 3.
Proof. exact print_ex_h. Qed.
