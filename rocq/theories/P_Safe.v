(** C01, groundwork: every operation keeps containers well formed and does not panic. *)
From Coq Require Import List Arith ZArith NArith Bool Lia.
From Verif Require Import M_Base M_Arith M_Utils M_Vector M_Matrix M_Quaternion S_Spec P_Hoare P_Cont.
Import ListNotations.

(** a Vector<u8> with the right shape *)
Record wfu (v : Vec nat) : Prop := {
  wfu_len : length (v_elems v) = 4;
  wfu_rows : v_rows v <= 4;
  wfu_pos : v_initialized v = true -> 1 <= v_rows v
}.

Class Good (X : Type) := good : X -> Prop.
#[export] Instance good_m {A : Arith} : Good (Mat T) := wfm.
#[export] Instance good_v {A : Arith} : Good (Vec T) := wfv.
#[export] Instance good_u : Good (Vec nat) := wfu.
#[export] Instance good_pair {X Y} (gx : Good X) (gy : Good Y) : Good (X * Y) := fun p => good (fst p) /\ good (snd p).
#[export] Instance good_any X : Good X | 100 := fun _ => True.

Section Safe.
  Context {A : Arith} {OK : ArithOk A}.
  Notation V := (Vec T).
  Notation M := (Mat T).
  Notation E := LinalgError.
  (** [P] is what a panic may be blamed on *)
  Variable P : Prop.
  Definition R {X} {g : Good X} (r : res E X) : Prop := rwp r good (fun _ => True) P.
  Definition Wo {S X} {gs : Good S} {gx : Good X} (o : S * res E X) : Prop :=
    good (fst o) /\ R (snd o).
  Local Notation W c s := (Wo (c s)).

  Section Rules.
    Context {S X Y : Type} {gs : Good S} {gx : Good X} {gy : Good Y}.
    Lemma W_bind (c : ST S E X) (k : X -> ST S E Y) s :
      W c s -> (forall a s', good a -> good s' -> W (k a) s') -> W (sbind c k) s.
    Proof. unfold sbind. intros H K. destruct (c s) as [s' [a|e|]]; auto. destruct H; auto. Qed.
    Lemma W_ret (a : X) s : good a -> good s -> W (sret a) s.
    Proof. intros. split; auto. Qed.
    Lemma W_throw e s : good s -> W (sthrow (A := X) e) s.
    Proof. intros H. split; [exact H|exact I]. Qed.
    Lemma W_lift (r : res E X) s : R r -> good s -> W (lift r) s.
    Proof. split; auto. Qed.
    Lemma W_reads (f : S -> res E X) s : R (f s) -> good s -> W (reads f) s.
    Proof. split; auto. Qed.
    Lemma W_pair (r : res E X) (s : S) : good s -> R r -> Wo (s, r).
    Proof. split; auto. Qed.
    Lemma W_if (b : bool) (o1 o2 : S * res E X) : (b = true -> Wo o1) -> (b = false -> Wo o2) -> Wo (if b then o1 else o2).
    Proof. destruct b; auto. Qed.
    Lemma W_ifc (b : bool) (c1 c2 : ST S E X) s : (b = true -> W c1 s) -> (b = false -> W c2 s) -> W (if b then c1 else c2) s.
    Proof. destruct b; auto. Qed.
    Lemma W_zoom {S'} {gs' : Good S'} (get : S -> S') put (c : ST S' E X) s :
      W c (get s) -> (forall s', good s' -> good (put s' s)) -> W (zoom get put c) s.
    Proof. unfold zoom. intros H K. destruct (c (get s)) as [s' r]; destruct H as [H1 H2]; split; [apply K; exact H1|exact H2]. Qed.
    Lemma R_ok (a : X) : good a -> R (Ok a).
    Proof. auto. Qed.
    Lemma R_err e : R (X := X) (Err e).
    Proof. exact I. Qed.
    Lemma R_if (b : bool) (r1 r2 : res E X) : (b = true -> R r1) -> (b = false -> R r2) -> R (if b then r1 else r2).
    Proof. destruct b; auto. Qed.
    Lemma R_bind (r : res E X) (k : X -> res E Y) : R r -> (forall a, good a -> R (k a)) -> R (rbind r k).
    Proof. unfold R, rwp, rbind. intros H K. destruct r; auto. apply K. exact H. Qed.
    Lemma R_map_err f (r : res E X) : R r -> R (map_err f r).
    Proof. unfold R, rwp, map_err. destruct r; auto. Qed.
    Lemma R_fold l (f : nat -> X -> res E X) acc : good acc -> (forall i a, In i l -> good a -> R (f i a)) -> R (rfold l f acc).
    Proof.
      revert acc. induction l as [|i l IH]; intros acc H K; cbn [rfold]; [exact H|]. pose proof (K i acc (or_introl eq_refl) H) as R1.
      unfold rbind. destruct (f i acc); auto. apply IH; [exact R1|]. intros; apply K; [right|]; auto.
    Qed.
    Lemma R_bind_k (r : res E X) (k : X -> res E Y) :
      R r -> (forall a, r = Ok a -> good a -> R (k a)) -> R (rbind r k).
    Proof. unfold R, rwp, rbind. intros H K. destruct r; auto. apply K; auto. Qed.
    (** a successful [lift] tells that its argument is [Ok] *)
    Lemma W_lift_k (r : res E X) (k : X -> ST S E Y) s :
      R r -> good s -> (forall a, r = Ok a -> good a -> W (k a) s) -> W (sbind (lift r) k) s.
    Proof. unfold sbind, lift, R, rwp. intros H1 H2 K. destruct r as [a|e|]; [apply K; auto|split; [auto|exact I]|split; auto]. Qed.
  End Rules.
  Section Rules2.
    Context {S : Type} {gs : Good S}.
    Lemma W_modify (f : S -> S) s : good (f s) -> W (modify f) s.
    Proof. intros. split; [auto|exact I]. Qed.
    Lemma W_for l (body : nat -> ST S E unit) s : good s -> (forall i s', In i l -> good s' -> W (body i) s') -> W (for_ l body) s.
    Proof.
      revert s. induction l as [|i l IH]; intros s H K; cbn [for_]; [apply W_ret; [exact I|auto]|].
      apply W_bind; [apply K; [left|]; auto|]. intros _ s' _ H'. apply IH; auto. intros; apply K; [right|]; auto.
    Qed.
    Lemma W_for_break l (body : nat -> ST S E bool) s : good s -> (forall i s', In i l -> good s' -> W (body i) s') -> W (for_break l body) s.
    Proof.
      revert s. induction l as [|i l IH]; intros s H K; cbn [for_break]; [apply W_ret; [exact I|auto]|].
      apply W_bind; [apply K; [left|]; auto|]. intros [|] s' _ H'; [|apply W_ret; [exact I|auto]]. apply IH; auto. intros; apply K; [right|]; auto.
    Qed.
    Lemma R_exec (c : ST S E unit) s : W c s -> R (exec c s).
    Proof. unfold R, rwp, exec. destruct (c s) as [s' [a|e|]]; intros [H1 H2]; auto. Qed.
    Lemma R_rall l (t : nat -> res E bool) : (forall i, In i l -> R (t i)) -> R (rall l t).
    Proof.
      induction l as [|i l IH]; intros K; cbn [rall]; [exact I|]. apply R_bind; [apply K; left; auto|]. intros [|] _; [|exact I]. apply IH. intros; apply K; right; auto.
    Qed.
    Lemma W_local {L} {gl : Good L} (c : ST (S * L) E unit) s t : W c (s, t) -> Wo (let '((s', _), r) := c (s, t) in (s', r)).
    Proof. destruct (c (s, t)) as [[s' t'] r]. intros [[H1 H2] H3]. split; auto. Qed.
  End Rules2.

  (** ** primitives *)
  Lemma upd_Forall {X} (Q : X -> Prop) l i x : Forall Q l -> Q x -> Forall Q (upd l i x).
  Proof.
    revert i. induction l as [|h l IH]; intros [|i] F Hx; cbn; auto; inversion F; subst; constructor; auto.
  Qed.
  Lemma R_nrows n : R (is_valid_rows_number n).
  Proof. unfold is_valid_rows_number. destruct (M_MAX <? n); [exact I|]. destruct (n =? 0); exact I. Qed.
  Lemma R_ncols n : R (is_valid_cols_number n).
  Proof. unfold is_valid_cols_number. destruct (N_MAX <? n); [exact I|]. destruct (n =? 0); exact I. Qed.
  Lemma nrows_ok n : is_valid_rows_number n = Ok tt -> 1 <= n <= 4.
  Proof. unfold is_valid_rows_number, M_MAX. destruct (Nat.ltb_spec 4 n); [discriminate|]. destruct (Nat.eqb_spec n 0); [discriminate|]. lia. Qed.
  Lemma ncols_ok n : is_valid_cols_number n = Ok tt -> 1 <= n <= 4.
  Proof. unfold is_valid_cols_number, N_MAX. destruct (Nat.ltb_spec 4 n); [discriminate|]. destruct (Nat.eqb_spec n 0); [discriminate|]. lia. Qed.

  Lemma mnew_good : wfm mnew.
  Proof. split; cbn [m_elems m_rows m_cols m_initialized mnew]; [reflexivity|lia|lia|discriminate|]. apply Forall_forall. intros x Hx. apply repeat_spec in Hx. subst. apply ok_f0. Qed.
  Lemma vnew_good : wfv vnew.
  Proof. split; cbn [v_elems v_rows v_initialized vnew v_new]; [reflexivity|lia|discriminate|]. apply Forall_forall. intros x Hx. apply repeat_spec in Hx. subst. apply ok_f0. Qed.
  Lemma vu_new_good : wfu vu_new.
  Proof. split; cbn [v_elems v_rows v_initialized vu_new v_new]; [reflexivity|lia|discriminate]. Qed.

  Lemma m_init_S r c m : wfm m -> W (m_init r c) m.
  Proof.
    intros H. unfold m_init. destruct (m_initialized m); [split; [exact H|exact I]|].
    change (W (lift (is_valid_rows_number r) ;;! lift (is_valid_cols_number c) ;;! modify (fun m0 => mkMat r c (m_elems m0) true)) m).
    apply W_lift_k; [apply R_nrows|exact H|]. intros [] Er _. apply W_lift_k; [apply R_ncols|exact H|]. intros [] Ec _. apply W_modify.
    apply nrows_ok in Er. apply ncols_ok in Ec. destruct H. split; cbn; auto; lia.
  Qed.
  Lemma m_reinit_S r c m : wfm m -> W (m_reinit r c) m.
  Proof.
    intros H. unfold m_reinit. destruct (negb (m_initialized m)); [split; [exact H|exact I]|].
    change (W (modify (fun m => mkMat (m_rows m) (m_cols m) (m_elems m) false) ;;! m_init r c) m).
    apply W_bind; [apply W_modify; destruct H; split; cbn; auto; discriminate|]. intros _ s' _ Hs. apply m_init_S. exact Hs.
  Qed.
  Lemma v_init_S r v : wfv v -> W (v_init r) v.
  Proof.
    intros H. unfold v_init. destruct (v_initialized v); [split; [exact H|exact I]|].
    change (W (lift (is_valid_rows_number r) ;;! modify (fun v => mkVec r (v_elems v) true)) v).
    apply W_lift_k; [apply R_nrows|exact H|]. intros [] Er _. apply W_modify. apply nrows_ok in Er. destruct H. split; cbn; auto; lia.
  Qed.
  Lemma v_reinit_S r v : wfv v -> W (v_reinit r) v.
  Proof.
    intros H. unfold v_reinit. destruct (negb (v_initialized v)); [split; [exact H|exact I]|].
    change (W (modify (fun v => mkVec (v_rows v) (v_elems v) false) ;;! v_init r) v).
    apply W_bind; [apply W_modify; destruct H; split; cbn; auto; discriminate|]. intros _ s' _ Hs. apply v_init_S. exact Hs.
  Qed.
  Lemma vu_init_S r (v : Vec nat) : wfu v -> W (v_init r) v.
  Proof.
    intros H. unfold v_init. destruct (v_initialized v); [split; [exact H|exact I]|].
    change (W (lift (is_valid_rows_number r) ;;! modify (fun v => mkVec r (v_elems v) true)) v).
    apply W_lift_k; [apply R_nrows|exact H|]. intros [] Er _. apply W_modify. apply nrows_ok in Er. destruct H. split; cbn; auto; lia.
  Qed.
  Lemma vu_reinit_S r (v : Vec nat) : wfu v -> W (v_reinit r) v.
  Proof.
    intros H. unfold v_reinit. destruct (negb (v_initialized v)); [split; [exact H|exact I]|].
    change (W (modify (fun v => mkVec (v_rows v) (v_elems v) false) ;;! v_init r) v).
    apply W_bind; [apply W_modify; destruct H; split; cbn; auto; discriminate|]. intros _ s' _ Hs. apply vu_init_S. exact Hs.
  Qed.
  Lemma R_row i n : R (is_valid_row i n).
  Proof. unfold is_valid_row. destruct (n <=? i); exact I. Qed.
  Lemma R_col i n : R (is_valid_col i n).
  Proof. unfold is_valid_col. destruct (n <=? i); exact I. Qed.
  Lemma row_ok i n : is_valid_row i n = Ok tt -> i < n.
  Proof. unfold is_valid_row. destruct (Nat.leb_spec n i); [discriminate|auto]. Qed.
  Lemma col_ok i n : is_valid_col i n = Ok tt -> i < n.
  Proof. unfold is_valid_col. destruct (Nat.leb_spec n i); [discriminate|auto]. Qed.
  Lemma R_arr {X} {gx : Good X} (l : list X) i : i < length l -> Forall good l -> R (arr_get l i).
  Proof. intros H F. unfold R, rwp, arr_get. destruct (nth_error l i) eqn:N; [|apply nth_error_None in N; lia]. rewrite Forall_forall in F. apply F. eapply nth_error_In; eauto. Qed.
  Lemma any_Forall {X} (l : list X) : Forall (good (Good := good_any X)) l.
  Proof. apply Forall_forall. intros; exact I. Qed.
  Lemma m_get_S m i j : wfm m -> R (m_get m i j).
  Proof.
    intros [L Hr Hc Hp F]. unfold m_get. apply R_if; intros B; [exact I|]. apply negb_false_iff in B.
    apply R_bind_k; [apply R_row|]. intros [] Ei _. apply R_bind_k; [apply R_col|]. intros [] Ej _. apply R_arr; [|apply any_Forall].
    apply row_ok in Ei. apply col_ok in Ej. rewrite L. nia.
  Qed.
  Lemma v_get_S v i : wfv v -> R (v_get v i).
  Proof.
    intros [L Hr Hp F]. unfold v_get. apply R_if; intros B; [exact I|]. apply R_bind_k; [apply R_row|]. intros [] Ei _. apply R_arr; [|apply any_Forall].
    apply row_ok in Ei. lia.
  Qed.
  Lemma vu_get_S (v : Vec nat) i : wfu v -> R (v_get v i).
  Proof.
    intros [L Hr Hp]. unfold v_get. apply R_if; intros B; [exact I|]. apply R_bind_k; [apply R_row|]. intros [] Ei _. apply R_arr; [|apply any_Forall].
    apply row_ok in Ei. lia.
  Qed.
  Lemma R_valid x : R (map_err UtilsErr (is_valid_value x)).
  Proof. rewrite is_valid_value_bad. destruct (bad x); exact I. Qed.
  Lemma valid_ok x : map_err UtilsErr (is_valid_value x) = Ok tt -> valid x.
  Proof. rewrite is_valid_value_bad. unfold bad, valid. destruct (fnan x), (finf x); cbn; try discriminate; auto. Qed.
  Lemma m_set_S i j x m : wfm m -> W (m_set i j x) m.
  Proof.
    intros H. unfold m_set. destruct (m_initialized m) eqn:B; cbn [negb]; [|split; [exact H|exact I]].
    change (W (lift (map_err UtilsErr (is_valid_value x)) ;;! lift (is_valid_row i (m_rows m)) ;;! lift (is_valid_col j (m_cols m)) ;;! m_store (i * m_cols m + j) x) m).
    apply W_lift_k; [apply R_valid|exact H|]. intros [] Ev _. apply W_lift_k; [apply R_row|exact H|]. intros [] Ei _. apply W_lift_k; [apply R_col|exact H|]. intros [] Ej _.
    apply row_ok in Ei. apply col_ok in Ej. apply valid_ok in Ev. destruct H as [L Hr Hc Hp F]. unfold m_store, arr_set.
    rewrite (proj2 (Nat.ltb_lt (i * m_cols m + j) (length (m_elems m)))) by (rewrite L; nia). split; [|exact I].
    split; cbn; auto; [rewrite upd_length; auto|apply upd_Forall; auto].
  Qed.
  Lemma v_set_S i x v : wfv v -> W (v_set i x) v.
  Proof.
    intros H. unfold v_set. destruct (v_initialized v) eqn:B; cbn [negb]; [|split; [exact H|exact I]].
    change (W (lift (map_err UtilsErr (is_valid_value x)) ;;! lift (is_valid_row i (v_rows v)) ;;! v_store i x) v).
    apply W_lift_k; [apply R_valid|exact H|]. intros [] Ev _. apply W_lift_k; [apply R_row|exact H|]. intros [] Ei _.
    apply row_ok in Ei. apply valid_ok in Ev. destruct H as [L Hr Hp F]. unfold v_store, arr_set.
    rewrite (proj2 (Nat.ltb_lt i (length (v_elems v)))) by (rewrite L; lia). split; [|exact I].
    split; cbn; auto; [rewrite upd_length; auto|apply upd_Forall; auto].
  Qed.
  Lemma vu_set_S i x v : wfu v -> W (vu_set i x) v.
  Proof.
    intros H. unfold vu_set. destruct (v_initialized v) eqn:B; cbn [negb]; [|split; [exact H|exact I]].
    change (W (lift (is_valid_row i (v_rows v)) ;;! v_store i x) v).
    apply W_lift_k; [apply R_row|exact H|]. intros [] Ei _.
    apply row_ok in Ei. destruct H as [L Hr Hp]. unfold v_store, arr_set.
    rewrite (proj2 (Nat.ltb_lt i (length (v_elems v)))) by (rewrite L; lia). split; [|exact I].
    split; cbn; auto. rewrite upd_length; auto.
  Qed.
  Lemma m_rows_S (m : M) : R (m_get_rows m).
  Proof. unfold m_get_rows. destruct (m_initialized m); exact I. Qed.
  Lemma m_cols_S (m : M) : R (m_get_cols m).
  Proof. unfold m_get_cols. destruct (m_initialized m); exact I. Qed.
  Lemma v_rows_S {X} (v : Vec X) : R (v_get_rows v).
  Proof. unfold v_get_rows. destruct (v_initialized v); exact I. Qed.
  Lemma allclose_S x y d : R (allclose_l x y d).
  Proof.
    unfold allclose_l, allclose. rewrite !is_valid_value_bad. destruct (bad x); [exact I|]. cbn [rbind]. destruct (bad y); exact I.
  Qed.
End Safe.
