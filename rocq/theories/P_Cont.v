(** Basic facts about the containers: element access against [mat_is] / [vec_is]. *)
From Coq Require Import List Arith Lia Bool.
From Verif Require Import M_Base M_Arith M_Utils M_Vector M_Matrix S_Spec P_Hoare.
Import ListNotations.

Section Lists.
  Context {X : Type}.
  Lemma upd_length (l : list X) i x : length (upd l i x) = length l.
  Proof. revert i. induction l as [|h t IH]; intros [|i]; cbn; auto. Qed.
  Lemma nth_error_upd_eq (l : list X) i x : i < length l -> nth_error (upd l i x) i = Some x.
  Proof. revert i. induction l as [|h t IH]; intros [|i]; cbn; intros H; try lia; auto. apply IH. lia. Qed.
  Lemma nth_error_upd_neq (l : list X) i k x : i <> k -> nth_error (upd l i x) k = nth_error l k.
  Proof.
    revert i k. induction l as [|h t IH]; intros [|i] [|k] H; cbn; auto; try congruence.
  Qed.
  Lemma Forall_upd (P : X -> Prop) (l : list X) i x : Forall P l -> P x -> Forall P (upd l i x).
  Proof.
    intros H Hx. revert i. induction H as [|h t Hh Ht IH]; intros [|i]; cbn; auto.
  Qed.
  Lemma Forall_repeat_ (P : X -> Prop) x n : P x -> Forall P (repeat x n).
  Proof. intros H. induction n; cbn; auto. Qed.
End Lists.

Lemma idx_lt i j r c : i < r -> j < c -> r <= 4 -> c <= 4 -> i * c + j < 16.
Proof. intros. nia. Qed.
Lemma idx_lt' i j r c : i < r -> j < c -> i * c + j < r * c.
Proof. intros. nia. Qed.
Lemma idx_inj i j i' j' c : j < c -> j' < c -> i * c + j = i' * c + j' -> i = i' /\ j = j'.
Proof. intros. assert (i = i') by nia. subst. lia. Qed.

Section Cont.
  Context {A : Arith}.

  Lemma bad_None x : bad x = None <-> valid x.
  Proof. unfold bad, valid. destruct (fnan x), (finf x); intuition congruence. Qed.
  Lemma bad_Some_not x k : bad x = Some k -> ~ valid x.
  Proof. rewrite <- bad_None. congruence. Qed.
  Lemma valid_dec x : {valid x} + {exists k, bad x = Some k}.
  Proof. unfold bad, valid. destruct (fnan x), (finf x); eauto. Qed.
  Lemma is_valid_value_bad x :
    is_valid_value x = match bad x with None => Ok tt | Some k => Err k end.
  Proof. unfold is_valid_value, bad. destruct (fnan x), (finf x); reflexivity. Qed.
  Lemma is_valid_value_ok x : valid x -> is_valid_value x = Ok tt.
  Proof. intros H. rewrite is_valid_value_bad. apply bad_None in H. rewrite H. reflexivity. Qed.

  (** ** vectors *)
  Definition vec_of (v : Vec T) : nat -> T := fun i => nth i (v_elems v) f0.

  Lemma v_get_in v i : wfv v -> v_initialized v = true -> i < v_rows v -> v_get v i = Ok (vec_of v i).
  Proof.
    intros W I H. unfold v_get, is_valid_row. rewrite I. cbn.
    destruct (Nat.leb_spec (v_rows v) i); [lia|]. cbn. unfold arr_get.
    rewrite (nth_error_nth' _ f0) by (rewrite (wfv_len _ W); pose proof (wfv_rows _ W); lia). reflexivity.
  Qed.
  Lemma vec_is_of v : wfv v -> v_initialized v = true -> vec_is v (v_rows v) (vec_of v).
  Proof. intros W I. split; auto. intros. apply v_get_in; auto. Qed.
  Lemma vec_is_eq v n f i : vec_is v n f -> i < n -> f i = vec_of v i.
  Proof.
    intros [W I <- G] H. specialize (G i H). rewrite v_get_in in G by auto. congruence.
  Qed.
  Lemma vec_is_valid v n f i : vec_is v n f -> i < n -> valid (f i).
  Proof.
    intros Hv H. rewrite (vec_is_eq v n f i) by auto.
    destruct Hv as [W I R G]. unfold vec_of.
    pose proof (wfv_fin _ W) as F. rewrite Forall_forall in F. apply F. apply nth_In.
    rewrite (wfv_len _ W). pose proof (wfv_rows _ W). lia.
  Qed.
  Lemma vec_is_dim v n f : vec_is v n f -> 1 <= n <= 4.
  Proof. intros [W I <- G]. split; [apply (wfv_pos _ W I)|apply (wfv_rows _ W)]. Qed.
  Lemma vec_is_ext v n f g : vec_is v n f -> (forall i, i < n -> f i = g i) -> vec_is v n g.
  Proof. intros [W I R G] E. split; auto. intros i H. rewrite G, E by auto. reflexivity. Qed.
  Lemma vec_is_fun v n n' f g : vec_is v n f -> vec_is v n' g -> n = n' /\ forall i, i < n -> f i = g i.
  Proof.
    intros H H'. assert (n = n') by (destruct H, H'; congruence). subst. split; auto.
    intros i Hi. rewrite (vec_is_eq _ _ _ _ H Hi), (vec_is_eq _ _ _ _ H' Hi). reflexivity.
  Qed.

  Lemma v_set_in v n f i x : vec_is v n f -> i < n -> valid x ->
    exists v', v_set i x v = (v', Ok tt) /\ vec_is v' n (fupd1 f i x).
  Proof.
    intros Hv H Hx. pose proof Hv as [W I R G].
    unfold v_set. rewrite I. cbn [negb]. unfold sbind, lift. rewrite is_valid_value_ok by auto. cbn [map_err].
    unfold is_valid_row. rewrite R. destruct (Nat.leb_spec n i); [lia|].
    unfold v_store, arr_set.
    assert (L : i < length (v_elems v)) by (rewrite (wfv_len _ W); pose proof (wfv_rows _ W); lia).
    destruct (Nat.ltb_spec i (length (v_elems v))); [|lia].
    eexists; split; [reflexivity|].
    assert (W' : wfv (mkVec (v_rows v) (upd (v_elems v) i x) (v_initialized v))).
    { destruct W. split; cbn; auto. - rewrite upd_length; auto. - apply Forall_upd; auto. }
    split; cbn; auto. intros k Hk. unfold v_get, is_valid_row. cbn. rewrite I, R. cbn.
    destruct (Nat.leb_spec n k); [lia|]. cbn. unfold arr_get, fupd1.
    destruct (Nat.eqb_spec k i) as [->|Hne].
    - rewrite nth_error_upd_eq by auto. reflexivity.
    - rewrite nth_error_upd_neq by auto. specialize (G k Hk). unfold v_get, is_valid_row in G.
      rewrite I, R in G. cbn in G. destruct (Nat.leb_spec n k); [lia|]. exact G.
  Qed.
  Lemma v_set_bad v n f i x k : vec_is v n f -> bad x = Some k -> v_set i x v = (v, Err (UtilsErr k)).
  Proof.
    intros [W I R G] H. unfold v_set. rewrite I. cbn. unfold sbind, lift.
    rewrite is_valid_value_bad, H. reflexivity.
  Qed.
  Lemma wp_v_set v n f i x (Q : unit -> Vec T -> Prop) (X : LinalgError -> Vec T -> Prop) (P : Prop) : vec_is v n f -> i < n ->
    (valid x -> forall v', vec_is v' n (fupd1 f i x) -> Q tt v') ->
    (forall k, bad x = Some k -> X (UtilsErr k) v) -> wp (v_set i x) v Q X P.
  Proof.
    intros Hv Hi HQ HX. destruct (valid_dec x) as [Hx|[k Hk]].
    - destruct (v_set_in v n f i x) as (v' & E & H'); auto. unfold wp. rewrite E. auto.
    - unfold wp. erewrite v_set_bad by eauto. auto.
  Qed.
  Lemma rwp_v_get v n f i (Q : T -> Prop) (X : LinalgError -> Prop) (P : Prop) :
    vec_is v n f -> i < n -> (valid (f i) -> Q (f i)) -> rwp (v_get v i) Q X P.
  Proof. intros Hv Hi HQ. rewrite (vi_get _ _ _ Hv) by auto. cbn. apply HQ. eapply vec_is_valid; eauto. Qed.

  (** ** matrices *)
  Definition mat_of (m : Mat T) : nat -> nat -> T := fun i j => nth (i * m_cols m + j) (m_elems m) f0.

  Lemma m_get_in m i j : wfm m -> m_initialized m = true -> i < m_rows m -> j < m_cols m ->
    m_get m i j = Ok (mat_of m i j).
  Proof.
    intros W I Hi Hj. unfold m_get, is_valid_row, is_valid_col. rewrite I. cbn.
    destruct (Nat.leb_spec (m_rows m) i); [lia|]. cbn.
    destruct (Nat.leb_spec (m_cols m) j); [lia|]. cbn. unfold arr_get.
    pose proof (wfm_rows _ W). pose proof (wfm_cols _ W).
    rewrite (nth_error_nth' _ f0); [reflexivity|].
    rewrite (wfm_len _ W). eapply idx_lt; eauto.
  Qed.
  Lemma mat_is_of m : wfm m -> m_initialized m = true -> mat_is m (m_rows m) (m_cols m) (mat_of m).
  Proof. intros W I. split; auto. intros. apply m_get_in; auto. Qed.
  Lemma mat_is_eq m r c f i j : mat_is m r c f -> i < r -> j < c -> f i j = mat_of m i j.
  Proof.
    intros [W I <- <- G] Hi Hj. specialize (G i j Hi Hj). rewrite m_get_in in G by auto. congruence.
  Qed.
  Lemma mat_is_valid m r c f i j : mat_is m r c f -> i < r -> j < c -> valid (f i j).
  Proof.
    intros Hm Hi Hj. rewrite (mat_is_eq m r c f i j) by auto.
    destruct Hm as [W I R C G]. unfold mat_of.
    pose proof (wfm_fin _ W) as F. rewrite Forall_forall in F. apply F. apply nth_In.
    rewrite (wfm_len _ W). pose proof (wfm_rows _ W). pose proof (wfm_cols _ W). subst.
    eapply idx_lt; eauto.
  Qed.
  Lemma mat_is_dim m r c f : mat_is m r c f -> 1 <= r <= 4 /\ 1 <= c <= 4.
  Proof.
    intros [W I <- <- G]. pose proof (wfm_rows _ W). pose proof (wfm_cols _ W).
    pose proof (wfm_pos _ W I). lia.
  Qed.
  Lemma mat_is_ext m r c f g : mat_is m r c f -> (forall i j, i < r -> j < c -> f i j = g i j) ->
    mat_is m r c g.
  Proof. intros [W I R C G] E. split; auto. intros i j Hi Hj. rewrite G, E by auto. reflexivity. Qed.
  Lemma mat_is_fun m r c r' c' f g : mat_is m r c f -> mat_is m r' c' g ->
    r = r' /\ c = c' /\ forall i j, i < r -> j < c -> f i j = g i j.
  Proof.
    intros H H'. assert (r = r' /\ c = c') as [<- <-] by (destruct H, H'; split; congruence).
    do 2 (split; auto). intros i j Hi Hj.
    rewrite (mat_is_eq _ _ _ _ _ _ H Hi Hj), (mat_is_eq _ _ _ _ _ _ H' Hi Hj). reflexivity.
  Qed.

  Lemma wfm_upd m k x : wfm m -> valid x ->
    wfm (mkMat (m_rows m) (m_cols m) (upd (m_elems m) k x) (m_initialized m)).
  Proof.
    intros [L R C Po F] Hx. split; cbn; auto.
    - rewrite upd_length; auto.
    - apply Forall_upd; auto.
  Qed.
  Lemma m_set_in m r c f i j x : mat_is m r c f -> i < r -> j < c -> valid x ->
    exists m', m_set i j x m = (m', Ok tt) /\ mat_is m' r c (fupd2 f i j x).
  Proof.
    intros Hm Hi Hj Hx. pose proof Hm as [W I R C G].
    unfold m_set. rewrite I. cbn [negb]. unfold sbind, lift. rewrite is_valid_value_ok by auto. cbn [map_err].
    unfold is_valid_row, is_valid_col. rewrite R, C.
    destruct (Nat.leb_spec r i); [lia|]. destruct (Nat.leb_spec c j); [lia|].
    unfold m_store, arr_set.
    pose proof (wfm_rows _ W). pose proof (wfm_cols _ W).
    assert (L : i * c + j < length (m_elems m)).
    { rewrite (wfm_len _ W). apply idx_lt with r; auto; lia. }
    destruct (Nat.ltb_spec (i * c + j) (length (m_elems m))); [|lia].
    eexists; split; [reflexivity|].
    split; cbn; auto.
    { apply wfm_upd; auto. }
    intros a b Ha Hb. unfold m_get, is_valid_row, is_valid_col. cbn. rewrite I, R, C. cbn.
    destruct (Nat.leb_spec r a); [lia|]. cbn. destruct (Nat.leb_spec c b); [lia|]. cbn.
    unfold arr_get, fupd2.
    destruct (Nat.eqb_spec a i) as [->|Hne]; [destruct (Nat.eqb_spec b j) as [->|Hne]|]; cbn.
    - rewrite nth_error_upd_eq by auto. reflexivity.
    - rewrite nth_error_upd_neq by lia. specialize (G i b Ha Hb). unfold m_get, is_valid_row, is_valid_col in G.
      rewrite I, R, C in G. cbn in G. destruct (Nat.leb_spec r i); [lia|]. cbn in G.
      destruct (Nat.leb_spec c b); [lia|]. exact G.
    - rewrite nth_error_upd_neq.
      2:{ intros Heq. apply idx_inj in Heq; auto. lia. }
      specialize (G a b Ha Hb). unfold m_get, is_valid_row, is_valid_col in G.
      rewrite I, R, C in G. cbn in G. destruct (Nat.leb_spec r a); [lia|]. cbn in G.
      destruct (Nat.leb_spec c b); [lia|]. exact G.
  Qed.
  Lemma m_set_bad m r c f i j x k : mat_is m r c f -> bad x = Some k ->
    m_set i j x m = (m, Err (UtilsErr k)).
  Proof.
    intros [W I R C G] H. unfold m_set. rewrite I. cbn. unfold sbind, lift.
    rewrite is_valid_value_bad, H. reflexivity.
  Qed.
  Lemma wp_m_set m r c f i j x (Q : unit -> Mat T -> Prop) (X : LinalgError -> Mat T -> Prop) (P : Prop) : mat_is m r c f -> i < r -> j < c ->
    (valid x -> forall m', mat_is m' r c (fupd2 f i j x) -> Q tt m') ->
    (forall k, bad x = Some k -> X (UtilsErr k) m) -> wp (m_set i j x) m Q X P.
  Proof.
    intros Hm Hi Hj HQ HX. destruct (valid_dec x) as [Hx|[k Hk]].
    - destruct (m_set_in m r c f i j x) as (m' & E & H'); auto. unfold wp. rewrite E. auto.
    - unfold wp. erewrite m_set_bad by eauto. auto.
  Qed.
  Lemma rwp_m_get m r c f i j (Q : T -> Prop) (X : LinalgError -> Prop) (P : Prop) :
    mat_is m r c f -> i < r -> j < c -> (valid (f i j) -> Q (f i j)) -> rwp (m_get m i j) Q X P.
  Proof.
    intros Hm Hi Hj HQ. rewrite (mi_get _ _ _ _ Hm) by auto. cbn. apply HQ. eapply mat_is_valid; eauto.
  Qed.

  (** ** fresh objects *)
  Context {OK : ArithOk A}.

  Lemma wfv_new : wfv vnew.
  Proof. split; cbn; auto; try lia; try discriminate. repeat constructor; apply ok_f0. Qed.
  Lemma wfm_new : wfm mnew.
  Proof. split; cbn; auto; try lia; try discriminate. repeat constructor; apply ok_f0. Qed.

  Lemma rows_ok n : 1 <= n <= 4 -> is_valid_rows_number n = Ok tt.
  Proof.
    intros H. unfold is_valid_rows_number, M_MAX. destruct (Nat.ltb_spec 4 n); [lia|].
    destruct (Nat.eqb_spec n 0); [lia|reflexivity].
  Qed.
  Lemma cols_ok n : 1 <= n <= 4 -> is_valid_cols_number n = Ok tt.
  Proof.
    intros H. unfold is_valid_cols_number, N_MAX. destruct (Nat.ltb_spec 4 n); [lia|].
    destruct (Nat.eqb_spec n 0); [lia|reflexivity].
  Qed.
  Lemma v_init_new n : 1 <= n <= 4 ->
    exists v, v_init n vnew = (v, Ok tt) /\ vec_is v n (fun _ => f0).
  Proof.
    intros H. unfold v_init. cbn [vnew v_new v_initialized]. unfold sbind, lift, modify.
    rewrite rows_ok by auto. eexists; split; [reflexivity|].
    assert (W : wfv (mkVec n (repeat f0 4) true)).
    { split; cbn; auto; try lia. repeat constructor; apply ok_f0. }
    split; auto. intros i Hi. change (v_elems vnew) with (repeat f0 4).
    rewrite v_get_in by auto. unfold vec_of. cbn [v_elems].
    f_equal. apply nth_repeat.
  Qed.
  Lemma m_init_new r c : 1 <= r <= 4 -> 1 <= c <= 4 ->
    exists m, m_init r c mnew = (m, Ok tt) /\ mat_is m r c (fun _ _ => f0).
  Proof.
    intros Hr Hc. unfold m_init. cbn [mnew m_initialized]. unfold sbind, lift, modify.
    rewrite rows_ok, cols_ok by auto. eexists; split; [reflexivity|].
    assert (W : wfm (mkMat r c (repeat f0 16) true)).
    { split; cbn; auto; try lia. repeat constructor; apply ok_f0. }
    split; auto. intros i j Hi Hj. change (m_elems mnew) with (repeat f0 16).
    rewrite m_get_in by auto. unfold mat_of. cbn [m_elems].
    f_equal. apply nth_repeat.
  Qed.
  Lemma wp_m_init r c (Q : unit -> Mat T -> Prop) (X : LinalgError -> Mat T -> Prop) (P : Prop) : 1 <= r <= 4 -> 1 <= c <= 4 ->
    (forall m, mat_is m r c (fun _ _ => f0) -> Q tt m) -> wp (m_init r c) mnew Q X P.
  Proof. intros Hr Hc H. destruct (m_init_new r c) as (m & E & Hm); auto. unfold wp. rewrite E. auto. Qed.
  Lemma wp_v_init n (Q : unit -> Vec T -> Prop) (X : LinalgError -> Vec T -> Prop) (P : Prop) : 1 <= n <= 4 ->
    (forall v, vec_is v n (fun _ => f0) -> Q tt v) -> wp (v_init n) vnew Q X P.
  Proof. intros Hn H. destruct (v_init_new n) as (v & E & Hv); auto. unfold wp. rewrite E. auto. Qed.
End Cont.
