(** C17, C18: determinants. *)
(*@+*)
From Coq Require Import List Arith ZArith Reals Lia Bool Lra.
From Flocq Require Import Core BinarySingleNaN.
From Verif Require Import M_Base M_Arith M_Utils M_Vector M_Matrix M_F32 M_RX
  S_Spec S_Linalg S_Norm S_Lu P_Inst.
Import ListNotations.
Local Open Scope R_scope.
(*@-*)
From Verif Require Import P_Hoare P_Cont P_Loops P_Access P_Pointwise P_Trans P_Float P_Product P_Norm P_Lup P_Uninit.

Lemma fm1_RX : fm1 (A := RX) = Some (-1).
Proof. unfold fm1, lit. cbn. f_equal. lra. Qed.

(** ** permutation enumeration *)
Section Naive.
  Context {A : Arith}.
  (** the enumeration is closed computation *)
  Definition term (n : nat) (f : nat -> nat -> T) (p : list nat) : T :=
    fold_left (fun acc r => (acc * f r (nth r p 0%nat))%F) (range 0 n) f1.
  Definition psgn (n : nat) (p : list nat) : T :=
    match count_inversions p n with Ok k => if (k mod 2 =? 0)%nat then f1 else fm1 | _ => f1 end.
  Definition naive (n : nat) (f : nat -> nat -> T) (ps : list (list nat)) : T :=
    fold_left (fun d p => (d + psgn n p * term n f p)%F) ps f0.
  Definition good (n : nat) (p : list nat) : bool :=
    (length p =? 4)%nat && forallb (fun r => nth r p 0%nat <? n)%nat (range 0 n).

  Lemma arr_get_nth {E B} (l : list B) i d : (i < length l)%nat -> arr_get (E := E) l i = Ok (nth i l d).
  Proof. intros H. unfold arr_get. rewrite (nth_error_nth' l d H). reflexivity. Qed.

  Lemma product_ok m n f p : mat_is m n n f -> (n <= 4)%nat -> good n p = true ->
    rfold (range 0 n) (fun row product => let? c := arr_get p row in let? x := m_get m row c in Ok (product * x)%F) f1
    = Ok (term n f p).
  Proof.
    intros Hm Hn G. apply andb_true_iff in G. destruct G as [L G]. apply Nat.eqb_eq in L.
    rewrite forallb_forall in G. unfold term. generalize f1.
    assert (In_ : forall r, In r (range 0 n) -> (r < n)%nat /\ (nth r p 0%nat < n)%nat).
    { intros r Hr. split; [unfold range in Hr; apply in_seq in Hr; lia|]. apply Nat.ltb_lt, G, Hr. }
    clear G. revert In_. induction (range 0 n) as [|r l IH]; intros In_ acc; [reflexivity|].
    cbn [rfold fold_left]. destruct (In_ r (or_introl eq_refl)) as [H1 H2].
    rewrite (arr_get_nth p r 0%nat) by lia. cbn [rbind]. rewrite (mi_get _ _ _ _ Hm) by auto. cbn [rbind].
    apply IH. intros; apply In_; right; auto.
  Qed.

  Lemma count_inversions_ok n p : (n <= 4)%nat -> length p = 4%nat -> exists k, count_inversions p n = Ok k.
  Proof.
    intros Hn L. unfold count_inversions.
    assert (W : rwp (rfold (range 0 n) (fun i acc => rfold (range (i + 1) n) (fun j acc =>
        let? x := arr_get p i in let? y := arr_get p j in
        Ok (if (y <? x)%nat then acc + 1 else acc)%nat) acc) 0%nat) (fun _ => True) (fun _ : LinalgError => False) False).
    { apply rwp_fold with (I := fun _ _ => True); auto. intros i acc Hi _.
      apply rwp_fold with (I := fun _ _ => True); auto. intros j acc' Hj _.
      rewrite (arr_get_nth p i 0%nat), (arr_get_nth p j 0%nat) by lia. cbn. auto. }
    destruct (rfold _ _ _) as [k|e|]; cbn in W; [eauto|tauto|tauto].
  Qed.

  Definition perms (n : nat) : list (list nat) :=
    match generate_permutations n with Ok l => firstn (fact n) l | _ => [] end.
  Lemma perms_ok n : (1 <= n <= 4)%nat ->
    (exists l, generate_permutations n = Ok l) /\ forallb (good n) (perms n) = true /\
    (exists k, factorial true n = Ok k /\ N.to_nat k = fact n).
  Proof.
    intros H. assert (n = 1 \/ n = 2 \/ n = 3 \/ n = 4)%nat as [-> | [-> | [-> | ->]]] by lia.
    all: split; [eexists; vm_compute; reflexivity|split; [vm_compute; reflexivity|eexists; split; vm_compute; reflexivity]].
  Qed.

  Lemma det_naive_ok m n f : mat_is m n n f -> m_det_naive m = Ok (naive n f (perms n)).
  Proof.
    intros Hm. destruct (mat_is_dim _ _ _ _ Hm) as [Dn _].
    unfold m_det_naive. rewrite (m_guard_square_is _ _ _ _ Hm), Nat.eqb_refl. cbn [rbind].
    rewrite (mi_rows _ _ _ _ Hm). destruct (perms_ok n Dn) as ((l & El) & G & k & Ek & Kk).
    unfold naive, perms in *. rewrite El in *. cbn [rbind]. rewrite Ek. cbn [rbind]. rewrite Kk.
    rewrite forallb_forall in G. revert G. generalize (f0 (A := A)). generalize (firstn (fact n) l). clear l El.
    intros l. induction l as [|p l IH]; intros acc G; [reflexivity|]. cbn [fold_left].
    pose proof (G p (or_introl eq_refl)) as Gp.
    rewrite (product_ok m n f p Hm ltac:(lia) Gp). cbn [rbind].
    apply andb_true_iff in Gp. destruct Gp as [L _]. apply Nat.eqb_eq in L.
    destruct (count_inversions_ok n p ltac:(lia) L) as (c & Ec). assert (Ep : psgn n p = if (c mod 2 =? 0)%nat then f1 else fm1) by (unfold psgn; rewrite Ec; reflexivity).
    rewrite Ec, Ep. cbn [rbind]. rewrite IH; auto. intros; apply G; right; auto.
  Qed.
End Naive.

Definition naive_r (n : nat) (a : nat -> nat -> R) (ps : list (list nat)) : R :=
  fold_left (fun d p => d + (match count_inversions p n with Ok k => if (k mod 2 =? 0)%nat then 1 else -1 | _ => 1 end) *
    fold_left (fun acc r => acc * a r (nth r p 0%nat)) (range 0 n) 1) ps 0.
Lemma term_RX n a p : term (A := RX) n (fun i j => Some (a i j)) p = Some (fold_left (fun acc r => acc * a r (nth r p 0%nat)) (range 0 n) 1).
Proof.
  unfold term. rewrite f1_RX. generalize 1. induction (range 0 n) as [|r l IH]; intros x; [reflexivity|].
  cbn [fold_left]. rewrite <- IH. reflexivity.
Qed.
Lemma naive_RX_r n a ps : naive (A := RX) n (fun i j => Some (a i j)) ps = Some (naive_r n a ps).
Proof.
  unfold naive, naive_r. rewrite f0_RX. generalize 0. induction ps as [|p l IH]; intros x; [reflexivity|].
  cbn [fold_left]. rewrite <- IH, term_RX. unfold psgn. f_equal.
  destruct (count_inversions p n) as [k|e|]; [destruct (k mod 2 =? 0)%nat| |]; rewrite ?f1_RX, ?fm1_RX; reflexivity.
Qed.
Lemma naive_rdet n a : (1 <= n <= 4)%nat -> naive_r n a (perms n) = rdet n a.
Proof.
  intros H. assert (n = 1 \/ n = 2 \/ n = 3 \/ n = 4)%nat as [-> | [-> | [-> | ->]]] by lia.
  all: match goal with |- context [perms ?k] => let l := eval vm_compute in (perms k) in change (perms k) with l end.
  all: unfold naive_r, rdet, count_inversions, Nat.ltb; cbn; ring.
Qed.

(*@ C17_det_naive *)
(** C17: [det_naive] of an initialised square matrix is the determinant (expansion along the first row) *)
Lemma l_det_naive :
  forall (m : Mat (T (Arith := RX))) (n : nat) (a : nat -> nat -> R), mat_r m n n a ->
  m_det_naive m = Ok (Some (rdet n a)).
Proof.
  intros m n a Hm. destruct (mat_is_dim _ _ _ _ Hm) as [Dn _].
  rewrite (det_naive_ok m n _ Hm), naive_RX_r, naive_rdet by auto. reflexivity.
Qed.

(*@ C17_guards *)
(** C17: non-square is rejected, uninitialised is rejected, and every initialised square matrix is
    accepted without panic, whatever the arithmetic *)
Lemma l_det_naive_guards :
  forall (A : Arith) (m : Mat (T (Arith := A))), wfm m ->
  (m_initialized m = false -> m_det_naive m = Err NotInit) /\
  (m_initialized m = true -> m_rows m <> m_cols m -> m_det_naive m = Err NotSquare) /\
  (m_initialized m = true -> m_rows m = m_cols m -> exists d, m_det_naive m = Ok d).
Proof.
  intros A m Hw. conjs.
  - intros Hi. unfold m_det_naive. rewrite (m_gsquare_uninit m Hi). reflexivity.
  - intros Hi Hne. unfold m_det_naive, m_guard_square, m_is_square, m_get_rows, m_get_cols. rewrite Hi. cbn [negb rbind].
    destruct (Nat.eqb_spec (m_rows m) (m_cols m)); [lia|]. reflexivity.
  - intros Hi He. pose proof (mat_is_of m Hw Hi) as Hm. rewrite <- He in Hm. rewrite (det_naive_ok _ _ _ Hm). eauto.
Qed.

(*@ example *)
Example C17_example :
  let m := rmat 3 3 [2; 0; 1; 1; 3; 2; 0; 1; 4] in
  mat_r m 3 3 (fun i j => nth (i * 3 + j) [2; 0; 1; 1; 3; 2; 0; 1; 4] 0) /\
  rdet 3 (fun i j => nth (i * 3 + j) [2; 0; 1; 1; 3; 2; 0; 1; 4] 0) = 21.
Proof. cbv zeta. split; [apply rmat_is; cbn; lia|unfold rdet, Nat.ltb; cbn; ring]. Qed.

(** ** determinant through LU *)
Definition displaced (n : nat) (pi : nat -> nat) : nat := count n (fun i => negb (pi i =? i)%nat).
Definition flips (n : nat) (pi : nat -> nat) : bool :=
  negb (displaced n pi =? 0)%nat && ((displaced n pi - 1) mod 2 =? 1)%nat.

Lemma m_det_ok {A : Arith} m n a lu p f pi : mat_is (A := A) m n n a -> lup m = Ok (lu, p) ->
  mat_is lu n n f -> idx_is p n pi -> perm n pi ->
  let d := fold_left (fun d i => (d * f (pi i) i)%F) (range 0 n) f1 in
  m_det m = Ok (if flips n pi then fneg d else d).
Proof.
  intros Hm El Hl Hp Pp. cbv zeta. unfold m_det. rewrite (m_guard_square_is _ _ _ _ Hm), Nat.eqb_refl. cbn [rbind].
  rewrite El. cbn [rbind]. rewrite (mi_rows _ _ _ _ Hm).
  assert (E1 : forall d0, rfold (range 0 n) (fun row d => let? i := v_get p row in let? x := m_get lu i row in Ok (d * x)%F) d0
               = Ok (fold_left (fun d i => (d * f (pi i) i)%F) (range 0 n) d0)).
  { assert (H : forall r, In r (range 0 n) -> (r < n)%nat).
    { intros r Hr. unfold range in Hr. apply in_seq in Hr. lia. }
    revert H. induction (range 0 n) as [|r l IH]; intros H d0; [reflexivity|]. cbn [rfold fold_left].
    assert (r < n)%nat by (apply H; left; auto).
    rewrite (ix_get _ _ _ Hp) by auto. cbn [rbind]. rewrite (mi_get _ _ _ _ Hl) by (auto; apply Pp; auto). cbn [rbind].
    apply IH. intros; apply H; right; auto. }
  rewrite E1. cbn [rbind].
  assert (E2 : rfold (E := LinalgError) (range 0 n) (fun row col => let? i := v_get p row in
     Ok (if negb (i =? row)%nat then (col + 1)%nat else col)) 0%nat = Ok (displaced n pi)).
  { assert (W : rwp (rfold (E := LinalgError) (range 0 n) (fun row col => let? i := v_get p row in
     Ok (if negb (i =? row)%nat then (col + 1)%nat else col)) 0%nat) (fun c => c = displaced n pi) (fun _ => False) False).
    { apply rwp_fold with (I := fun i c => c = displaced i pi); [reflexivity| |auto].
      intros i c Hi ->. rewrite (ix_get _ _ _ Hp) by lia. cbn [rbind rwp]. unfold displaced. cbn [count].
        destruct (negb (pi i =? i)%nat); lia. }
    destruct (rfold _ _ _) as [k|e|]; cbn in W; [congruence|tauto|tauto]. }
  rewrite E2. cbn [rbind]. fold (flips n pi). destruct (flips n pi); reflexivity.
Qed.

(** a permuted determinant *)
Lemma det_perm n pi a : (1 <= n <= 4)%nat -> perm n pi ->
  rdet n (fun i j => a (pi i) j) = psign n pi * rdet n a /\
  (if flips n pi then -1 else 1) = psign n pi * (if (n =? 4)%nat && double_swap pi then -1 else 1).
Proof.
  intros H [L Inj]. assert (n = 1 \/ n = 2 \/ n = 3 \/ n = 4)%nat as [-> | [-> | [-> | ->]]] by lia.
  - pose proof (L 0%nat ltac:(lia)). assert (E0 : pi 0%nat = 0%nat) by lia.
    unfold rdet, psign, flips, displaced, inversions, count, double_swap, Nat.ltb; cbn. rewrite E0. cbn. split; ring.
  - pose proof (L 0%nat ltac:(lia)). pose proof (L 1%nat ltac:(lia)). pose proof (Inj 0 1 ltac:(lia) ltac:(lia))%nat.
    assert ((pi 0 = 0 /\ pi 1 = 1) \/ (pi 0 = 1 /\ pi 1 = 0))%nat as [[E0 E1]|[E0 E1]] by lia.
    all: unfold rdet, psign, flips, displaced, inversions, count, double_swap, Nat.ltb; cbn; rewrite E0, E1; cbn; split; ring.
  - pose proof (L 0%nat ltac:(lia)). pose proof (L 1%nat ltac:(lia)). pose proof (L 2%nat ltac:(lia)).
    pose proof (Inj 0 1 ltac:(lia) ltac:(lia))%nat. pose proof (Inj 0 2 ltac:(lia) ltac:(lia))%nat. pose proof (Inj 1 2 ltac:(lia) ltac:(lia))%nat.
    assert (pi 0 = 0 \/ pi 0 = 1 \/ pi 0 = 2)%nat as [E0|[E0|E0]] by lia;
    (assert (pi 1 = 0 \/ pi 1 = 1 \/ pi 1 = 2)%nat as [E1|[E1|E1]] by lia); try lia;
    (assert (pi 2 = 0 \/ pi 2 = 1 \/ pi 2 = 2)%nat as [E2|[E2|E2]] by lia); try lia.
    all: unfold rdet, psign, flips, displaced, inversions, count, double_swap, Nat.ltb; cbn; rewrite E0, E1, E2; cbn; split; ring.
  - pose proof (L 0%nat ltac:(lia)). pose proof (L 1%nat ltac:(lia)). pose proof (L 2%nat ltac:(lia)). pose proof (L 3%nat ltac:(lia)).
    pose proof (Inj 0 1 ltac:(lia) ltac:(lia))%nat. pose proof (Inj 0 2 ltac:(lia) ltac:(lia))%nat. pose proof (Inj 1 2 ltac:(lia) ltac:(lia))%nat.
    pose proof (Inj 0 3 ltac:(lia) ltac:(lia))%nat. pose proof (Inj 1 3 ltac:(lia) ltac:(lia))%nat. pose proof (Inj 2 3 ltac:(lia) ltac:(lia))%nat.
    clear L Inj H.
    assert (pi 0 = 0 \/ pi 0 = 1 \/ pi 0 = 2 \/ pi 0 = 3)%nat as [E0|[E0|[E0|E0]]] by lia;
    (assert (pi 1 = 0 \/ pi 1 = 1 \/ pi 1 = 2 \/ pi 1 = 3)%nat as [E1|[E1|[E1|E1]]] by lia); try (exfalso; lia);
    (assert (pi 2 = 0 \/ pi 2 = 1 \/ pi 2 = 2 \/ pi 2 = 3)%nat as [E2|[E2|[E2|E2]]] by lia); try (exfalso; lia);
    (assert (pi 3 = 0 \/ pi 3 = 1 \/ pi 3 = 2 \/ pi 3 = 3)%nat as [E3|[E3|[E3|E3]]] by lia); try (exfalso; lia).
    all: unfold rdet, psign, flips, displaced, inversions, count, double_swap, Nat.ltb; cbn; rewrite E0, E1, E2, E3; cbn;
      rewrite ?E0, ?E1, ?E2, ?E3; cbn; split; ring.
Qed.

Lemma rdet_ext n a b : req n n a b -> rdet n a = rdet n b.
Proof.
  revert a b. induction n as [|n IH]; intros a b E; [reflexivity|]. cbn [rdet]. apply Rsum_ext. intros j Hj.
  rewrite E by lia. f_equal. apply IH. intros i k Hi Hk. destruct (Nat.ltb_spec k j); apply E; lia.
Qed.

Lemma det_lu n f : (1 <= n <= 4)%nat -> rdet n (rmul n (ulow f) (upp f)) = Rprod n (fun i => f i i).
Proof.
  intros H. assert (n = 1 \/ n = 2 \/ n = 3 \/ n = 4)%nat as [-> | [-> | [-> | ->]]] by lia.
  all: unfold rdet, rmul, ulow, upp, Nat.ltb; cbn; ring.
Qed.

Lemma prod_RX n g d : fold_left (fun d i => fmul (Arith := RX) d (Some (g i))) (range 0 n) (Some d) = Some (d * Rprod n g).
Proof.
  unfold range. rewrite Nat.sub_0_r. revert d. induction n as [|n IH]; intros d; [cbn; f_equal; ring|].
  rewrite seq_S, fold_left_app, IH. cbn. f_equal. ring.
Qed.

Lemma det_rwp m n a : mat_r m n n a ->
  forall lu p f pi, lup m = Ok (lu, p) -> mat_r lu n n f -> idx_is p n pi -> lu_of n a f pi ->
  m_det m = Ok (Some ((if (n =? 4)%nat && double_swap pi then -1 else 1) * rdet n a)).
Proof.
  intros Hm lu p f pi El Hl Hp Hof. destruct (mat_is_dim _ _ _ _ Hm) as [Dn _].
  pose proof (m_det_ok m n _ lu p _ pi Hm El Hl Hp (lu_perm _ _ _ _ Hof)) as E. cbv zeta in E.
  rewrite f1_RX, prod_RX in E. rewrite E. f_equal.
  destruct (det_perm n pi a Dn (lu_perm _ _ _ _ Hof)) as [D1 D2].
  rewrite (rdet_ext n _ _ (lu_eq _ _ _ _ Hof)), (det_lu n (fun i j => f (pi i) j) Dn) in D1.
  assert (S2 : psign n pi * psign n pi = 1) by (unfold psign; destruct (Nat.even _); ring).
  rewrite D1. set (s := if (n =? 4)%nat && double_swap pi then -1 else 1) in *. clearbody s.
  transitivity (Some ((if flips n pi then -1 else 1) * (psign n pi * rdet n a))).
  - destruct (flips n pi); cbn [fneg RX rx1]; f_equal; ring.
  - rewrite D2. f_equal. transitivity (psign n pi * psign n pi * s * rdet n a); [ring|rewrite S2; ring].
Qed.

(*@ C18_det *)
(** C18: [det] of a square matrix succeeds exactly when [lup] does; up to 3 x 3 the result is the
    determinant; for 4 x 4 it is the determinant, negated exactly when the pivot permutation swaps two
    disjoint pairs *)
Lemma l_det :
  forall (m : Mat (T (Arith := RX))) (n : nat) (a : nat -> nat -> R), mat_r m n n a ->
  (forall lu p, lup m = Ok (lu, p) -> exists pi, idx_is p n pi /\ perm n pi /\
     m_det m = Ok (Some ((if (n =? 4)%nat && double_swap pi then -1 else 1) * rdet n a))) /\
  (forall e, lup m = Err e -> m_det m = Err e) /\ lup m <> Panic.
Proof.
  intros m n a Hm. pose proof (lup_rwp m n a Hm) as W. conjs.
  - intros lu p El. rewrite El in W. destruct W as (f & pi & Hl & Hp & Hof). cbn [fst snd] in *. exists pi. conjs; auto; [apply Hof|].
    eapply det_rwp; eauto.
  - intros e Ee. unfold m_det. rewrite (m_guard_square_is _ _ _ _ Hm), Nat.eqb_refl, Ee. reflexivity.
  - intros E. rewrite E in W. exact W.
Qed.

(*@ C18_small *)
(** C18: up to 3 x 3, a successful [det] is the determinant *)
Lemma l_det_small :
  forall (m : Mat (T (Arith := RX))) (n : nat) (a : nat -> nat -> R) (d : T (Arith := RX)), mat_r m n n a -> (n <= 3)%nat ->
  m_det m = Ok d -> d = Some (rdet n a).
Proof.
  intros m n a d Hm Hn E. destruct (l_det m n a Hm) as (H1 & H2 & H3). destruct (lup m) as [[lu p]|e|]; [|rewrite (H2 e eq_refl) in E; discriminate|congruence].
  destruct (H1 lu p eq_refl) as (pi & _ & _ & E'). rewrite E' in E. injection E as <-.
  destruct (Nat.eqb_spec n 4); [lia|]. cbn. f_equal. ring.
Qed.

(*@ C18_square *)
(** C18: whenever [det] succeeds its square is the square of the determinant; non-square and uninitialised
    are rejected *)
Lemma l_det_square :
  forall (m : Mat (T (Arith := RX))) (r c : nat) (a : nat -> nat -> R), mat_r m r c a ->
  (r <> c -> m_det m = Err NotSquare) /\
  (r = c -> forall d, m_det m = Ok d -> exists x, d = Some x /\ Rabs x = Rabs (rdet r a)).
Proof.
  intros m r c a Hm. split.
  - intros Ne. unfold m_det. rewrite (m_guard_square_is _ _ _ _ Hm). destruct (Nat.eqb_spec r c); [lia|]. reflexivity.
  - intros <- d E. destruct (l_det m r a Hm) as (H1 & H2 & H3). destruct (lup m) as [[lu p]|e|]; [|rewrite (H2 e eq_refl) in E; discriminate|congruence].
    destruct (H1 lu p eq_refl) as (pi & _ & _ & E'). rewrite E' in E. injection E as <-. eexists. split; [reflexivity|].
    rewrite Rabs_mult. destruct ((r =? 4)%nat && double_swap pi); [|rewrite Rabs_R1; ring].
    rewrite Rabs_left by lra. ring.
Qed.

(*@ C18_sign_refuted *)
(** C18, violation: the 4 x 4 permutation matrix of (0 1)(2 3), an exact input with determinant +1 (also what
    [det_naive] says), has [det] = -1 in binary32, whatever the libm *)
Lemma l_det_w :
  exists (m : Mat f32), forall lm : Libm, wfm (A := F32 lm) m /\
  show_m m = (4%nat, 4%nat, true, map sf [0; 1; 0; 0; 1; 0; 0; 0; 0; 0; 0; 1; 0; 0; 1; 0]%Z) /\
  rmap B2SF (m_det (A := F32 lm) m) = Ok (sf (-1)) /\ rmap B2SF (m_det_naive (A := F32 lm) m) = Ok (sf 1).
Proof.
  exists (mk_mat (A := F32 lm_id) 4 4 (map z32 [0; 1; 0; 0; 1; 0; 0; 0; 0; 0; 0; 1; 0; 0; 1; 0]%Z)). intros lm.
  split; [|split; [|split]].
  - apply wfm_b_ok. vm_compute. reflexivity.
  - vm_compute. reflexivity.
  - vm_compute. reflexivity.
  - vm_compute. reflexivity.
Qed.

(*@ example *)
Example C18_example :
  let A := F32 lm_id in
  let m := mk_mat 3 3 (map z32 [1; 2; 3; 2; 4; 8; 4; 2; 0]%Z) in
  wfm m /\ rmap B2SF (m_det m) = Ok (sf 12) /\ rmap B2SF (m_det_naive m) = Ok (sf 12).
Proof. cbv zeta. split; [apply wfm_b_ok; vm_compute; reflexivity|split; vm_compute; reflexivity]. Qed.
