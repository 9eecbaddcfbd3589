(** The mathematics of the unshifted QR iteration on symmetric positive definite matrices (no model here). *)
From Coq Require Import List Arith ZArith Reals Lia Bool Lra Psatz.
From Verif Require Import S_Linalg S_Norm S_Lu S_Decomp P_Product P_Qr P_FAcc P_Eig.
Local Open Scope R_scope.

Lemma Rsum_S n g : Rsum (S n) g = Rsum n g + g n.
Proof. reflexivity. Qed.
Lemma Rsum_cut n k g : (k <= n)%nat -> Rsum n g = Rsum k g + Rsum (n - k) (fun i => g (k + i)%nat).
Proof.
  intros H. replace n with (k + (n - k))%nat at 1 by lia. generalize (n - k)%nat. intros m. induction m as [|m IH].
  - rewrite Nat.add_0_r. cbn [Rsum]. ring.
  - rewrite Nat.add_succ_r, !Rsum_S, IH. ring.
Qed.
Lemma Rsum_upd n i g h v : (i < n)%nat ->
  Rsum n (fun t => g t * (if (t =? i)%nat then v else h t)) = Rsum n (fun t => g t * h t) + g i * (v - h i).
Proof.
  intros Hi. rewrite (Rsum_ext n _ (fun t => g t * h t + (if (t =? i)%nat then g t * (v - h t) else 0))).
  - rewrite Rsum_plus, Rsum_pick by auto. ring.
  - intros t Ht. destruct (Nat.eqb_spec t i); ring.
Qed.
Lemma Rsum_mono n k g : (k <= n)%nat -> (forall i, (i < n)%nat -> 0 <= g i) -> Rsum k g <= Rsum n g.
Proof.
  intros H P. rewrite (Rsum_cut n k) by auto. enough (0 <= Rsum (n - k) (fun i => g (k + i)%nat)) by lra.
  apply Rsum_nonneg. intros i Hi. apply P. lia.
Qed.
Lemma Rsum_term n i g : (i < n)%nat -> (forall i, (i < n)%nat -> 0 <= g i) -> g i <= Rsum n g.
Proof.
  intros H P. apply Rle_trans with (Rsum (S i) g); [|apply Rsum_mono; auto].
  rewrite Rsum_S. enough (0 <= Rsum i g) by lra. apply Rsum_nonneg. intros j Hj. apply P. lia.
Qed.
Lemma cauchy n x y : Rsum n (fun i => x i * y i) * Rsum n (fun i => x i * y i) <= Rsum n (fun i => x i * x i) * Rsum n (fun i => y i * y i).
Proof.
  induction n as [|n IH]; [cbn; lra|]. rewrite !Rsum_S.
  set (p := Rsum n (fun i => x i * y i)) in *. set (a := Rsum n (fun i => x i * x i)) in *. set (b := Rsum n (fun i => y i * y i)) in *.
  assert (Pa : 0 <= a) by apply Rsum_sq. assert (Pb : 0 <= b) by apply Rsum_sq.
  set (u := x n). set (v := y n).
  enough (2 * (p * (u * v)) <= a * (v * v) + b * (u * u)) by nra.
  destruct (Req_dec a 0) as [Za|Na].
  - assert (p = 0) by (rewrite Za in IH; nra). subst. rewrite H, Za. nra.
  - assert (0 < a) by lra. apply Rmult_le_reg_l with a; [auto|].
    pose proof (Rle_0_sqr (a * v - p * u)) as Q. unfold Rsqr in Q. nra.
Qed.

(** ** Cholesky factors exist *)
Definition sym n (a : nat -> nat -> R) := forall i j, (i < n)%nat -> (j < n)%nat -> a i j = a j i.
Definition posdef n (a : nat -> nat -> R) := forall x, 0 < rdot n x x -> 0 < rdot n x (rmv n a x).
Definition low (l : nat -> nat -> R) := forall i j, (i < j)%nat -> l i j = 0.

Lemma low_solve n l b : low l -> (forall i, (i < n)%nat -> l i i <> 0) ->
  exists y, forall j, (j < n)%nat -> Rsum n (fun t => l j t * y t) = b j.
Proof.
  intros L D. enough (E : forall m, (m <= n)%nat -> exists y, forall j, (j < m)%nat -> Rsum n (fun t => l j t * y t) = b j) by (apply (E n); auto).
  induction m as [|m IH]; intros Hm; [exists (fun _ => 0); intros; lia|].
  destruct IH as (y & Hy); [lia|]. exists (fun t => if (t =? m)%nat then y m + (b m - Rsum n (fun t => l m t * y t)) / l m m else y t).
  intros j Hj. rewrite Rsum_upd by lia. destruct (Nat.eq_dec j m) as [->|N].
  - field. apply D. lia.
  - rewrite (L j m) by lia. rewrite Hy by lia. ring.
Qed.
Lemma up_solve n l b : low l -> (forall i, (i < n)%nat -> l i i <> 0) ->
  exists z, forall j, (j < n)%nat -> Rsum n (fun t => l t j * z t) = b j.
Proof.
  intros L D. enough (E : forall m, (m <= n)%nat -> exists z, forall j, (n - m <= j)%nat -> (j < n)%nat -> Rsum n (fun t => l t j * z t) = b j).
  { destruct (E n) as (z & Hz); auto. exists z. intros j Hj. apply Hz; lia. }
  induction m as [|m IH]; intros Hm; [exists (fun _ => 0); intros; lia|].
  destruct IH as (y & Hy); [lia|]. set (k := (n - S m)%nat). exists (fun t => if (t =? k)%nat then y k + (b k - Rsum n (fun t => l t k * y t)) / l k k else y t).
  intros j Hj Hjn. rewrite (Rsum_upd n k (fun t => l t j)) by lia. destruct (Nat.eq_dec j k) as [->|N].
  - field. apply D. lia.
  - rewrite (L k j) by lia. rewrite Hy by lia. ring.
Qed.

Lemma rdot_ext n x y x' y' : (forall i, (i < n)%nat -> x i = x' i) -> (forall i, (i < n)%nat -> y i = y' i) -> rdot n x y = rdot n x' y'.
Proof. intros H1 H2. apply Rsum_ext. intros i Hi. rewrite H1, H2 by auto. auto. Qed.
Lemma rmv_tr n a x y : rdot n x (rmv n a y) = rdot n (rmv n (rtr a) x) y.
Proof.
  unfold rdot, rmv, rtr. rewrite (Rsum_ext n _ (fun i => Rsum n (fun t => x i * (a i t * y t)))).
  - rewrite Rsum_swap. apply Rsum_ext. intros t Ht. rewrite <- Rsum_scal_r. apply Rsum_ext. intros; ring.
  - intros i Hi. rewrite Rsum_scal. auto.
Qed.
Lemma rdot_sym n x y : rdot n x y = rdot n y x.
Proof. apply Rsum_ext. intros; ring. Qed.

Lemma chol_exists n : forall a, sym n a -> posdef n a ->
  exists l, low l /\ (forall i, (i < n)%nat -> l i i <> 0) /\ req n n (rmul n l (rtr l)) a.
Proof.
  induction n as [|n IH]; intros a Sa Pa.
  - exists (fun _ _ => 0). split; [intros i j _; auto|]. split; [intros; lia|]. intros i j H; lia.
  - destruct (IH a) as (l & L & D & E).
    { intros i j Hi Hj. apply Sa; lia. }
    { intros x Hx. pose (x' := fun i => if (i <? n)%nat then x i else 0).
      assert (X : forall i, (i < n)%nat -> x' i = x i) by (intros i Hi; unfold x'; destruct (Nat.ltb_spec i n); [auto|lia]).
      assert (Xn : x' n = 0) by (unfold x'; destruct (Nat.ltb_spec n n); [lia|auto]).
      specialize (Pa x'). unfold rdot in Pa. rewrite !Rsum_S, Xn in Pa.
      rewrite (Rsum_ext n (fun i => x' i * x' i) (fun i => x i * x i)) in Pa by (intros i Hi; rewrite X; auto).
      rewrite (Rsum_ext n (fun i => x' i * rmv (S n) a x' i) (fun i => x i * rmv n a x i)) in Pa.
      - unfold rdot in Hx. unfold rdot. lra.
      - intros i Hi. rewrite X by auto. f_equal. unfold rmv. rewrite Rsum_S, Xn. rewrite Rmult_0_r, Rplus_0_r. apply Rsum_ext. intros t Ht. rewrite X; auto. }
    destruct (low_solve n l (fun j => a n j) L D) as (y & Hy).
    destruct (up_solve n l (fun j => - y j) L D) as (z & Hz).
    set (d := a n n - Rsum n (fun t => y t * y t)).
    assert (Pd : 0 < d).
    { pose (x := fun i => if (i <? n)%nat then z i else 1).
      assert (X : forall i, (i < n)%nat -> x i = z i) by (intros i Hi; unfold x; destruct (Nat.ltb_spec i n); [auto|lia]).
      assert (Xn : x n = 1) by (unfold x; destruct (Nat.ltb_spec n n); [lia|auto]).
      specialize (Pa x). unfold rdot in Pa. rewrite !Rsum_S, Xn in Pa.
      assert (Q1 : 0 < Rsum n (fun t => x t * x t) + 1 * 1) by (pose proof (Rsum_sq n x); lra). specialize (Pa Q1).
      (* the quadratic form *)
      assert (W1 : rmv (S n) a x n = Rsum n (fun t => a n t * z t) + a n n).
      { unfold rmv. rewrite Rsum_S, Xn. f_equal; [|ring]. apply Rsum_ext. intros t Ht. rewrite X; auto. }
      assert (W2 : forall i, (i < n)%nat -> rmv (S n) a x i = rmv n a z i + a n i).
      { intros i Hi. unfold rmv. rewrite Rsum_S, Xn. f_equal; [|rewrite (Sa i n) by lia; ring]. apply Rsum_ext. intros t Ht. rewrite X; auto. }
      rewrite (Rsum_ext n (fun i => x i * rmv (S n) a x i) (fun i => z i * rmv n a z i + a n i * z i)) in Pa by (intros i Hi; rewrite X, W2 by auto; ring).
      rewrite W1, Rsum_plus in Pa.
      (* a n . z = y . L^T z = - |y|^2 *)
      assert (E1 : Rsum n (fun t => a n t * z t) = - Rsum n (fun t => y t * y t)).
      { rewrite (Rsum_ext n _ (fun j => Rsum n (fun t => l j t * y t) * z j)) by (intros j Hj; rewrite Hy by auto; ring).
        rewrite (Rsum_ext n _ (fun j => Rsum n (fun t => l j t * y t * z j))) by (intros j Hj; rewrite Rsum_scal_r; auto).
        rewrite Rsum_swap. rewrite (Rsum_ext n _ (fun j => (-1) * (y j * y j))).
        - rewrite Rsum_scal. ring.
        - intros j Hj. rewrite (Rsum_ext n _ (fun t => y j * (l t j * z t))) by (intros; ring). rewrite Rsum_scal, Hz by auto. ring. }
      assert (E2 : Rsum n (fun i => z i * rmv n a z i) = Rsum n (fun t => y t * y t)).
      { change (Rsum n (fun i => z i * rmv n a z i)) with (rdot n z (rmv n a z)).
        rewrite (rdot_ext n z (rmv n a z) z (rmv n l (rmv n (rtr l) z))); [|auto|].
        2:{ intros i Hi. rewrite <- rmv_mul. apply rmv_ext; [|auto]. intros t Ht. symmetry. apply E; auto. }
        rewrite rmv_tr. apply Rsum_ext. intros i Hi. unfold rmv, rtr. rewrite Hz by auto. ring. }
      rewrite E1, E2 in Pa. unfold d. lra. }
    exists (fun i j => if (j <=? i)%nat then (if (i <? n)%nat then l i j else if (j <? n)%nat then y j else sqrt d) else 0).
    split; [|split].
    + intros i j Hij. destruct (Nat.leb_spec j i); [lia|auto].
    + intros i Hi. rewrite Nat.leb_refl. destruct (Nat.ltb_spec i n); [apply D; auto|]. pose proof (sqrt_lt_R0 d Pd). lra.
    + set (l' := fun i j : nat => _).
      assert (A1 : forall i j, (i < n)%nat -> l' i j = l i j).
      { intros i j Hi. unfold l'. destruct (Nat.leb_spec j i), (Nat.ltb_spec i n); auto; try lia. symmetry; apply L; auto. }
      assert (A2 : forall j, (j < n)%nat -> l' n j = y j).
      { intros j Hj. unfold l'. destruct (Nat.leb_spec j n), (Nat.ltb_spec n n), (Nat.ltb_spec j n); auto; lia. }
      assert (A3 : l' n n = sqrt d).
      { unfold l'. destruct (Nat.leb_spec n n), (Nat.ltb_spec n n); auto; lia. }
      assert (A4 : forall i, (i < n)%nat -> l' i n = 0) by (intros i Hi; rewrite A1 by auto; apply L; auto).
      intros i j Hi Hj. unfold rmul, rtr. rewrite Rsum_S.
      destruct (Nat.eq_dec i n) as [->|Ni], (Nat.eq_dec j n) as [->|Nj].
      * rewrite A3, sqrt_sqrt by lra. rewrite (Rsum_ext n _ (fun t => y t * y t)) by (intros t Ht; rewrite A2; auto). unfold d. ring.
      * rewrite (A4 j) by lia. rewrite (Rsum_ext n _ (fun t => l j t * y t)) by (intros t Ht; rewrite A2, A1 by lia; ring).
        rewrite Hy by lia. ring.
      * rewrite (A4 i) by lia. rewrite (Rsum_ext n _ (fun t => l i t * y t)) by (intros t Ht; rewrite A2, A1 by lia; ring).
        rewrite Hy by lia. rewrite (Sa i n) by lia. ring.
      * rewrite (A4 i), (Rsum_ext n _ (fun t => l i t * l j t)) by (try lia; intros t Ht; rewrite !A1 by lia; auto).
        rewrite <- (E i j) by lia. unfold rmul, rtr. ring.
Qed.

(** ** One step: partial traces grow by the squares outside the diagonal block *)
Definition ptr (k : nat) (b : nat -> nat -> R) : R := Rsum k (fun i => b i i).
Definition outer (n k : nat) (w : nat -> nat -> R) : R := Rsum k (fun i => Rsum (n - k) (fun j => w i (k + j)%nat * w i (k + j)%nat)).

Lemma outer_nonneg n k w : 0 <= outer n k w.
Proof. apply Rsum_nonneg. intros i Hi. apply (Rsum_sq (n - k) (fun j => w i (k + j)%nat)). Qed.

(** sum of the squares of the first k rows, when the k x (n-k) block is the only other part *)
Lemma rows_cut n k w : (k <= n)%nat ->
  Rsum k (fun i => Rsum n (fun t => w i t * w i t)) = Rsum k (fun i => Rsum k (fun t => w i t * w i t)) + outer n k w.
Proof.
  intros Hk. unfold outer. rewrite <- Rsum_plus. apply Rsum_ext. intros i Hi. apply (Rsum_cut n k); auto.
Qed.
Lemma outer_0 n k w : (k <= n)%nat -> (forall i j, (i < k)%nat -> (k <= j)%nat -> (j < n)%nat -> w i j = 0) -> outer n k w = 0.
Proof.
  intros Hk H. apply Rsum_0. intros i Hi. apply Rsum_0. intros j Hj. rewrite H by lia. ring.
Qed.
Lemma ptr_ext k a b : (forall i, (i < k)%nat -> a i i = b i i) -> ptr k a = ptr k b.
Proof. apply Rsum_ext. Qed.
Lemma square_swap k w : Rsum k (fun i => Rsum k (fun t => w i t * w i t)) = Rsum k (fun i => Rsum k (fun t => w t i * w t i)).
Proof. apply Rsum_swap. Qed.

Lemma qr_step n a q : sym n a -> posdef n a -> orth n q -> upper n (rmul n (rtr q) a) ->
  exists w, upper n w /\ req n n (rconj n q a) (rmul n w (rtr w)) /\
    forall k, (k <= n)%nat -> outer n k w <= ptr k (rconj n q a) - ptr k a.
Proof.
  intros Sa Pa Oq Up. destruct (chol_exists n a Sa Pa) as (l & L & D & E).
  set (w := rmul n (rtr q) l).
  assert (W1 : req n n (rmul n w (rtr l)) (rmul n (rtr q) a)).
  { intros i j Hi Hj. unfold w. rewrite rmul_assoc. apply rmul_ext; [auto|]. intros t Ht. apply E; auto. }
  assert (Uw : upper n w).
  { intros i j Hi Hj Hji. revert Hj Hji. induction j as [j IHj] using (well_founded_induction lt_wf). intros Hj Hji.
    pose proof (W1 i j Hi Hj) as E1. rewrite (Up i j Hi Hj Hji) in E1. unfold rmul, rtr in E1.
    rewrite (Rsum_cut n (S j)) in E1 by lia. rewrite Rsum_S in E1.
    rewrite (Rsum_0 j) in E1 by (intros t Ht; rewrite (IHj t) by lia; ring).
    rewrite (Rsum_0 (n - S j)) in E1 by (intros t Ht; rewrite (L j) by lia; ring).
    specialize (D j Hj). assert (E2 : w i j * l j j = 0) by lra. apply Rmult_integral in E2. tauto. }
  assert (Bw : req n n (rconj n q a) (rmul n w (rtr w))).
  { intros i j Hi Hj. unfold rconj. rewrite <- rmul_assoc.
    rewrite (rmul_ext n _ (rmul n w (rtr l)) q q i j); [|intros t Ht; symmetry; apply W1; auto|auto].
    rewrite rmul_assoc. apply rmul_ext; [auto|]. intros t Ht. unfold rmul, rtr, w. unfold rmul, rtr. apply Rsum_ext. intros; ring. }
  (* w^T w = l^T l *)
  assert (G : req n n (rmul n (rtr w) w) (rmul n (rtr l) l)).
  { intros i j Hi Hj.
    assert (T : forall s, rtr w i s = rmul n (rtr l) q i s).
    { intros s. unfold rtr, w, rmul, rtr. apply Rsum_ext. intros; ring. }
    rewrite (rmul_ext n (rtr w) (rmul n (rtr l) q) w w i j); [|intros t Ht; apply T|auto].
    rewrite rmul_assoc. apply rmul_ext; [auto|]. intros t Ht. unfold w. rewrite <- rmul_assoc.
    rewrite (rmul_ext n (rmul n q (rtr q)) rid l l t j); [apply rmul_id_l; auto|intros s Hs; apply orth_rows; auto|auto]. }
  exists w. split; [exact Uw|]. split; [exact Bw|]. intros k Hk.
  assert (P1 : ptr k a = Rsum k (fun i => Rsum k (fun t => l i t * l i t))).
  { rewrite <- (Rplus_0_r (Rsum k _)). rewrite <- (outer_0 n k l Hk) by (intros i j Hi Hj _; apply L; lia).
    rewrite <- rows_cut by auto. apply Rsum_ext. intros i Hi. rewrite <- (E i i) by lia. reflexivity. }
  assert (P2 : ptr k (rconj n q a) = Rsum k (fun i => Rsum k (fun t => w i t * w i t)) + outer n k w).
  { rewrite <- rows_cut by auto. apply Rsum_ext. intros i Hi. rewrite Bw by lia. reflexivity. }
  assert (P3 : Rsum k (fun i => Rsum n (fun t => w t i * w t i)) = Rsum k (fun i => Rsum n (fun t => l t i * l t i))).
  { apply Rsum_ext. intros i Hi. apply (G i i); lia. }
  assert (C1 : Rsum k (fun i => Rsum n (fun t => w t i * w t i)) = Rsum k (fun i => Rsum k (fun t => w t i * w t i)) + outer n k (rtr w)) by (apply (rows_cut n k (rtr w)); auto).
  assert (C2 : Rsum k (fun i => Rsum n (fun t => l t i * l t i)) = Rsum k (fun i => Rsum k (fun t => l t i * l t i)) + outer n k (rtr l)) by (apply (rows_cut n k (rtr l)); auto).
  rewrite (outer_0 n k (rtr w) Hk) in C1 by (intros i j Hi Hj Hjn; unfold rtr; apply Uw; lia).
  pose proof (outer_nonneg n k (rtr l)).
  rewrite P1, P2. rewrite (square_swap k w), (square_swap k l). lra.
Qed.

(** off-diagonal part of a column of w w^T, w upper triangular *)
Lemma offdiag n w j g : upper n w -> (j < n)%nat -> (forall k, (k <= n)%nat -> outer n k w <= g) ->
  Rsum n (fun i => if (i =? j)%nat then 0 else rmul n w (rtr w) i j * rmul n w (rtr w) i j) <= g * ptr n (rmul n w (rtr w)).
Proof.
  intros U Hj G. set (b := rmul n w (rtr w)).
  assert (Pb : forall i, 0 <= b i i) by (intros i; apply (Rsum_sq n (fun t => w i t))).
  assert (Pg : 0 <= g) by (eapply Rle_trans; [apply (outer_nonneg n 0 w)|apply G; lia]).
  (* |b i j|^2 for i < j *)
  assert (A1 : forall i, (i < j)%nat -> b i j * b i j <= Rsum (n - j) (fun t => w i (j + t)%nat * w i (j + t)%nat) * b j j).
  { intros i Hi.
    assert (E : b i j = Rsum (n - j) (fun t => w i (j + t)%nat * w j (j + t)%nat)).
    { unfold b, rmul, rtr. rewrite (Rsum_cut n j) by lia. rewrite Rsum_0; [ring|]. intros t Ht. rewrite (U j t) by lia. ring. }
    rewrite E. eapply Rle_trans; [apply cauchy|]. apply Rmult_le_compat_l; [apply (Rsum_sq (n - j) (fun t => w i (j + t)%nat))|].
    unfold b, rmul, rtr. rewrite (Rsum_cut n j (fun t => w j t * w j t)) by lia. pose proof (Rsum_sq j (fun t => w j t)). lra. }
  assert (A2 : forall i, (j < i)%nat -> (i < n)%nat -> b i j * b i j <= g * b i i).
  { intros i Hi Hin.
    assert (E : b i j = Rsum (n - i) (fun t => w j (i + t)%nat * w i (i + t)%nat)).
    { unfold b, rmul, rtr. rewrite (Rsum_cut n i) by lia. rewrite Rsum_0; [rewrite Rplus_0_l; apply Rsum_ext; intros; ring|]. intros t Ht. rewrite (U i t) by lia. ring. }
    rewrite E. eapply Rle_trans; [apply cauchy|]. apply Rmult_le_compat; try apply (Rsum_sq (n - i) (fun t => w _ (i + t)%nat)).
    - eapply Rle_trans; [|apply (G i); lia]. unfold outer.
      apply (Rsum_term i j (fun i0 => Rsum (n - i) (fun j0 => w i0 (i + j0)%nat * w i0 (i + j0)%nat))); [auto|].
      intros s Hs. apply (Rsum_sq (n - i) (fun t => w s (i + t)%nat)).
    - unfold b, rmul, rtr. rewrite (Rsum_cut n i (fun t => w i t * w i t)) by lia. pose proof (Rsum_sq i (fun t => w i t)). lra. }
  rewrite (Rsum_cut n j) by lia. unfold ptr. rewrite (Rsum_cut n (S j) (fun i => b i i)) by lia. rewrite Rsum_S.
  replace (n - j)%nat with (S (n - S j)) by lia.
  assert (B1 : Rsum j (fun i => if (i =? j)%nat then 0 else b i j * b i j) <= g * b j j).
  { eapply Rle_trans; [apply Rsum_le with (h := fun i => Rsum (n - j) (fun t => w i (j + t)%nat * w i (j + t)%nat) * b j j)|].
    - intros i Hi. destruct (Nat.eqb_spec i j); [lia|]. apply A1; auto.
    - rewrite Rsum_scal_r. apply Rmult_le_compat_r; [apply Pb|]. apply (G j). lia. }
  assert (B2 : Rsum (S (n - S j)) (fun i => if (j + i =? j)%nat then 0 else b (j + i)%nat j * b (j + i)%nat j) <= g * Rsum (n - S j) (fun i => b (S j + i)%nat (S j + i)%nat)).
  { rewrite (Rsum_cut (S (n - S j)) 1) by lia. replace (S (n - S j) - 1)%nat with (n - S j)%nat by lia. cbn [Rsum]. rewrite Nat.add_0_r, Nat.eqb_refl.
    rewrite !Rplus_0_l, <- Rsum_scal. apply Rsum_le. intros i Hi. destruct (Nat.eqb_spec (j + (1 + i)) j); [lia|].
    replace (j + (1 + i))%nat with (S j + i)%nat by lia. apply A2; lia. }
  pose proof (Rsum_nonneg j (fun i => b i i) (fun i _ => Pb i)). nra.
Qed.

(** ** The change of the diagonal *)
(** half the sum of absolute values bounds every partial sum of a sequence whose total is 0 *)
Lemma partial_half n k d : (k <= n)%nat -> Rsum n d = 0 -> 2 * Rsum k d <= Rsum n (fun i => Rabs (d i)).
Proof.
  intros Hk Z. rewrite (Rsum_cut n k) in Z by auto. rewrite (Rsum_cut n k (fun i => Rabs (d i))) by auto.
  assert (Rsum k d <= Rsum k (fun i => Rabs (d i))) by (apply Rsum_le; intros; apply Rle_abs).
  assert (- Rsum (n - k) (fun i => d (k + i)%nat) <= Rsum (n - k) (fun i => Rabs (d (k + i)%nat))).
  { replace (- Rsum (n - k) (fun i => d (k + i)%nat)) with (Rsum (n - k) (fun i => -1 * d (k + i)%nat)) by (rewrite Rsum_scal; ring).
    apply Rsum_le. intros. rewrite <- Rabs_Ropp. replace (- d (k + i)%nat) with (-1 * d (k + i)%nat) by ring. apply Rle_abs. }
  lra.
Qed.
Lemma abs_sum_sq n d : Rsum n (fun i => Rabs (d i)) * Rsum n (fun i => Rabs (d i)) <= INR n * Rsum n (fun i => d i * d i).
Proof.
  pose proof (cauchy n (fun _ => 1) (fun i => Rabs (d i))) as C. cbv beta in C.
  rewrite (Rsum_ext n (fun i => 1 * Rabs (d i)) (fun i => Rabs (d i))) in C by (intros; ring).
  rewrite (Rsum_ext n (fun i => Rabs (d i) * Rabs (d i)) (fun i => d i * d i)) in C by (intros; rewrite <- Rabs_mult; apply Rabs_pos_eq, Rle_0_sqr).
  rewrite Rsum_const in C. lra.
Qed.
(** for n <= 4 every partial sum of a sequence of total 0 is at most its norm *)
Lemma partial_norm n k d e : (k <= n)%nat -> (n <= 4)%nat -> Rsum n d = 0 -> 0 <= e -> Rsum n (fun i => d i * d i) <= e * e -> Rsum k d <= e.
Proof.
  intros Hk Hn Z He H. pose proof (partial_half n k d Hk Z) as P. pose proof (abs_sum_sq n d) as Q.
  assert (I : INR n <= 4) by (replace 4 with (INR 4) by (cbn; ring); apply le_INR; auto).
  pose proof (Rsum_sq n d) as S0.
  assert (Rsum n (fun i => Rabs (d i)) <= 2 * e).
  { pose proof (Rsum_nonneg n (fun i => Rabs (d i)) (fun i _ => Rabs_pos _)). apply Rsqr_incr_0_var; [|lra]. unfold Rsqr. nra. }
  lra.
Qed.

(** differences of nonnegative partial sums: the norm is at most sqrt 2 times their sum *)
Lemma norm_by_partial n d : (forall k, (k <= n)%nat -> 0 <= Rsum k d) -> Rsum n d = 0 ->
  let s := Rsum n (fun k => Rsum k d) in Rsum n (fun i => d i * d i) <= 2 * (s * s).
Proof.
  intros P Z s.
  assert (Ps : 0 <= s) by (apply Rsum_nonneg; intros; apply P; lia).
  assert (T : forall k, (k <= n)%nat -> Rsum k d <= s).
  { intros k Hk. destruct (Nat.eq_dec k n) as [->|N]; [rewrite Z; auto|]. apply (Rsum_term n k (fun k => Rsum k d)); [lia|]. intros i Hi. apply P. lia. }
  assert (A1 : forall i, (i < n)%nat -> d i * d i <= s * Rsum i d + s * Rsum (S i) d).
  { intros i Hi. pose proof (P i ltac:(lia)). pose proof (P (S i) ltac:(lia)). pose proof (T i ltac:(lia)). pose proof (T (S i) ltac:(lia)).
    rewrite Rsum_S in *. set (p := Rsum i d) in *. nra. }
  eapply Rle_trans; [apply Rsum_le, A1|]. rewrite Rsum_plus, !Rsum_scal.
  assert (E : Rsum n (fun i => Rsum (S i) d) = s).
  { assert (X : forall m, Rsum (S m) (fun k => Rsum k d) = Rsum m (fun i => Rsum (S i) d)).
    { induction m as [|m IHm]; [cbn; ring|]. rewrite Rsum_S, IHm. rewrite (Rsum_S m (fun i => Rsum (S i) d)). reflexivity. }
    rewrite <- X, Rsum_S, Z. unfold s. ring. }
  rewrite E. fold s. lra.
Qed.
