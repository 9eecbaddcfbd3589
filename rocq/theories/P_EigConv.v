(** C65: the unshifted QR iteration on symmetric positive definite matrices. *)
(*@+*)
From Coq Require Import List Arith ZArith Reals Lia Bool Lra SpecFloat.
From Flocq Require Import Core BinarySingleNaN.
From Verif Require Import M_Base M_Arith M_Utils M_Vector M_Matrix M_F32 M_RX
  S_Spec S_Linalg S_Compare S_Norm S_Lu S_Decomp S_Eig P_Inst.
Import ListNotations.
Local Open Scope R_scope.
(*@-*)
From Coq Require Import Psatz.
From Verif Require Import P_Hoare P_Cont P_Loops P_Access P_Pointwise P_Trans P_Float P_Product P_Norm P_Dot P_Compare P_Diag P_Lup P_Det P_Lr P_Qr P_Chol P_So P_Quat P_FErr P_FAcc P_Eig P_QrConv.

(** ** conjugation by an orthogonal matrix *)
Lemma conj_quad n v a x : rdot n x (rmv n (rconj n v a) x) = rdot n (rmv n v x) (rmv n a (rmv n v x)).
Proof.
  rewrite (rdot_ext n x (rmv n (rconj n v a) x) x (rmv n (rtr v) (rmv n a (rmv n v x)))); [|auto|].
  - rewrite rmv_tr. reflexivity.
  - intros i Hi. unfold rconj. rewrite rmv_mul. apply rmv_ext; [auto|]. intros t Ht. apply rmv_mul.
Qed.
Lemma conj_definite n v a c : orth n v -> definite n c a -> definite n c (rconj n v a).
Proof.
  intros O D x Hx. rewrite conj_quad. rewrite <- (orth_norm n v x O) in *. apply D; auto.
Qed.
Lemma conj_sym n v a : sym n a -> sym n (rconj n v a).
Proof.
  intros S i j Hi Hj. unfold rconj, rmul, rtr.
  rewrite (Rsum_ext n _ (fun t => Rsum n (fun u => v t i * a t u * v u j))) by (intros t Ht; rewrite <- Rsum_scal; apply Rsum_ext; intros; ring).
  rewrite Rsum_swap. apply Rsum_ext. intros t Ht. rewrite <- Rsum_scal. apply Rsum_ext. intros u Hu. rewrite (S u t) by auto. ring.
Qed.
Lemma definite_ext n c a b : req n n a b -> definite n c a -> definite n c b.
Proof.
  intros E D x Hx. rewrite (rdot_ext n x (rmv n b x) x (rmv n a x)); [apply D; auto|auto|].
  intros i Hi. apply rmv_ext; [|auto]. intros t Ht. symmetry. apply E; auto.
Qed.
Lemma sym_ext n a b : req n n a b -> sym n a -> sym n b.
Proof. intros E S i j Hi Hj. rewrite <- !E by auto. apply S; auto. Qed.
Lemma definite_posdef n c a : 0 <= c -> definite n c a -> posdef n a.
Proof. intros Hc D x Hx. specialize (D x Hx). nra. Qed.

Lemma definite_regular n a : definite n eps a -> ~ near_singular n a.
Proof.
  intros D (c & x & Hc & Hx & L).
  pose proof (rdot_entry n x c Hc) as E. rewrite Hx in E.
  specialize (D x ltac:(lra)). pose proof (cauchy n x (rmv n a x)) as C.
  fold (rdot n x x) in C. fold (rdot n x (rmv n a x)) in C. fold (rdot n (rmv n a x) (rmv n a x)) in C. fold (rdot n (rmv n a x) (rmv n a x)) in L.
  assert (S0 : 0 <= rdot n (rmv n a x) (rmv n a x)) by apply Rsum_sq.
  assert (Q : rdot n (rmv n a x) (rmv n a x) <= eps * eps).
  { rewrite <- (sqrt_sqrt _ S0). pose proof (sqrt_pos (rdot n (rmv n a x) (rmv n a x))). pose proof eps_pos. nra. }
  pose proof eps_pos. set (xx := rdot n x x) in *. set (xa := rdot n x (rmv n a x)) in *. set (aa := rdot n (rmv n a x) (rmv n a x)) in *.
  assert (xa * xa <= xx * (eps * eps)) by nra. 
  assert (0 <= eps * xx) by (apply Rmult_le_pos; lra).
  assert (eps * xx * (eps * xx) < xa * xa) by (apply Rmult_le_0_lt_compat; auto).
  assert (Pe : 0 < eps * eps) by (apply Rmult_lt_0_compat; auto).
  assert (Q3 : eps * eps * (xx * xx) < eps * eps * xx) by lra. apply Rmult_lt_reg_l in Q3; [|auto]. nra.
Qed.

Lemma diag_pos n c a i : definite n c a -> (i < n)%nat -> c < a i i.
Proof.
  intros D Hi. specialize (D (rid i)).
  assert (E1 : rdot n (rid i) (rid i) = 1).
  { unfold rdot, rid. rewrite (Rsum_ext n _ (fun t => if (t =? i)%nat then 1 else 0)). rewrite (Rsum_pick n i (fun _ => 1)); auto.
    intros t Ht. destruct (Nat.eqb_spec i t), (Nat.eqb_spec t i); try lia; ring. }
  assert (E2 : rdot n (rid i) (rmv n a (rid i)) = a i i).
  { unfold rdot, rid. rewrite (Rsum_ext n _ (fun t => if (t =? i)%nat then rmv n a (rid i) t else 0)).
    - rewrite Rsum_pick by auto. unfold rmv, rid. rewrite (Rsum_ext n _ (fun t => if (t =? i)%nat then a i t else 0)). apply Rsum_pick; auto.
      intros t Ht. destruct (Nat.eqb_spec i t), (Nat.eqb_spec t i); try lia; ring.
    - intros t Ht. change (fun j => if (i =? j)%nat then 1 else 0) with (rid i). destruct (Nat.eqb_spec i t), (Nat.eqb_spec t i); try lia; ring. }
  rewrite E1, E2 in D. lra.
Qed.

(** the residual of a column is the norm of the off-diagonal part of the column of V^T A V *)
Lemma residual_off n a v l j : orth n v -> (j < n)%nat -> l j = rconj n v a j j ->
  residual n a v l j = sqrt (Rsum n (fun i => if (i =? j)%nat then 0 else rconj n v a i j * rconj n v a i j)).
Proof.
  intros O Hj El. unfold residual, rnorm. f_equal. set (b := rconj n v a) in *.
  assert (E : forall i, (i < n)%nat -> rmv n a (fun t => v t j) i - l j * v i j = rmv n v (fun t => if (t =? j)%nat then 0 else b t j) i).
  { intros i Hi.
    assert (E1 : rmv n a (fun t => v t j) i = rmul n v b i j).
    { unfold b, rconj. rewrite <- rmul_assoc. rewrite (rmul_ext n (rmul n v (rtr v)) rid (rmul n a v) (rmul n a v) i j); [|intros t Ht; apply orth_rows; auto|auto].
      rewrite rmul_id_l by auto. reflexivity. }
    rewrite E1. unfold rmv, rmul. rewrite (Rsum_upd n j (fun t => v i t) (fun t => b t j)) by auto. rewrite El. ring. }
  rewrite (rdot_ext n _ _ (rmv n v (fun t => if (t =? j)%nat then 0 else b t j)) (rmv n v (fun t => if (t =? j)%nat then 0 else b t j))) by auto.
  rewrite orth_norm by auto. apply Rsum_ext. intros i Hi. destruct (i =? j)%nat; ring.
Qed.

(** ** the stopping test over the reals *)
Definition flush_r (x : R) : R := if Rle_bool x eps then 0 else x.
Lemma fnorm_r n x : fnorm (A := RX) n (fun i => Some (x i)) = Some (flush_r (sqrt (Rsum n (fun i => x i * x i)))).
Proof.
  unfold fnorm. rewrite (P_Eig.fsum_ext (A := RX) n _ (fun i => Some (x i * x i))) by reflexivity. rewrite fsum_RX.
  cbn [fsqrt RX rx_sqrt]. rewrite Rlt_bool_false by apply Rsum_sq. rewrite eps_RX. cbn [fleb RX rxcmp]. unfold flush_r.
  destruct (Rle_bool _ eps); [apply f0_RX|reflexivity].
Qed.
Lemma test_r n (x p : nat -> R) nd nv : nd = sqrt (Rsum n (fun i => (x i - p i) * (x i - p i))) -> nv = sqrt (Rsum n (fun i => x i * x i)) -> eps < nv ->
  fltb (Arith := RX) (fdiv (Arith := RX) (fnorm n (fun i => fsub (Arith := RX) (Some (x i)) (Some (p i)))) (fnorm (A := RX) n (fun i => Some (x i)))) (EPSILON (A := RX))
    = Rlt_bool (flush_r nd / nv) eps.
Proof.
  intros -> -> H. rewrite (fnorm_ext (A := RX) n (fun i => fsub (Arith := RX) (Some (x i)) (Some (p i))) (fun i => Some (x i - p i))) by reflexivity.
  rewrite !fnorm_r. rewrite eps_RX. pose proof eps_pos.
  replace (flush_r (sqrt (Rsum n (fun i => x i * x i)))) with (sqrt (Rsum n (fun i => x i * x i))) by (unfold flush_r; rewrite Rle_bool_false by auto; auto).
  cbn [fdiv RX rx_div]. rewrite Req_bool_false by lra. reflexivity.
Qed.

(** ** one iteration *)
Lemma wp_step_c ck n s b v p : mat_r (eg_a s) n n b -> mat_r (eg_vectors s) n n v ->
  vec_is (A := RX) (eg_values s) n (fun _ => f0) -> vec_r (eg_prev s) n p -> ~ near_singular n b ->
  wp (eig_step (A := RX) ck n false) s (fun go s' => exists q, orth n q /\ upper n (rmul n (rtr q) b) /\
     mat_r (eg_a s') n n (rconj n q b) /\ mat_r (eg_vectors s') n n (rmul n v q) /\
     (if go then vec_is (A := RX) (eg_values s') n (fun _ => f0) /\ vec_r (eg_prev s') n (fun i => rconj n q b i i)
      else vec_r (eg_values s') n (fun i => rconj n q b i i)) /\
     fltb (Arith := RX) (fdiv (Arith := RX) (fnorm n (fun i => fsub (Arith := RX) (Some (rconj n q b i i)) (Some (p i)))) (fnorm (A := RX) n (fun i => Some (rconj n q b i i)))) (EPSILON (A := RX)) = negb go)
   (fun _ _ => False) False.
Proof.
  intros Ha Hv Hw Hp NS. destruct (mat_is_dim _ _ _ _ Ha) as [Dn _]. rewrite eig_step_unfold.
  apply wp_bind, wp_lift. destruct (m_init_new (A := RX) n n Dn Dn) as (m0 & E0 & H0). unfold exec. rewrite E0. cbn [rwp].
  apply wp_bind. cbn beta iota.
  destruct (l_qr _ n b Ha) as (mq & mr & q & r & EQ & Hmq & Hmr & Er & D).
  destruct D as [(Oq & Ur & _)|D]; [|contradiction].
  eapply wp_conseq; [apply (wp_plain n s _ Ha)| | |auto].
  - intros [a' q'] s' (-> & g & h & (qt & rt & EQ' & Hg & Hh & Hq') & H2). cbn [fst snd] in *. rewrite EQ in EQ'. injection EQ' as <- <-.
    destruct (mat_is_fun _ _ _ _ _ _ _ Hg Hmq) as (_ & _ & Eg). destruct (mat_is_fun _ _ _ _ _ _ _ Hh Hmr) as (_ & _ & Eh).
    assert (Hq : mat_r q' n n q) by exact (mat_r_same _ _ _ _ _ Hg Hq' Hmq).
    assert (Ha' : mat_r a' n n (rconj n q b)).
    { eapply mat_is_ext; [exact H2|]. intros i j Hi Hj. cbv beta. rewrite (fsum_mul_r n h g r q) by auto. f_equal.
      unfold rconj. rewrite <- rmul_assoc. apply rmul_ext; [|auto]. intros t Ht. apply Er; auto. }
    eapply wp_conseq; [apply (wp_tail n a' q' s _ _ _ _ _ Ha' Hq Hv Hw Hp)| | |auto].
    + intros go s' (E1 & H3 & _ & H4). exists q. conjs; auto.
      * intros i j Hi Hj L. rewrite <- Er by auto. apply Ur; auto.
      * rewrite E1. exact Ha'.
      * eapply mat_is_ext; [exact H3|]. intros i j Hi Hj. cbv beta. apply (fsum_mul_r n (fun i j => Some (v i j)) (fun i j => Some (q i j)) v q); auto.
      * destruct go; [|apply H4]. destruct H4 as (H4 & H5 & _). split; [exact H4|exact H5].
      * destruct go; [|apply H4]. apply H4.
    + intros e t (_ & N). exfalso. apply N. split.
      * intros i j k Hi Hj Hk. rewrite (fsum_mul_r n (fun i j => Some (v i j)) (fun i j => Some (q i j)) v q) by auto. apply valid_RX.
      * intros i Hi. apply valid_RX.
  - intros e t (_ & [(e' & E)|(q0 & g & h & FQ & N)]); [congruence|].
    destruct (from_qr_r n _ _ g h _ FQ Ha) as (fq & Hq & Eg & Eh & _). apply N. intros i j k Hi Hj Hk.
    rewrite (fsum_mul_r n h g _ _ Eh Eg) by auto. apply valid_RX.
Qed.

(** ** numbers *)
Definition phi n b := Rsum n (fun k => ptr k b).
Lemma ptr_nonneg k n c b : 0 <= c -> definite n c b -> (k <= n)%nat -> 0 <= ptr k b.
Proof. intros Hc D Hk. apply Rsum_nonneg. intros i Hi. pose proof (diag_pos n c b i D ltac:(lia)). lra. Qed.
Lemma phi_le n c b : 0 <= c -> definite n c b -> (1 <= n)%nat -> phi n b <= INR (n - 1) * trace n b.
Proof.
  intros Hc D Hn. unfold phi. replace n with (S (n - 1)) at 1 by lia.
  assert (T : forall k, (k < n)%nat -> ptr k b <= trace n b).
  { intros k Hk. apply Rsum_mono; [lia|]. intros i Hi. pose proof (diag_pos n c b i D Hi). lra. }
  rewrite (Rsum_cut (S (n - 1)) 1) by lia. replace (S (n - 1) - 1)%nat with (n - 1)%nat by lia. cbn [Rsum ptr]. rewrite !Rplus_0_l.
  rewrite <- Rsum_const. apply Rsum_le. intros i Hi. apply T. lia.
Qed.
Lemma diag_norm n b tr : (n <= 4)%nat -> tr = trace n b -> (forall i, (i < n)%nat -> 0 <= b i i) ->
  let nv := sqrt (Rsum n (fun i => b i i * b i i)) in tr / 2 <= nv <= tr.
Proof.
  intros Hn -> P nv. unfold trace. set (t := Rsum n (fun i => b i i)). set (q := Rsum n (fun i => b i i * b i i)) in *.
  assert (Pt : 0 <= t) by (apply Rsum_nonneg; auto). assert (Pq : 0 <= q) by apply (Rsum_sq n (fun i => b i i)).
  assert (C : t * t <= 4 * q).
  { pose proof (cauchy n (fun _ => 1) (fun i => b i i)) as C. cbv beta in C. rewrite Rsum_const in C.
    rewrite (Rsum_ext n (fun i => 1 * b i i) (fun i => b i i)) in C by (intros; ring). fold t q in C.
    assert (INR n <= 4) by (replace 4 with (INR 4) by (cbn; ring); apply le_INR; auto). nra. }
  assert (C2 : q <= t * t).
  { unfold q. eapply Rle_trans; [apply Rsum_le with (h := fun i => t * b i i)|rewrite Rsum_scal; unfold t; lra].
    intros i Hi. apply Rmult_le_compat_r; [auto|]. apply (Rsum_term n i (fun i => b i i)); auto. }
  unfold nv. pose proof (sqrt_pos q). pose proof (sqrt_sqrt q Pq). split; nra.
Qed.
Lemma conj_trace n w a : orth n w -> trace n (rconj n w a) = trace n a.
Proof. intros O. apply rconj_trace; auto. Qed.

(** what one step does to the partial traces, and what the stopping test says about them *)
Lemma step_facts n b q tr (nd := sqrt (Rsum n (fun i => (rconj n q b i i - b i i) * (rconj n q b i i - b i i)))) :
  (1 <= n <= 4)%nat -> sym n b -> definite n eps b -> orth n q -> upper n (rmul n (rtr q) b) -> tr = trace n b ->
  0 <= nd /\
  (forall j, (j < n)%nat -> Rsum n (fun i => if (i =? j)%nat then 0 else rconj n q b i j * rconj n q b i j) <= nd * tr) /\
  nd * nd <= 2 * ((phi n (rconj n q b) - phi n b) * (phi n (rconj n q b) - phi n b)) /\
  phi n b <= phi n (rconj n q b).
Proof.
  intros Hn Sb Db Oq Ur Etr. pose proof eps_pos as EP.
  destruct (qr_step n b q Sb (definite_posdef n eps b ltac:(lra) Db) Oq Ur) as (w & Uw & Ew & Hk).
  set (b' := rconj n q b) in *. set (d := fun i => b' i i - b i i).
  assert (Dk : forall k, ptr k b' - ptr k b = Rsum k d).
  { intros k. unfold ptr. rewrite (Rsum_ext k d (fun i => b' i i + (-1) * b i i)) by (intros; unfold d; ring). rewrite Rsum_plus, Rsum_scal. ring. }
  assert (Z : Rsum n d = 0).
  { rewrite <- Dk. change (ptr n b') with (trace n b'). change (ptr n b) with (trace n b). unfold b'. rewrite conj_trace by auto. ring. }
  assert (Pk : forall k, (k <= n)%nat -> 0 <= Rsum k d).
  { intros k Hk'. rewrite <- Dk. eapply Rle_trans; [apply (outer_nonneg n k w)|apply Hk; auto]. }
  assert (Ph : phi n b' - phi n b = Rsum n (fun k => Rsum k d)).
  { unfold phi. rewrite (Rsum_ext n (fun k => Rsum k d) (fun k => ptr k b' + (-1) * ptr k b)) by (intros; rewrite <- Dk; ring). rewrite Rsum_plus, Rsum_scal. ring. }
  assert (S0 : 0 <= Rsum n (fun i => d i * d i)) by apply Rsum_sq.
  assert (End : nd * nd = Rsum n (fun i => d i * d i)) by (unfold nd, d; apply sqrt_sqrt; exact S0).
  assert (Pd : 0 <= nd) by apply sqrt_pos.
  conjs; auto.
  - intros j Hj.
    assert (E1 : Rsum n (fun i => if (i =? j)%nat then 0 else b' i j * b' i j) = Rsum n (fun i => if (i =? j)%nat then 0 else rmul n w (rtr w) i j * rmul n w (rtr w) i j)).
    { apply Rsum_ext. intros i Hi. rewrite (Ew i j) by auto. auto. }
    rewrite E1. eapply Rle_trans; [apply (offdiag n w j nd Uw Hj)|].
    + intros k Hk'. eapply Rle_trans; [apply Hk; auto|]. rewrite Dk. apply (partial_norm n k d nd); auto; [lia|lra].
    + apply Rmult_le_compat_l; [auto|]. apply Req_le. rewrite Etr, <- (conj_trace n q b Oq). apply ptr_ext. intros i Hi. symmetry. apply Ew; auto.
  - rewrite End, Ph. apply (norm_by_partial n d Pk Z).
  - enough (0 <= Rsum n (fun k => Rsum k d)) by lra. apply Rsum_nonneg. intros; apply Pk; lia.
Qed.

Lemma eigen_core ck niter m n a (tr := trace n a) :
  mat_r m n n a -> sym n a -> definite n eps a ->
  exists vals vecs v l, eigen ck m niter false = Ok (vals, vecs) /\ mat_r vecs n n v /\ vec_r vals n l /\ orth n v /\
    (((forall i, (i < n)%nat -> l i = 0) /\ (niter = 0%nat \/ phi n a + INR (niter - 1) * (707 / 2000 * (eps * tr)) <= INR (n - 1) * tr)) \/
     ((forall i, (i < n)%nat -> l i = rconj n v a i i) /\ eigenpairs n a v l)).
Proof.
  intros Hm Sa Da. destruct (eig_start n m _ Hm) as (s0 & E & Ha & Hv & Hw & Hp). rewrite E. pose proof eps_pos as EP.
  destruct (mat_is_dim _ _ _ _ Hm) as [Dn _].
  assert (Ptr : eps <= tr).
  { apply Rle_trans with (a 0%nat 0%nat); [left; apply (diag_pos n eps a 0 Da); lia|]. apply (Rsum_term n 0 (fun i => a i i)); [lia|].
    intros i Hi. pose proof (diag_pos n eps a i Da Hi). lra. }
  set (dl := 707 / 2000 * (eps * tr)). assert (Pdl : 0 <= dl) by (unfold dl; nra).
  assert (W : rwp (exec (for_break (range 0 niter) (fun _ => eig_step ck n false)) s0)
     (fun s => exists v l, mat_r (eg_vectors s) n n v /\ vec_r (eg_values s) n l /\ orth n v /\
       (((forall i, (i < n)%nat -> l i = 0) /\ (niter = 0%nat \/ phi n a + INR (niter - 1) * dl <= INR (n - 1) * tr)) \/
        ((forall i, (i < n)%nat -> l i = rconj n v a i i) /\ eigenpairs n a v l)))
     (fun _ => False) False).
  { apply wp_exec. apply wp_for_break with (I := fun k s => exists b v p, mat_r (eg_a s) n n b /\ mat_r (eg_vectors s) n n v /\
        vec_is (A := RX) (eg_values s) n (fun _ => f0) /\ vec_r (eg_prev s) n p /\ orth n v /\ req n n b (rconj n v a) /\ phi n a <= phi n b /\
        ((k = 0%nat /\ (forall i, (i < n)%nat -> p i = 0)) \/
         ((1 <= k)%nat /\ (forall i, (i < n)%nat -> p i = b i i) /\ phi n a + INR (k - 1) * dl <= phi n b))).
    - exists a, rid, (fun _ => 0). conjs; auto.
      + eapply mat_is_ext; [exact Hv|]. intros i j Hi Hj. unfold rid. destruct (i =? j)%nat; [apply f1_RX|apply f0_RX].
      + eapply vec_is_ext; [exact Hp|]. intros i Hi. apply f0_RX.
      + apply orth_id.
      + intros i j Hi Hj. symmetry. apply rconj_id; auto.
      + lra.
    - intros k s Hk (b & v & p & Hb & Hvv & Hvals & Hpp & Ov & Eb & Hphi & Cs).
      assert (Eb' : req n n (rconj n v a) b) by (intros i j Hi Hj; symmetry; apply Eb; auto).
      assert (Sb : sym n b) by (apply (sym_ext n (rconj n v a)); [auto|apply conj_sym; auto]).
      assert (Db : definite n eps b) by (apply (definite_ext n eps (rconj n v a)); [auto|apply conj_definite; auto]).
      assert (Tb : tr = trace n b).
      { unfold tr. rewrite <- (conj_trace n v a Ov). apply ptr_ext. intros i Hi. apply Eb'; auto. }
      eapply wp_conseq; [apply (wp_step_c ck n s b v p Hb Hvv Hvals Hpp (definite_regular n b Db))| |auto|auto].
      intros go s' (q & Oq & Ur & H1 & H2 & H3 & Tst).
      assert (Ob : orth n (rmul n v q)) by (apply orth_mul; auto).
      assert (Ebq : req n n (rconj n q b) (rconj n (rmul n v q) a)).
      { intros i0 j0 Hi0 Hj0. rewrite rconj_mul by auto. unfold rconj at 1 2. apply rmul_ext; [auto|]. intros t Ht. apply rmul_ext; [|auto]. intros u Hu. apply Eb; auto. }
      assert (Dbq : definite n eps (rconj n q b)) by (apply conj_definite; auto).
      assert (Tbq : tr = trace n (rconj n q b)) by (rewrite conj_trace; auto).
      destruct (diag_norm n (rconj n q b) tr ltac:(lia) Tbq) as (N1 & N2).
      { intros i Hi. pose proof (diag_pos n eps _ i Dbq Hi). lra. }
      set (nv := sqrt (Rsum n (fun i => rconj n q b i i * rconj n q b i i))) in *.
      assert (Pnv : eps < nv).
      { unfold nv. rewrite <- (sqrt_square eps) by lra. apply sqrt_lt_1_alt. split; [nra|].
        apply Rlt_le_trans with (rconj n q b 0%nat 0%nat * rconj n q b 0%nat 0%nat).
        - pose proof (diag_pos n eps _ 0 Dbq ltac:(lia)). apply Rmult_le_0_lt_compat; lra.
        - apply (Rsum_term n 0 (fun i => rconj n q b i i * rconj n q b i i)); [lia|]. intros i Hi. apply Rle_0_sqr. }
      destruct (step_facts n b q tr ltac:(lia) Sb Db Oq Ur Tb) as (Pnd & Off & Grow & Mono).
      rewrite (test_r n (fun i => rconj n q b i i) p _ nv eq_refl eq_refl Pnv) in Tst.
      destruct Cs as [(-> & Z)|(Hk1 & Ep & Hg)].
      + (* the first iteration never stops *)
        assert (En : sqrt (Rsum n (fun i => (rconj n q b i i - p i) * (rconj n q b i i - p i))) = nv).
        { unfold nv. f_equal. apply Rsum_ext. intros i Hi. rewrite Z by auto. ring. }
        rewrite En in Tst. unfold flush_r in Tst. rewrite Rle_bool_false in Tst by auto.
        unfold Rdiv in Tst. rewrite Rinv_r in Tst by lra. rewrite Rlt_bool_false in Tst by (unfold eps; lra).
        destruct go; [|discriminate]. destruct H3 as (H3 & H4).
        exists (rconj n q b), (rmul n v q), (fun i => rconj n q b i i). conjs; auto; [lra|]. right. conjs; auto. cbn [INR Nat.sub]. lra.
      + assert (En : sqrt (Rsum n (fun i => (rconj n q b i i - p i) * (rconj n q b i i - p i))) = sqrt (Rsum n (fun i => (rconj n q b i i - b i i) * (rconj n q b i i - b i i)))).
        { f_equal. apply Rsum_ext. intros i Hi. rewrite Ep by auto. ring. }
        rewrite En in Tst. set (nd := sqrt (Rsum n (fun i => (rconj n q b i i - b i i) * (rconj n q b i i - b i i)))) in *.
        destruct go.
        * destruct H3 as (H3 & H4). exists (rconj n q b), (rmul n v q), (fun i => rconj n q b i i). conjs; auto; try lra. right. split; [lia|]. split; [auto|].
          cbn [negb] in Tst.
          assert (Big : eps * (tr / 2) <= nd).
          { unfold flush_r in Tst. destruct (Rle_bool_spec nd eps) as [L|L].
            - unfold Rdiv in Tst. rewrite Rmult_0_l in Tst. rewrite Rlt_bool_true in Tst by auto. discriminate.
            - destruct (Rlt_bool_spec (nd / nv) eps) as [T|T]; [discriminate|].
              assert (eps * nv <= nd).
              { replace nd with (nd / nv * nv) by (field; lra). apply Rmult_le_compat_r; lra. }
              nra. }
          assert (G : dl <= phi n (rconj n q b) - phi n b).
          { set (g := phi n (rconj n q b) - phi n b) in *. assert (Pg : 0 <= g) by (unfold g; lra).
            assert (Q : eps * (tr / 2) * (eps * (tr / 2)) <= 2 * (g * g)) by (assert (0 <= eps * (tr / 2)) by nra; nra).
            unfold dl. set (y := eps * tr) in *. assert (0 <= y) by (unfold y; nra).
            replace (eps * (tr / 2) * (eps * (tr / 2))) with (y * y / 4) in Q by (unfold y; field).
            apply Rsqr_incr_0_var; [|auto]. unfold Rsqr. nra. }
          replace (S k - 1)%nat with (S (k - 1)) by lia. rewrite S_INR. lra.
        * exists (rmul n v q), (fun i => rconj n q b i i). conjs; auto. right. split; [intros i Hi; apply Ebq; auto|].
          cbn [negb] in Tst.
          assert (Small : nd <= eps * Rmax 1 tr).
          { unfold flush_r in Tst. destruct (Rle_bool_spec nd eps) as [L|L].
            - pose proof (Rmax_l 1 tr). nra.
            - destruct (Rlt_bool_spec (nd / nv) eps) as [T|T]; [|discriminate].
              assert (nd <= eps * nv).
              { replace nd with (nd / nv * nv) by (field; lra). apply Rmult_le_compat_r; lra. }
              pose proof (Rmax_r 1 tr). nra. }
          intros j Hj. rewrite (residual_off n a (rmul n v q) (fun i => rconj n q b i i) j Ob Hj (Ebq j j Hj Hj)).
          apply sqrt_le_1_alt. fold tr.
          rewrite (Rsum_ext n _ (fun i => if (i =? j)%nat then 0 else rconj n q b i j * rconj n q b i j)) by (intros i Hi; rewrite (Ebq i j) by auto; auto).
          eapply Rle_trans; [apply Off; auto|]. replace (eps * tr * Rmax 1 tr) with (eps * Rmax 1 tr * tr) by ring. apply Rmult_le_compat_r; lra.
    - intros s (b & v & p & Hb & Hvv & Hvals & Hpp & Ov & Eb & Hphi & Cs). exists v, (fun _ => 0). conjs; auto.
      + eapply vec_is_ext; [exact Hvals|]. intros i Hi. apply f0_RX.
      + left. split; auto. rewrite Nat.max_0_l in Cs. destruct Cs as [(-> & _)|(_ & _ & Hg)]; [auto|right].
        eapply Rle_trans; [exact Hg|]. unfold tr. rewrite <- (conj_trace n v a Ov).
        assert (Eb' : req n n (rconj n v a) b) by (intros i j Hi Hj; symmetry; apply Eb; auto).
        assert (Tb : trace n b = trace n (rconj n v a)) by (apply ptr_ext; intros i Hi; apply Eb; auto). rewrite <- Tb.
        apply (phi_le n eps b ltac:(lra)); [|lia]. apply (definite_ext n eps (rconj n v a)); [auto|apply conj_definite; auto]. }
  destruct (exec _ s0) as [s|e|]; cbn [rwp rbind] in *; [|tauto|tauto].
  destruct W as (v & l & H1 & H2 & O & D). exists (eg_values s), (eg_vectors s), v, l. conjs; auto.
Qed.

(*@ C65_accurate *)
(** C65: for a symmetric matrix whose eigenvalues all exceed EPSILON, unshifted [eigen] succeeds with an orthogonal
    matrix V, and the eigenvalues it returns are either all zero (the budget ran out) or add up to the trace and pair
    with the columns of V up to the residual sqrt(EPSILON tr max(1, tr)) *)
Lemma l_eig_accurate :
  forall (ck : bool) (niter : nat) (m : Mat (T (Arith := RX))) (n : nat) (a : nat -> nat -> R),
  mat_r m n n a -> symmetric n a -> definite n eps a ->
  exists vals vecs v l, eigen ck m niter false = Ok (vals, vecs) /\ mat_r vecs n n v /\ vec_r vals n l /\
    orth n v /\ orth n (rtr v) /\
    ((forall i, (i < n)%nat -> l i = 0) \/ (eigenpairs n a v l /\ Rsum n l = trace n a)).
Proof.
  intros ck niter m n a Hm Sa Da. destruct (eigen_core ck niter m n a Hm Sa Da) as (vals & vecs & v & l & E & H1 & H2 & O & D).
  exists vals, vecs, v, l. conjs; auto; [apply orth_tr; auto|].
  destruct D as [(D & _)|(D & P)]; [auto|right]. split; auto. rewrite <- (conj_trace n v a O). apply Rsum_ext; auto.
Qed.

(*@ C65_converges *)
(** C65: and a budget of 65500 iterations (niter is a u16) is always enough for 1 x 1, 2 x 2 and 3 x 3 matrices, and
    for 4 x 4 matrices unless the diagonal is concentrated in the lower corner *)
Lemma l_eig_converges :
  forall (ck : bool) (niter : nat) (m : Mat (T (Arith := RX))) (n : nat) (a : nat -> nat -> R),
  mat_r m n n a -> symmetric n a -> definite n eps a -> (65500 <= Z.of_nat niter)%Z ->
  (n = 4%nat -> 7 / 10 * trace 4 a <= 3 * a 0%nat 0%nat + 2 * a 1%nat 1%nat + a 2%nat 2%nat) ->
  exists vals vecs v l, eigen ck m niter false = Ok (vals, vecs) /\ mat_r vecs n n v /\ vec_r vals n l /\
    orth n v /\ orth n (rtr v) /\ eigenpairs n a v l /\ Rsum n l = trace n a.
Proof.
  intros ck niter m n a Hm Sa Da Hn H4. destruct (eigen_core ck niter m n a Hm Sa Da) as (vals & vecs & v & l & E & H1 & H2 & O & D).
  destruct D as [(_ & [D|D])|(D & P)].
  - exfalso. lia.
  - exfalso. destruct (mat_is_dim _ _ _ _ Hm) as [Dn _]. set (tr := trace n a) in *.
    assert (Ptr : 0 < tr).
    { pose proof eps_pos. apply Rlt_le_trans with (a 0%nat 0%nat); [pose proof (diag_pos n eps a 0 Da ltac:(lia)); lra|].
      apply (Rsum_term n 0 (fun i => a i i)); [lia|]. intros i Hi. pose proof (diag_pos n eps a i Da Hi). lra. }
    assert (K : 65499 <= INR (niter - 1)).
    { rewrite INR_IZR_INZ. apply IZR_le. lia. }
    assert (Ph : 0 <= phi n a).
    { pose proof eps_pos. apply Rsum_nonneg. intros k Hk. apply (ptr_nonneg k n eps); auto; [lra|lia]. }
    assert (Q : 65499 * (707 / 2000 * (eps * tr)) <= INR (niter - 1) * (707 / 2000 * (eps * tr))).
    { apply Rmult_le_compat_r; [|auto]. unfold eps. lra. }
    unfold eps in Q at 1.
    assert (Cs : (n <= 3)%nat \/ n = 4%nat) by lia. destruct Cs as [Cs| ->].
    + assert (INR (n - 1) <= 2) by (replace 2 with (INR 2) by (cbn; ring); apply le_INR; lia). nra.
    + specialize (H4 eq_refl). unfold phi, ptr in *. cbn [Rsum INR Nat.sub] in *. fold tr in H4. lra.
  - exists vals, vecs, v, l. conjs; auto; [apply orth_tr; auto|]. rewrite <- (conj_trace n v a O). apply Rsum_ext; auto.
Qed.

(** for matrices of small entries the first change at most EPSILON in absolute value stops the iteration *)
Lemma B2R_of (x : f32) s : B2SF x = s -> B2R x = SF2R radix2 s.
Proof. intros <-. symmetry. apply SF2R_B2SF. Qed.
Lemma first_value (r : res LinalgError (Vec f32 * Mat f32)) s : obs (let? p := r in v_get (fst p) 0) = Ok s ->
  exists vals vecs x, r = Ok (vals, vecs) /\ v_get vals 0 = Ok x /\ B2SF x = s.
Proof.
  destruct r as [[vals vecs]|e|]; try discriminate. cbn [rbind fst]. destruct (v_get vals 0) as [x|e|] eqn:E; try discriminate.
  intros H. exists vals, vecs, x. injection H as H. auto.
Qed.
Definition small_m (lm : Libm) := mk_mat (A := F32 lm) 2 2 [lit32 128 1048576; lit32 10 1048576; lit32 10 1048576; lit32 512 1048576].
Definition small_r (i j : nat) : R := (match i, j with O, O => 128 | S O, S O => 512 | _, _ => 10 end) / 1048576.

(*@ C65_small_refuted *)
(** C65, violation, in binary32: the first eigenvalue returned for the symmetric matrix [[128, 10], [10, 512]] / 2^20,
    whose eigenvalues exceed EPSILON, is off by more than 40%, since the change of the diagonal is flushed to zero below EPSILON *)
Lemma l_eig_small :
  forall (lm : Libm), exists (m vecs : Mat (T (Arith := F32 lm))) (vals : Vec (T (Arith := F32 lm))) (f : nat -> nat -> f32) (x : f32),
  mat_is (A := F32 lm) m 2 2 f /\ let a := fun i j => B2R (f i j) in symmetric 2 a /\ definite 2 eps a /\
  eigen (A := F32 lm) true m 100 false = Ok (vals, vecs) /\ v_get vals 0 = Ok x /\
  forall mu y, 0 < rdot 2 y y -> (forall i, (i < 2)%nat -> rmv 2 a y i = mu * y i) -> 2 / 5 * mu < Rabs (B2R x - mu).
Proof.
  intros lm.
  assert (W : wfm (A := F32 lm) (small_m lm)) by (apply wfm_b_ok; vm_compute; reflexivity).
  pose proof (mat_is_of (A := F32 lm) (small_m lm) W eq_refl) as Hm.
  set (f := mat_of (A := F32 lm) (small_m lm)) in *.
  assert (F : forall i j, (i < 2)%nat -> (j < 2)%nat -> B2R (f i j : f32) = small_r i j).
  { assert (F00 : B2SF (f 0 0 : f32)%nat = S754_finite false 8388608 (-36)) by (vm_compute; reflexivity).
    assert (F01 : B2SF (f 0 1 : f32)%nat = S754_finite false 10485760 (-40)) by (vm_compute; reflexivity).
    assert (F10 : B2SF (f 1 0 : f32)%nat = S754_finite false 10485760 (-40)) by (vm_compute; reflexivity).
    assert (F11 : B2SF (f 1 1 : f32)%nat = S754_finite false 8388608 (-34)) by (vm_compute; reflexivity).
    clearbody f. apply B2R_of in F00, F01, F10, F11. cbn [SF2R cond_Zopp] in *. unfold F2R in *. cbn [Fnum Fexp bpow] in *.
    change (Z.pow_pos radix2 36) with 68719476736%Z in *. change (Z.pow_pos radix2 40) with 1099511627776%Z in *. change (Z.pow_pos radix2 34) with 17179869184%Z in *.
    intros [|[|i]] [|[|j]] Hi Hj; try lia; [rewrite F00|rewrite F01|rewrite F10|rewrite F11]; unfold small_r; lra. }
  assert (E : obs (let? p := eigen (A := F32 lm) true (small_m lm) 100 false in v_get (fst p) 0) = Ok (S754_finite false 12127452 (-36))) by (vm_compute; reflexivity).
  destruct (first_value _ _ E) as (vals & vecs & x & Eg & Ex & E'). clear E. rename E' into E. apply B2R_of in E. cbn [SF2R cond_Zopp] in E. unfold F2R in E. cbn [Fnum Fexp bpow] in E. change (Z.pow_pos radix2 36) with 68719476736%Z in E.
  exists (small_m lm), vecs, vals, f, x. split; [exact Hm|]. cbv zeta.
  split; [intros i j Hi Hj; rewrite !F by auto; destruct i as [|[|i]], j as [|[|j]]; try lia; reflexivity|].
  split.
  { apply (definite_ext 2 eps small_r); [intros i j Hi Hj; symmetry; apply F; auto|]. intros y Hy. unfold rdot, rmv, small_r, eps in *. cbn [Rsum] in *.
    set (u := y 0%nat) in *. set (v := y 1%nat) in *. clearbody u v. clear - Hy.
    assert (0 < (128 - 1048576 / 10000) * (u * u) + 20 * (u * v) + (512 - 1048576 / 10000) * (v * v)); [|lra].
    assert (Q : 0 <= (u + 10 / 23 * v) * (u + 10 / 23 * v)) by apply Rle_0_sqr. 
    assert (0 <= u * u) by apply Rle_0_sqr. assert (0 <= v * v) by apply Rle_0_sqr. lra. }
  split; [exact Eg|]. split; [exact Ex|]. intros mu y Hy Ey.
  pose proof (Ey 0%nat ltac:(lia)) as E0. pose proof (Ey 1%nat ltac:(lia)) as E1. unfold rmv in E0, E1. cbn [Rsum] in E0, E1. rewrite !F in E0, E1 by lia.
  unfold rdot in Hy. cbn [Rsum] in Hy. unfold small_r in E0, E1. set (u := y 0%nat) in *. set (v := y 1%nat) in *. set (k := mu * 1048576).
  assert (Ek : mu = k / 1048576) by (unfold k; field). rewrite Ek in *. clearbody k.
  assert (A0 : (128 - k) * u + 10 * v = 0) by lra. assert (A1 : 10 * u + (512 - k) * v = 0) by lra.
  assert (P : (128 - k) * (512 - k) - 100 = 0).
  { destruct (Req_dec u 0) as [Zu|Nu]; [destruct (Req_dec v 0) as [Zv|Nv]|].
    - rewrite Zu, Zv in Hy. lra.
    - apply Rmult_eq_reg_r with v; [|auto]. rewrite Rmult_0_l. transitivity ((128 - k) * (10 * u + (512 - k) * v) - 10 * ((128 - k) * u + 10 * v)); [ring|]. rewrite A0, A1. ring.
    - apply Rmult_eq_reg_r with u; [|auto]. rewrite Rmult_0_l. transitivity ((512 - k) * ((128 - k) * u + 10 * v) - 10 * (10 * u + (512 - k) * v)); [ring|]. rewrite A0, A1. ring. }
  rewrite E. assert (Ck : k <= 128 \/ 512 <= k) by nra. destruct Ck as [Ck|Ck].
  - rewrite Rabs_right; lra.
  - rewrite Rabs_left; lra.
Qed.

Lemma eig_example :
  let a := fun i j => if (i =? j)%nat then 2 else 1 in
  mat_r (rmat 4 4 [2; 1; 1; 1; 1; 2; 1; 1; 1; 1; 2; 1; 1; 1; 1; 2]) 4 4 a /\ symmetric 4 a /\ definite 4 eps a /\
  7 / 10 * trace 4 a <= 3 * a 0%nat 0%nat + 2 * a 1%nat 1%nat + a 2%nat 2%nat.
Proof.
  intros a. split; [|split; [|split]].
  - eapply mat_is_ext; [apply rmat_is; cbn; lia|]. intros i j Hi Hj. cbv beta. f_equal.
    destruct i as [|[|[|[|i]]]], j as [|[|[|[|j]]]]; try lia; reflexivity.
  - intros i j Hi Hj. unfold a. rewrite Nat.eqb_sym. reflexivity.
  - intros x Hx. unfold rdot, rmv, a, eps in *. cbn [Rsum Nat.eqb] in *.
    pose proof (Rle_0_sqr (x 0%nat + x 1%nat + x 2%nat + x 3%nat)) as Q. unfold Rsqr in Q. nra.
  - unfold trace, a. cbn [Rsum Nat.eqb]. lra.
Qed.

(*@ example *)
(** the hypotheses are met by the matrix of 2 on the diagonal and 1 elsewhere, of eigenvalues 1, 1, 1 and 5 *)
Example C65_example :
  let a := fun i j => if (i =? j)%nat then 2 else 1 in
  mat_r (rmat 4 4 [2; 1; 1; 1; 1; 2; 1; 1; 1; 1; 2; 1; 1; 1; 1; 2]) 4 4 a /\ symmetric 4 a /\ definite 4 eps a /\
  7 / 10 * trace 4 a <= 3 * a 0%nat 0%nat + 2 * a 1%nat 1%nat + a 2%nat 2%nat.
Proof. exact eig_example. Qed.
