(** C26: the QR iteration for eigenvalues. *)
(*@+*)
From Coq Require Import List Arith ZArith Reals Lia Bool Lra SpecFloat.
From Flocq Require Import Core BinarySingleNaN.
From Verif Require Import M_Base M_Arith M_Utils M_Vector M_Matrix M_F32 M_RX
  S_Spec S_Linalg S_Compare S_Norm S_Lu S_Decomp P_Inst.
Import ListNotations.
Local Open Scope R_scope.
(*@-*)
From Verif Require Import P_Hoare P_Cont P_Loops P_Access P_Pointwise P_Trans P_Float P_Product P_Norm P_Dot P_Compare P_Diag P_Lup P_Det P_Lr P_Qr P_Chol P_So P_Quat P_FErr.

Section Gen.
  Context {A : Arith} {OK : ArithOk A}.
  (** the two halves of an iteration *)
  Definition eig_plain (m : nat) : ST EigSt LinalgError (Mat T * Mat T) :=
    let! a0 := reads (fun s => Ok (eg_a s)) in
    let! (q_tmp, r_tmp) := lift (m_qr_decomp a0) in
    let! q := lift (exec (m_init m m ;;! m_copy_from q_tmp) mnew) in
    let! r := lift (exec (m_init m m ;;! m_copy_from r_tmp) mnew) in
    let! a1 := lift (exec (m_mul r q) a0) in
    sret (a1, q).
  Definition eig_shift (a_ b c : T) : T :=
    let delta := (((a_ - c) / f2) * ((a_ - c) / f2) + b * b)%F in
    (if a_ <? c then c - delta / (fabs b + fsqrt delta) else c + delta / (fabs b + fsqrt delta))%F.
  Definition eig_shifted (ck : bool) (m : nat) (tmp : Mat T) : ST EigSt LinalgError (Mat T * Mat T) :=
    let! m2 := lift (u8_sub ck m 2) in
    let! m2' := lift (u8_sub ck m 2) in
    let! a_ := reads (fun s => m_get (eg_a s) m2 m2') in
    let! b := reads (fun s => m_get (eg_a s) m2 (m - 1)) in
    let! c := reads (fun s => m_get (eg_a s) (m - 1) (m - 1)) in
    let s := eig_shift a_ b c in
    let! i := lift (exec (m_init m m ;;! m_fill_identity ;;! m_mul_by_scalar_in_place s) mnew) in
    let! a0 := reads (fun s => Ok (eg_a s)) in
    let! tmp1 := lift (exec (m_sub a0 i) tmp) in
    let! a1 := lift (exec (m_copy_from tmp1) a0) in
    let! (q_tmp, r_tmp) := lift (m_qr_decomp a1) in
    let! q := lift (exec (m_init m m ;;! m_copy_from q_tmp) mnew) in
    let! r := lift (exec (m_init m m ;;! m_copy_from r_tmp) mnew) in
    let! tmp2 := lift (exec (m_mul r q) tmp1) in
    let! a2 := lift (exec (m_add tmp2 i) a1) in
    lift (exec m_fill_identity i) ;;!
    sret (a2, q).
  Definition eig_tail (m : nat) (aq : Mat T * Mat T) : ST EigSt LinalgError bool :=
    let '(a, q) := aq in
    modify (fun s => mkEig a (eg_vectors s) (eg_values s) (eg_prev s)) ;;!
    let! ev0 := reads (fun s => Ok (eg_vectors s)) in
    let! tmp3 := lift (exec (m_init m m ;;! m_mul ev0 q) mnew) in
    let! ev1 := lift (exec (m_copy_from tmp3) ev0) in
    modify (fun s => mkEig (eg_a s) ev1 (eg_values s) (eg_prev s)) ;;!
    let! vals0 := reads (fun s => Ok (eg_values s)) in
    let! vals := lift (exec (for_ (range 0 m) (fun k =>
                     let! x := lift (m_get a k k) in v_set k x)) vals0) in
    let! prev0 := reads (fun s => Ok (eg_prev s)) in
    let! delta := lift (exec (v_init m ;;! v_sub vals prev0) vnew) in
    let! nd := lift (v_calculate_norm delta) in
    let! nv := lift (v_calculate_norm vals) in
    modify (fun s => mkEig (eg_a s) (eg_vectors s) vals (eg_prev s)) ;;!
    if (nd / nv <? EPSILON)%F then sret false
    else
      let! (vals', prev') := lift (
        exec (for_ (S := Vec T * Vec T) (range 0 m) (fun k =>
          zoom fst (fun v s => (v, snd s)) (v_set k f0) ;;!
          let! x := lift (m_get a k k) in
          zoom snd (fun v s => (fst s, v)) (v_set k x))) (vals, prev0)) in
      modify (fun s => mkEig (eg_a s) (eg_vectors s) vals' prev') ;;!
      sret true.
  Lemma eig_step_unfold ck m sh : eig_step ck m sh =
    (let! tmp := lift (exec (m_init m m) mnew) in
     let! aq := (if sh : bool then eig_shifted ck m tmp else eig_plain m) in eig_tail m aq).
  Proof. reflexivity. Qed.

  Lemma copy_new_ok n m f : mat_is m n n f -> exists m', exec (m_init n n ;;! m_copy_from m) mnew = Ok m' /\ mat_is m' n n f.
  Proof.
    intros Hm. destruct (mat_is_dim _ _ _ _ Hm) as [Dn _]. destruct (m_init_new (A := A) n n Dn Dn) as (m0 & E0 & H0). rewrite (exec_step _ _ _ _ E0).
    destruct (m_copy_from_ok m0 m n n _ _ H0 Hm) as (m1 & E1 & H1). exists m1. unfold exec. rewrite E1. auto.
  Qed.
  Definition mulok (n : nat) (fa fb : nat -> nat -> T) : Prop :=
    forall i j k, (i < n)%nat -> (j < n)%nat -> (k <= n)%nat -> valid (fsum k (fun t => fa i t * fb t j)%F).
  Lemma rwp_mul_in n s a b f fa fb : mat_is s n n f -> mat_is a n n fa -> mat_is b n n fb ->
    rwp (exec (m_mul a b) s) (fun m' => mat_is m' n n (fun i j => fsum n (fun t => fa i t * fb t j)%F)) (fun e => utils_err e /\ ~ mulok n fa fb) False.
  Proof.
    intros Hs Ha Hb. pose proof (l_mul A s a b n n n n n n _ _ _ Hs Ha Hb) as P. rewrite !Nat.eqb_refl in P. cbn [andb] in P.
    unfold exec. destruct (m_mul a b s) as [m' o]. destruct P as [(_ & E & H)|(i & j & k & e & Hi & Hj & Hk & B & _ & _ & E & _)]; cbn [fst snd] in *; subst o; cbn [rwp]; auto.
    split; [exists e; auto|]. intros M. apply bad_Some_not in B. destruct B. apply (M i j (S k)); auto.
  Qed.
  Lemma rwp_pw n f g c s : pointwise_m n n f g (c s) -> rwp (exec c s) (fun m' => mat_is m' n n g) utils_err False.
  Proof.
    intros P. unfold exec. destruct (c s) as [m' o]. destruct P as [(_ & E & H)|(i & j & k & _ & _ & _ & _ & E & _)]; cbn [fst snd] in *; subst o; cbn [rwp]; auto.
    exists k. auto.
  Qed.

  Lemma wp_tail n a q s f g v w p : mat_is a n n f -> mat_is q n n g -> mat_is (eg_vectors s) n n v -> vec_is (eg_values s) n w -> vec_is (eg_prev s) n p ->
    wp (eig_tail n (a, q)) s (fun go s' => eg_a s' = a /\ mat_is (eg_vectors s') n n (fun i j => fsum n (fun t => v i t * g t j)%F) /\
       (forall i, (i < n)%nat -> valid (f i i - p i)%F) /\
       (if go then vec_is (eg_values s') n (fun _ => f0) /\ vec_is (eg_prev s') n (fun i => f i i) /\
          (fnorm n (fun i => f i i - p i) / fnorm n (fun i => f i i) <? EPSILON)%F = false
        else vec_is (eg_values s') n (fun i => f i i) /\
          (fnorm n (fun i => f i i - p i) / fnorm n (fun i => f i i) <? EPSILON)%F = true))
      (fun e _ => utils_err e /\ ~ (mulok n v g /\ forall i, (i < n)%nat -> valid (f i i - p i)%F)) False.
  Proof.
    intros Ha Hq Hv Hw Hp. destruct (mat_is_dim _ _ _ _ Ha) as [Dn _]. unfold eig_tail.
    apply wp_bind, wp_modify. apply wp_bind, wp_reads. cbn [rwp eg_vectors]. apply wp_bind, wp_lift.
    destruct (m_init_new (A := A) n n Dn Dn) as (m0 & E0 & H0). rewrite (exec_step _ _ _ _ E0).
    eapply rwp_conseq; [apply (rwp_mul_in n m0 _ _ _ _ _ H0 Hv Hq)| |intros e (? & ?); tauto|auto]. intros t3 H3.
    apply wp_bind, wp_lift. destruct (m_copy_from_ok _ _ n n _ _ Hv H3) as (ev1 & E1 & H1). unfold exec at 1. rewrite E1. cbn [rwp].
    apply wp_bind, wp_modify. cbn [eg_a eg_vectors eg_values eg_prev]. apply wp_bind, wp_reads. cbn [rwp eg_values].
    apply wp_bind, wp_lift, wp_exec.
    apply wp_for with (I := fun k x => vec_is x n (fun i => if (i <? k)%nat then f i i else w i)).
    { eapply vec_is_ext; [exact Hw|]. intros i Hi. destruct (Nat.ltb_spec i 0); [lia|auto]. }
    { intros k x Hk Hx. apply wp_bind, wp_lift. rewrite (mi_get _ _ _ _ Ha) by lia. cbn [rwp].
      eapply wp_v_set; [exact Hx|lia| |].
      - intros V v' Hv'. eapply vec_is_ext; [exact Hv'|]. intros i Hi. cbv beta. unfold fupd1.
        destruct (Nat.eqb_spec i k), (Nat.ltb_spec i k), (Nat.ltb_spec i (S k)); subst; auto; lia.
      - intros e B. exfalso. apply bad_Some_not in B. destruct B. eapply mat_is_valid; [exact Ha|lia|lia]. }
    rewrite Nat.max_0_l. intros vals Hvals0.
    assert (Hvals : vec_is vals n (fun i => f i i)).
    { eapply vec_is_ext; [exact Hvals0|]. intros i Hi. cbv beta. destruct (Nat.ltb_spec i n); [auto|lia]. }
    clear Hvals0. apply wp_bind, wp_reads. cbn [rwp eg_prev].
    apply wp_bind, wp_lift. destruct (v_init_new (A := A) n Dn) as (v0 & F0 & K0). rewrite (exec_step _ _ _ _ F0).
    assert (P : pointwise_v n (fun _ => f0) (fun i => f i i - p i)%F (v_sub vals (eg_prev s) v0)) by (eapply v_sub_pw; eauto).
    unfold exec at 1. destruct (v_sub vals (eg_prev s) v0) as [dl o].
    destruct P as [(V & E & Hd)|(i & k & Hi & B & _ & E & _)]; cbn [fst snd] in *; subst o; cbn [rwp];
      [|split; [exists k; auto|]; intros (_ & M); apply bad_Some_not in B; destruct B; apply (M i Hi)].
    apply wp_bind, wp_lift. rewrite (v_norm_is _ _ _ Hd). cbn [rwp]. apply wp_bind, wp_lift. rewrite (v_norm_is _ _ _ Hvals). cbn [rwp].
    change (flush (fsqrt (fsum n (fun i => (f i i - p i) * (f i i - p i)))))%F with (fnorm n (fun i => f i i - p i)%F).
    change (flush (fsqrt (fsum n (fun i => f i i * f i i))))%F with (fnorm n (fun i => f i i)).
    apply wp_bind, wp_modify. cbn [eg_a eg_vectors eg_values eg_prev].
    match goal with |- wp (if ?b then _ else _) _ _ _ _ => destruct b eqn:Test end.
    - apply wp_sret. cbn [eg_a eg_vectors eg_values eg_prev]. conjs; auto.
    - apply wp_bind, wp_lift, wp_exec.
      apply wp_for with (I := fun k x => vec_is (fst x) n (fun i => if (i <? k)%nat then f0 else f i i) /\ vec_is (snd x) n (fun i => if (i <? k)%nat then f i i else p i)).
      { cbn [fst snd]. split; [eapply vec_is_ext; [exact Hvals|]|eapply vec_is_ext; [exact Hp|]]; intros i Hi; cbv beta; destruct (Nat.ltb_spec i 0); auto; lia. }
      { intros k x Hk (X1 & X2). apply wp_bind, wp_zoom. eapply wp_v_set; [exact X1|lia| |].
        - intros V1 v' Hv'. apply wp_bind, wp_lift. rewrite (mi_get _ _ _ _ Ha) by lia. cbn [rwp]. apply wp_zoom. cbn [fst snd].
          eapply wp_v_set; [exact X2|lia| |].
          + intros V2 v2 Hv2. cbn [fst snd]. split; [eapply vec_is_ext; [exact Hv'|]|eapply vec_is_ext; [exact Hv2|]]; intros i Hi; cbv beta; unfold fupd1;
              destruct (Nat.eqb_spec i k), (Nat.ltb_spec i k), (Nat.ltb_spec i (S k)); subst; auto; lia.
          + intros e B. exfalso. apply bad_Some_not in B. destruct B. eapply mat_is_valid; [exact Ha|lia|lia].
        - intros e B. exfalso. apply bad_Some_not in B. destruct B. apply ok_f0. }
      rewrite Nat.max_0_l. intros [vals' prev'] (X1 & X2). cbn [fst snd] in *.
      apply wp_bind, wp_modify. apply wp_sret. cbn [eg_a eg_vectors eg_values eg_prev]. conjs; auto.
      + eapply vec_is_ext; [exact X1|]. intros i Hi. cbv beta. destruct (Nat.ltb_spec i n); auto; lia.
      + eapply vec_is_ext; [exact X2|]. intros i Hi. cbv beta. destruct (Nat.ltb_spec i n); auto; lia.
  Qed.
End Gen.

Section Gen2.
  Context {A : Arith} {OK : ArithOk A}.
  Definition from_qr (n : nat) (a1 : Mat T) (q : Mat T) (g h : nat -> nat -> T) : Prop :=
    exists q_tmp r_tmp, m_qr_decomp a1 = Ok (q_tmp, r_tmp) /\ mat_is q_tmp n n g /\ mat_is r_tmp n n h /\ mat_is q n n g.
  Lemma wp_plain n s f : mat_is (eg_a s) n n f ->
    wp (eig_plain n) s (fun p s' => s' = s /\ exists g h, from_qr n (eg_a s) (snd p) g h /\
        mat_is (fst p) n n (fun i j => fsum n (fun t => h i t * g t j)%F))
      (fun e _ => utils_err e /\ ((exists e', m_qr_decomp (eg_a s) = Err e') \/ exists q g h, from_qr n (eg_a s) q g h /\ ~ mulok n h g)) False.
  Proof.
    intros Ha. unfold eig_plain. apply wp_bind, wp_reads. cbn [rwp]. apply wp_bind, wp_lift.
    pose proof (qr_shape _ _ _ _ Ha) as W. destruct (m_qr_decomp (eg_a s)) as [[q_tmp r_tmp]|e|] eqn:EQ; cbn [rwp fst snd] in *; [| |tauto].
    2:{ destruct W as [W|[W _]]; [eauto|lia]. }
    destruct W as (_ & g & h & Hg & Hh). apply wp_bind, wp_lift.
    destruct (copy_new_ok n _ _ Hg) as (q & -> & Hq). cbn [rwp]. apply wp_bind, wp_lift.
    destruct (copy_new_ok n _ _ Hh) as (r & -> & Hr). cbn [rwp]. apply wp_bind, wp_lift.
    eapply rwp_conseq; [apply (rwp_mul_in n _ _ _ _ _ _ Ha Hr Hq)| | |auto].
    2:{ intros e (U & N). split; auto. right. exists q, g, h. split; [|exact N]. exists q_tmp, r_tmp. auto. } intros a1 H1. apply wp_sret. cbn [fst snd].
    split; auto. exists g, h. split; [|exact H1]. exists q_tmp, r_tmp. auto.
  Qed.
  Lemma wp_shifted ck n tmp s f k : mat_is (eg_a s) n n f -> mat_is tmp n n k -> (2 <= n)%nat ->
    let I x := (fun i j : nat => (if (i =? j)%nat then f1 else f0) * x)%F in
    wp (eig_shifted ck n tmp) s (fun p s' => s' = s /\ exists x a1 g h, mat_is a1 n n (fun i j => f i j - I x i j)%F /\ from_qr n a1 (snd p) g h /\
        (forall i j, (i < n)%nat -> (j < n)%nat -> valid (I x i j)) /\
        mat_is (fst p) n n (fun i j => fsum n (fun t => h i t * g t j)%F + I x i j)%F)
      (fun e _ => utils_err e) False.
  Proof.
    intros Ha Ht Hn I. destruct (mat_is_dim _ _ _ _ Ha) as [Dn _]. unfold eig_shifted.
    apply wp_bind, wp_lift. unfold u8_sub. destruct (Nat.leb_spec 2 n); [|lia]. cbn [rwp]. apply wp_bind, wp_lift. cbn [rwp].
    apply wp_bind, wp_reads. rewrite (mi_get _ _ _ _ Ha) by lia. cbn [rwp].
    apply wp_bind, wp_reads. rewrite (mi_get _ _ _ _ Ha) by lia. cbn [rwp].
    apply wp_bind, wp_reads. rewrite (mi_get _ _ _ _ Ha) by lia. cbn [rwp].
    set (x := eig_shift _ _ _). apply wp_bind, wp_lift.
    destruct (m_init_new (A := A) n n Dn Dn) as (m0 & E0 & H0). rewrite (exec_step _ _ _ _ E0).
    pose proof (l_identity A _ m0 n n _ H0) as HI. rewrite Nat.eqb_refl in HI. destruct HI as (mi & Ei & Hi). rewrite (exec_step _ _ _ _ Ei).
    destruct (l_matrix_in_place A mi mi n n _ _ Hi Hi x) as (_ & _ & _ & _ & P & _).
    eapply rwp_conseq; [apply (rwp_pw n _ _ _ _ P)| |auto|auto]. intros im Him.
    apply wp_bind, wp_reads. cbn [rwp]. apply wp_bind, wp_lift.
    destruct (l_matrix_out_of_place A tmp (eg_a s) im n n _ _ _ Ht Ha Him x) as (_ & _ & _ & P1 & _).
    eapply rwp_conseq; [apply (rwp_pw n _ _ _ _ P1)| |auto|auto]. intros t1 Ht1.
    apply wp_bind, wp_lift. destruct (m_copy_from_ok _ _ n n _ _ Ha Ht1) as (a1 & E1 & H1). unfold exec at 1. rewrite E1. cbn [rwp].
    apply wp_bind, wp_lift.
    pose proof (qr_shape _ _ _ _ H1) as W. destruct (m_qr_decomp a1) as [[q_tmp r_tmp]|e|] eqn:EQ; cbn [rwp fst snd] in *; [| |tauto].
    2:{ destruct W as [W|[W _]]; [auto|lia]. }
    destruct W as (_ & g & h & Hg & Hh). apply wp_bind, wp_lift.
    destruct (copy_new_ok n _ _ Hg) as (q & -> & Hq). cbn [rwp]. apply wp_bind, wp_lift.
    destruct (copy_new_ok n _ _ Hh) as (r & -> & Hr). cbn [rwp]. apply wp_bind, wp_lift.
    eapply rwp_conseq; [apply (rwp_mul_in n _ _ _ _ _ _ Ht1 Hr Hq)| |intros e (U & _); exact U|auto]. intros t2 Ht2.
    apply wp_bind, wp_lift.
    destruct (l_matrix_out_of_place A a1 t2 im n n _ _ _ H1 Ht2 Him x) as (_ & _ & P2 & _).
    eapply rwp_conseq; [apply (rwp_pw n _ _ _ _ P2)| |auto|auto]. intros a2 H2.
    apply wp_bind, wp_lift. pose proof (l_identity A _ im n n _ Him) as HI. rewrite Nat.eqb_refl in HI. destruct HI as (mi' & Ei' & _).
    unfold exec at 1. rewrite Ei'. cbn [rwp]. apply wp_sret. cbn [fst snd]. split; auto. exists x, a1, g, h. conjs; auto.
    - exists q_tmp, r_tmp. auto.
    - intros i j Hi' Hj. eapply mat_is_valid; [exact Him|auto|auto].
  Qed.

  (** sizes kept by the iteration; the eigenvalues are zero between iterations *)
  Definition eig_inv (n : nat) (s : EigSt) : Prop :=
    (exists f, mat_is (eg_a s) n n f) /\ (exists v, mat_is (eg_vectors s) n n v) /\ vec_is (eg_values s) n (fun _ => f0) /\ exists p, vec_is (eg_prev s) n p.

  Lemma wp_step_gen ck n sh s : (sh = true -> (2 <= n)%nat) -> eig_inv n s ->
    forall p, vec_is (eg_prev s) n p ->
    wp (eig_step ck n sh) s (fun go s' => (exists v, mat_is (eg_vectors s') n n v) /\
       if go then eig_inv n s'
       else exists f, mat_is (eg_a s') n n f /\ vec_is (eg_values s') n (fun i => f i i) /\
          (fnorm n (fun i => f i i - p i) / fnorm n (fun i => f i i) <? EPSILON)%F = true)
      (fun e _ => utils_err e) False.
  Proof.
    intros Hsh ((f & Ha) & (v & Hv) & Hw & _) p Hp. destruct (mat_is_dim _ _ _ _ Ha) as [Dn _]. rewrite eig_step_unfold.
    apply wp_bind, wp_lift. destruct (m_init_new (A := A) n n Dn Dn) as (m0 & E0 & H0). unfold exec. rewrite E0. cbn [rwp].
    apply wp_bind.
    assert (W : wp (if sh then eig_shifted ck n m0 else eig_plain n) s (fun q s' => s' = s /\ exists f g, mat_is (fst q) n n f /\ mat_is (snd q) n n g) (fun e _ => utils_err e) False).
    { destruct sh.
      - eapply wp_conseq; [apply (wp_shifted ck n m0 s _ _ Ha H0 (Hsh eq_refl))| |auto|auto].
        intros q s' (-> & x & a1 & g & h & _ & (? & ? & _ & _ & _ & Hq) & _ & H1). eauto.
      - eapply wp_conseq; [apply (wp_plain n s _ Ha)| |intros e t (U & _); exact U|auto].
        intros q s' (-> & g & h & (? & ? & _ & _ & _ & Hq) & H1). eauto. }
    eapply wp_conseq; [exact W| |auto|auto]. clear W. intros [a q] s' (-> & f' & g & Ha' & Hq). cbn [fst snd] in *.
    eapply wp_conseq; [apply (wp_tail n a q s _ _ _ _ _ Ha' Hq Hv Hw Hp)| |intros e t (U & _); exact U|auto].
    intros go s' (E1 & H2 & _ & H3). split; [eauto|]. destruct go.
    - destruct H3 as (H3 & H4 & _). split; [rewrite E1; eauto|]. eauto.
    - rewrite E1. exists f'. tauto.
  Qed.

  Lemma eig_start n m f : mat_is m n n f -> exists s0,
    (forall ck niter sh, eigen ck m niter sh = let? s := exec (for_break (range 0 niter) (fun _ => eig_step ck n sh)) s0 in Ok (eg_values s, eg_vectors s)) /\
    mat_is (eg_a s0) n n f /\ mat_is (eg_vectors s0) n n (fun i j => if (i =? j)%nat then f1 else f0) /\ vec_is (eg_values s0) n (fun _ => f0) /\ vec_is (eg_prev s0) n (fun _ => f0).
  Proof.
    intros Hm. destruct (mat_is_dim _ _ _ _ Hm) as [Dn _]. destruct (copy_new_ok n m f Hm) as (a & Ea & Ha).
    destruct (m_init_new (A := A) n n Dn Dn) as (m0 & E0 & H0).
    pose proof (l_identity A _ m0 n n _ H0) as HI. rewrite Nat.eqb_refl in HI. destruct HI as (mi & Ei & Hi).
    destruct (v_init_new (A := A) n Dn) as (v0 & F0 & K0).
    exists (mkEig a mi v0 v0). conjs; auto. intros ck niter sh. unfold eigen. rewrite (m_guard_square_is _ _ _ _ Hm), Nat.eqb_refl. cbn [rbind].
    unfold m_get_rows. rewrite (mi_init _ _ _ _ Hm), (mi_rows _ _ _ _ Hm). cbn [negb rbind]. rewrite Ea. cbn [rbind].
    rewrite (exec_step _ _ _ _ E0). unfold exec at 1. rewrite Ei. cbn [rbind]. unfold exec at 1. rewrite F0. cbn [rbind]. unfold exec at 1. rewrite F0. cbn [rbind].
    reflexivity.
  Qed.
End Gen2.

(*@ C26_outcome *)
(** C26, for every arithmetic (binary32 included): apart from the shifted 1 x 1 case, [eigen] of a square matrix
    never panics and fails only on a non-finite value.  When it succeeds the eigenvalues are either all zero or the
    diagonal of the last iterate, whose relative change passed the test *)
Lemma l_eigen_outcome :
  forall (A : Arith) (OK : ArithOk A) (ck sh : bool) (niter : nat) (m : Mat T) (n : nat) (f : nat -> nat -> T),
  mat_is m n n f -> (sh = true -> (2 <= n)%nat) ->
  (exists vals vecs v, eigen ck m niter sh = Ok (vals, vecs) /\ mat_is vecs n n v /\
     (vec_is vals n (fun _ => f0) \/
      exists p x, vec_is vals n x /\
        (fnorm n (fun i => x i - p i) / fnorm n x <? EPSILON)%F = true))
  \/ (exists u, eigen ck m niter sh = Err (UtilsErr u)).
Proof.
  intros A OK ck sh niter m n f Hm Hsh. destruct (eig_start n m f Hm) as (s0 & E & Ha & Hv & Hw & Hp). rewrite E.
  assert (W : rwp (exec (for_break (range 0 niter) (fun _ => eig_step ck n sh)) s0)
     (fun s => (exists v, mat_is (eg_vectors s) n n v) /\ (vec_is (eg_values s) n (fun _ => f0) \/
        exists p x, vec_is (eg_values s) n x /\
        (fnorm n (fun i => x i - p i) / fnorm n x <? EPSILON)%F = true)) utils_err False).
  { apply wp_exec. apply wp_for_break with (I := fun _ s => eig_inv n s).
    - split; [eauto|]. split; [eauto|]. split; eauto.
    - intros i s Hi HI. pose proof HI as (_ & _ & _ & p & Hp').
      eapply wp_conseq; [apply (wp_step_gen ck n sh s Hsh HI p Hp')| |auto|auto]. intros go s' (V & H). destruct go; [exact H|].
      split; auto. right. destruct H as (g & _ & H1 & H2). exists p, (fun i => g i i). auto.
    - intros s (_ & V & H & _). auto. }
  destruct (exec _ s0) as [s|e|]; cbn [rwp rbind] in *; [| |tauto].
  - left. destruct W as ((v & Hv') & W). exists (eg_values s), (eg_vectors s), v. auto.
  - right. destruct W as (u & ->). eauto.
Qed.

(** the first test never passes: the previous eigenvalues are zero *)
Definition first_fails (A : Arith) : Prop :=
  forall n x, (forall i, (i < n)%nat -> valid (x i)) -> (fnorm n (fun i => x i - f0) / fnorm n x <? EPSILON)%F = false.

Lemma fsum_ext {A : Arith} n (g h : nat -> T) : (forall i, (i < n)%nat -> g i = h i) -> fsum n g = fsum n h.
Proof. intros H. induction n as [|n IH]; cbn [fsum]; [auto|]. rewrite IH, H by auto. reflexivity. Qed.
Lemma fnorm_ext {A : Arith} n (x y : nat -> T) : (forall i, (i < n)%nat -> x i = y i) -> fnorm n x = fnorm n y.
Proof. intros H. unfold fnorm. rewrite (fsum_ext n _ (fun i => y i * y i)%F); [reflexivity|]. intros i Hi. rewrite H by auto. reflexivity. Qed.

Lemma first_fails_RX : first_fails RX.
Proof.
  intros n x V. rewrite (fnorm_ext n (fun i => x i - f0)%F x).
  - destruct (fnorm n x) as [v|]; [|reflexivity]. rewrite eps_RX. cbn [fdiv RX rx_div fltb rxcmp].
    destruct (Req_bool_spec v 0) as [Z|NZ]; [reflexivity|]. cbn [rxcmp]. apply Rlt_bool_false. unfold Rdiv. rewrite Rinv_r by auto. unfold eps. lra.
  - intros i Hi. rewrite f0_RX. destruct (x i) as [v|]; [|reflexivity]. cbn [fsub RX rx2]. f_equal. ring.
Qed.

Lemma Bminus_0 (x : f32) : is_finite x = true -> Bminus mode_NE x (B754_zero false) = x.
Proof. destruct x as [[|]| | |s m e B]; intros F; try discriminate; reflexivity. Qed.

Lemma Bdiv_self_not_small lm (x : f32) : Bltb (Bdiv mode_NE x x) (EPSILON (A := F32 lm)) = false.
Proof.
  destruct x as [[|]|[|]| |s m e B]; try reflexivity.
  set (x := B754_finite s m e B). assert (Fx : is_finite x = true) by reflexivity.
  assert (Nx : B2R x <> 0).
  { unfold x. cbn. unfold F2R. cbn. apply Rmult_integral_contrapositive_currified; [|apply Rgt_not_eq, bpow_gt_0].
    apply IZR_neq. destruct s; cbn; lia. }
  pose proof (Bdiv_correct 24 128 _ _ mode_NE x x Nx) as C.
  unfold Rdiv in C. rewrite Rinv_r in C by auto.
  assert (R1 : Generic_fmt.round radix2 (SpecFloat.fexp 24 128) (round_mode mode_NE) 1 = 1).
  { apply round_generic; [apply valid_rnd_round_mode|]. replace 1 with (bpow radix2 0) by reflexivity. apply generic_format_bpow. cbn. lia. }
  rewrite R1 in C. rewrite Rlt_bool_true in C.
  2:{ rewrite Rabs_R1. replace 1 with (bpow radix2 0) by reflexivity. apply bpow_lt. lia. }
  destruct C as (C1 & C2' & _). assert (C2 : is_finite (Bdiv mode_NE x x) = true) by exact C2'.
  destruct (eps32 lm) as [Fe [_ Ue]].
  
  etransitivity; [exact (Bltb_correct 24 128 _ (EPSILON (A := F32 lm)) C2 Fe)|]. apply Rlt_bool_false.
  eapply Rle_trans; [exact Ue|]. eapply Rle_trans; [|apply Req_le; symmetry; exact C1]. lra.
Qed.

Lemma first_fails_F32 lm : first_fails (F32 lm).
Proof.
  intros n x V. rewrite (fnorm_ext n (fun i => x i - f0)%F x).
  - apply Bdiv_self_not_small.
  - intros i Hi. specialize (V i Hi). change (f0 (A := F32 lm)) with (B754_zero false : f32). apply Bminus_0.
    destruct V as [V1 V2]. cbn [fnan finf F32] in *. destruct (x i) as [| | |]; auto; discriminate.
Qed.

Lemma eigen_budget (A : Arith) (OK : ArithOk A) : first_fails A -> forall ck sh niter (m : Mat T) n f, mat_is m n n f -> (niter <= 1)%nat ->
  forall vals vecs, eigen ck m niter sh = Ok (vals, vecs) -> vec_is vals n (fun _ => f0).
Proof.
  intros FF ck sh niter m n f Hm Hk vals vecs E. destruct (eig_start n m f Hm) as (s0 & E0 & Ha & Hv & Hw & Hp). rewrite E0 in E.
  destruct niter as [|[|niter]]; [| |lia].
  - cbn in E. injection E as <- _. exact Hw.
  - unfold exec in E. cbn [range seq Nat.sub for_break] in E.
    change (range 0 1) with [0%nat] in E. cbn [for_break] in E. unfold sbind at 1 in E.
    assert (Hsh : sh = true -> (2 <= n)%nat).
    { intros ->. destruct (mat_is_dim _ _ _ _ Hm) as [Dn _]. destruct (Nat.eq_dec n 1) as [->|]; [|lia]. exfalso.
      revert E. rewrite eig_step_unfold. unfold sbind at 1, lift at 1. unfold exec at 1.
      destruct (m_init_new (A := A) 1 1 Dn Dn) as (m0 & F0 & _). rewrite F0.
      unfold sbind at 1, eig_shifted, sbind at 1, lift at 1. destruct ck; cbn [u8_sub Nat.leb]; [discriminate|].
      unfold sbind at 1, lift at 1. cbn [u8_sub Nat.leb]. unfold sbind at 1, reads at 1. unfold m_get at 1. rewrite (mi_init _ _ _ _ Ha), (mi_rows _ _ _ _ Ha).
      cbn. discriminate. }
    assert (HI : eig_inv n s0). { split; [eauto|]. split; [eauto|]. split; eauto. }
    pose proof (wp_step_gen ck n sh s0 Hsh HI _ Hp) as W. unfold wp in W.
    destruct (eig_step ck n sh s0) as [s1 [go|e|]]; [|discriminate|discriminate].
    destruct W as (_ & W). destruct go.
    + cbn in E. injection E as <- _. apply W.
    + exfalso. destruct W as (g & _ & Hx & Ht). rewrite (FF n (fun i => g i i)) in Ht; [discriminate|].
      intros i Hi. eapply vec_is_valid in Hx; eauto.
Qed.

(** orthogonal matrices *)
Lemma rconj_mul n v q a : req n n (rconj n (rmul n v q) a) (rconj n q (rconj n v a)).
Proof.
  intros i j Hi Hj. unfold rconj.
  transitivity (rmul n (rmul n (rtr q) (rtr v)) (rmul n (rmul n a v) q) i j).
  - apply rmul_ext.
    + intros t Ht. unfold rtr, rmul. apply Rsum_ext. intros k Hk. ring.
    + intros t Ht. symmetry. apply rmul_assoc.
  - rewrite rmul_assoc. apply rmul_ext; [auto|]. intros t Ht. symmetry. apply rmul_assoc.
Qed.
Lemma orth_mul n v q : orth n v -> orth n q -> orth n (rmul n v q).
Proof.
  intros Hv Hq i j Hi Hj.
  transitivity (rmul n (rmul n (rtr q) (rtr v)) (rmul n v q) i j).
  - apply rmul_ext; [|auto]. intros t Ht. unfold rtr, rmul. apply Rsum_ext. intros k Hk. ring.
  - rewrite rmul_assoc. rewrite <- (Hq i j Hi Hj). apply rmul_ext; [auto|]. intros t Ht.
    rewrite <- rmul_assoc. rewrite (rmul_ext n _ rid q q); [apply rmul_id_l; auto| |auto]. intros k Hk. apply Hv; auto.
Qed.
Lemma orth_id n : orth n rid.
Proof. intros i j Hi Hj. rewrite rmul_id_r by auto. unfold rtr, rid. rewrite Nat.eqb_sym. reflexivity. Qed.
Lemma rconj_id n a : req n n (rconj n rid a) a.
Proof.
  intros i j Hi Hj. unfold rconj. rewrite (rmul_ext n _ rid _ (rmul n a rid)); [|intros t Ht; unfold rtr, rid; rewrite Nat.eqb_sym; reflexivity|auto].
  rewrite rmul_id_l by auto. apply rmul_id_r; auto.
Qed.
Lemma Rsum_const n c : Rsum n (fun _ => c) = INR n * c.
Proof. induction n as [|n IH]; [cbn; ring|]. cbn [Rsum]. rewrite IH, S_INR. ring. Qed.
Lemma Rsum_nonneg n g : (forall i, (i < n)%nat -> 0 <= g i) -> 0 <= Rsum n g.
Proof. intros H. induction n as [|n IH]; cbn; [lra|]. specialize (IH (fun i L => H i (Nat.lt_trans _ _ _ L (Nat.lt_succ_diag_r n)))). specialize (H n (Nat.lt_succ_diag_r n)). lra. Qed.
Lemma Rsum_nonneg_0 n g : (forall i, (i < n)%nat -> 0 <= g i) -> Rsum n g = 0 -> forall i, (i < n)%nat -> g i = 0.
Proof.
  induction n as [|n IH]; intros H E i Hi; [lia|]. cbn in E.
  assert (H' : forall i, (i < n)%nat -> 0 <= g i) by (intros; apply H; lia).
  pose proof (Rsum_nonneg n g H'). pose proof (H n (Nat.lt_succ_diag_r n)).
  destruct (Nat.eq_dec i n) as [->|]; [lra|]. apply IH; auto; [lra|lia].
Qed.
(** orthonormal columns give orthonormal rows *)
Lemma orth_rows n w : orth n w -> req n n (rmul n w (rtr w)) rid.
Proof.
  intros Hw. set (P := rmul n w (rtr w)).
  assert (Sy : forall i j, P i j = P j i). { intros i j. unfold P, rmul, rtr. apply Rsum_ext. intros; ring. }
  assert (PP : forall i j, (i < n)%nat -> (j < n)%nat -> rmul n P P i j = P i j).
  { intros i j Hi Hj. unfold P at 1. rewrite rmul_assoc. unfold P. apply rmul_ext; [auto|]. intros t Ht.
    rewrite <- rmul_assoc. rewrite (rmul_ext n _ rid (rtr w) (rtr w)); [apply rmul_id_l; auto| |auto]. intros k Hk. apply Hw; auto. }
  assert (TP : Rsum n (fun i => P i i) = INR n).
  { unfold P, rmul. rewrite Rsum_swap. rewrite (Rsum_ext n _ (fun _ => 1)).
    - rewrite Rsum_const. ring.
    - intros t Ht. specialize (Hw t t Ht Ht). unfold rmul, rtr, rid in Hw. rewrite Nat.eqb_refl in Hw. exact Hw. }
  assert (Z : Rsum n (fun i => Rsum n (fun j => (rid i j - P i j) * (rid i j - P i j))) = 0).
  { rewrite (Rsum_ext n _ (fun i => 1 + (- 1) * P i i)).
    - rewrite Rsum_plus, Rsum_scal, TP, Rsum_const. ring.
    - intros i Hi. rewrite (Rsum_ext n _ (fun j => (if (j =? i)%nat then 1 - 2 * P i j else 0) + P i j * P j i)).
      + rewrite Rsum_plus. rewrite (Rsum_pick n i (fun j => 1 - 2 * P i j)) by auto. fold (rmul n P P i i). rewrite PP by auto. ring.
      + intros j Hj. rewrite (Sy j i). unfold rid. rewrite (Nat.eqb_sym i j). destruct (Nat.eqb_spec j i); [subst; ring|ring]. }
  intros i j Hi Hj.
  assert (Z1 := Rsum_nonneg_0 n _ (fun i _ => Rsum_sq n _) Z i Hi). cbv beta in Z1.
  assert (Z2 : (rid i j - P i j) * (rid i j - P i j) = 0).
  { apply (Rsum_nonneg_0 n (fun j => (rid i j - P i j) * (rid i j - P i j))); auto. intros k _. apply Rle_0_sqr. }
  apply Rmult_integral in Z2. fold P. destruct Z2; lra.
Qed.
(** the trace is invariant *)
Lemma rconj_trace n w a : orth n w -> Rsum n (fun i => rconj n w a i i) = Rsum n (fun i => a i i).
Proof.
  intros Hw. pose proof (orth_rows n w Hw) as Ho. unfold rconj.
  transitivity (Rsum n (fun t => rmul n (rmul n a w) (rtr w) t t)).
  - unfold rmul at 1 3. rewrite Rsum_swap. apply Rsum_ext. intros t Ht. apply Rsum_ext. intros i Hi. ring.
  - apply Rsum_ext. intros t Ht. rewrite rmul_assoc. rewrite (rmul_ext n a a _ rid); [apply rmul_id_r; auto|auto|]. intros k Hk. apply Ho; auto.
Qed.
Lemma rmv_mul n a b x i : rmv n (rmul n a b) x i = rmv n a (rmv n b x) i.
Proof. apply (rmul_assoc n n a b (fun t _ => x t) i 0%nat). Qed.
Lemma rmv_ext n a b x y i : (forall t, (t < n)%nat -> a i t = b i t) -> (forall t, (t < n)%nat -> x t = y t) -> rmv n a x i = rmv n b y i.
Proof. intros H1 H2. apply Rsum_ext. intros t Ht. rewrite H1, H2 by auto. reflexivity. Qed.
Lemma orth_norm n w x : orth n w -> rdot n (rmv n w x) (rmv n w x) = rdot n x x.
Proof.
  intros Hw. unfold rdot.
  transitivity (Rsum n (fun i => x i * rmv n (rtr w) (rmv n w x) i)).
  - rewrite (Rsum_ext n (fun i => x i * rmv n (rtr w) (rmv n w x) i) (fun i => Rsum n (fun t => x i * (w t i * rmv n w x t)))).
    + rewrite Rsum_swap. apply Rsum_ext. intros t Ht. unfold rmv at 1. rewrite <- Rsum_scal_r. apply Rsum_ext. intros; ring.
    + intros i Hi. unfold rmv at 1, rtr. rewrite <- Rsum_scal. reflexivity.
  - apply Rsum_ext. intros i Hi. f_equal. rewrite <- rmv_mul.
    rewrite (rmv_ext n _ rid x x i); [|intros; apply Hw; auto|auto].
    apply (rmul_id_l n (fun t _ => x t) i 0%nat Hi).
Qed.
Lemma orth_tr n w : orth n w -> orth n (rtr w).
Proof. intros H. exact (orth_rows n w H). Qed.
Lemma rdot_entry n x c : (c < n)%nat -> x c * x c <= rdot n x x.
Proof.
  intros Hc. unfold rdot. rewrite (Rsum_split n c) by auto.
  assert (0 <= Rsum n (fun t => if (c <? t)%nat then x t * x t else 0)).
  { apply Rsum_nonneg. intros i Hi. destruct (c <? i)%nat; [apply Rle_0_sqr|lra]. }
  assert (0 <= Rsum c (fun t => x t * x t)) by apply Rsum_sq.
  lra.
Qed.
Lemma regular_not_degenerate n a : (forall y, 1 <= rnorm n y -> eps < rnorm n (rmv n a y)) -> ~ qr_degenerate n false a.
Proof.
  intros Reg (w & x & Hw & Hx & c & y & Hc & Hy & L). rewrite (Hx eq_refl) in L.
  apply (Rlt_not_le (rnorm n (rmv n a (rmv n w y))) eps).
  - apply Reg. unfold rnorm. rewrite orth_norm by auto. rewrite <- sqrt_1 at 1. apply sqrt_le_1_alt.
    pose proof (rdot_entry n y c Hc) as E. rewrite Hy in E. lra.
  - eapply Rle_trans; [|exact L]. apply Req_le. unfold rnorm. f_equal. fold (rdot n (rmv n (fun i j => rconj n w a i j - 0 * rid i j) y) (rmv n (fun i j => rconj n w a i j - 0 * rid i j) y)).
    rewrite <- (orth_norm n (rtr w) (rmv n a (rmv n w y))) by (apply orth_tr; auto).
    unfold rdot. apply Rsum_ext. intros i Hi.
    assert (E : rmv n (rtr w) (rmv n a (rmv n w y)) i = rmv n (fun i j => rconj n w a i j - 0 * rid i j) y i).
    { rewrite (rmv_ext n (fun i j => rconj n w a i j - 0 * rid i j) (rconj n w a) y y i); [|intros; ring|auto].
      unfold rconj. rewrite rmv_mul. apply rmv_ext; [auto|]. intros t Ht. symmetry. apply rmv_mul. }
    rewrite E. reflexivity.
Qed.

Lemma mat_r_same m m' n g q : mat_is (A := RX) m n n g -> mat_is (A := RX) m' n n g -> mat_r m n n q -> mat_r m' n n q.
Proof.
  intros H1 H2 H3. eapply mat_is_ext; [exact H2|]. intros i j Hi Hj. destruct (mat_is_fun _ _ _ _ _ _ _ H1 H3) as (_ & _ & E). apply E; auto.
Qed.
Lemma from_qr_r n a1 q g h b : from_qr (A := RX) n a1 q g h -> mat_r a1 n n b ->
  exists fq, mat_r q n n fq /\ (forall i j, (i < n)%nat -> (j < n)%nat -> g i j = Some (fq i j)) /\
    (forall i j, (i < n)%nat -> (j < n)%nat -> h i j = Some (rmul n (rtr fq) b i j)) /\ (orth n fq \/ near_singular n b).
Proof.
  intros (qt & rt & E & Hg & Hh & Hq) Hb. destruct (l_qr a1 n b Hb) as (mq & mr & fq & fr & E' & Hmq & Hmr & Er & D).
  rewrite E in E'. injection E' as -> ->. exists fq.
  destruct (mat_is_fun _ _ _ _ _ _ _ Hg Hmq) as (_ & _ & Eg). destruct (mat_is_fun _ _ _ _ _ _ _ Hh Hmr) as (_ & _ & Eh).
  conjs.
  - exact (mat_r_same _ _ _ _ _ Hg Hq Hmq).
  - exact Eg.
  - intros i j Hi Hj. rewrite Eh by auto. f_equal. apply Er; auto.
  - destruct D as [(D & _)|D]; auto.
Qed.
Lemma fsum_mul_r n (g h : nat -> nat -> T (Arith := RX)) (a b : nat -> nat -> R) : (forall i j, (i < n)%nat -> (j < n)%nat -> g i j = Some (a i j)) -> (forall i j, (i < n)%nat -> (j < n)%nat -> h i j = Some (b i j)) ->
  forall i j k, (i < n)%nat -> (j < n)%nat -> (k <= n)%nat -> fsum (A := RX) k (fun t => g i t * h t j)%F = Some (rmul k a b i j).
Proof.
  intros Hg Hh i j k Hi Hj Hk. unfold rmul. rewrite <- fsum_RX. apply fsum_ext. intros t Ht. rewrite Hg, Hh by lia. reflexivity.
Qed.

(** one iteration over the reals *)
Lemma wp_step_r ck n sh s b v p : (sh = true -> (2 <= n)%nat) -> mat_r (eg_a s) n n b -> mat_r (eg_vectors s) n n v ->
  vec_is (A := RX) (eg_values s) n (fun _ => f0) -> vec_r (eg_prev s) n p ->
  wp (eig_step (A := RX) ck n sh) s (fun go s' => exists q x b', (sh = false -> x = 0) /\ (orth n q \/ near_singular n (fun i j => b i j - x * rid i j)) /\
     (orth n q -> req n n b' (rconj n q b)) /\
     mat_r (eg_a s') n n b' /\ mat_r (eg_vectors s') n n (rmul n v q) /\
     (if go then vec_is (A := RX) (eg_values s') n (fun _ => f0) /\ exists p', vec_r (eg_prev s') n p'
      else vec_r (eg_values s') n (fun i => b' i i)))
   (fun e _ => sh = true /\ utils_err e) False.
Proof.
  intros Hsh Ha Hv Hw Hp. destruct (mat_is_dim _ _ _ _ Ha) as [Dn _]. rewrite eig_step_unfold.
  apply wp_bind, wp_lift. destruct (m_init_new (A := RX) n n Dn Dn) as (m0 & E0 & H0). unfold exec. rewrite E0. cbn [rwp].
  apply wp_bind.
  assert (W : wp (if sh then eig_shifted ck n m0 else eig_plain n) s (fun aq s' => s' = s /\ exists q x b',
      (sh = false -> x = 0) /\ (orth n q \/ near_singular n (fun i j => b i j - x * rid i j)) /\
      (orth n q -> req n n b' (rconj n q b)) /\ mat_r (fst aq) n n b' /\ mat_r (snd aq) n n q) (fun e _ => sh = true /\ utils_err e) False).
  { destruct sh.
    - eapply wp_conseq; [apply (wp_shifted ck n m0 s _ _ Ha H0 (Hsh eq_refl))| |auto|auto].
      intros aq s' (-> & x & a1 & g & h & H1 & FQ & Vx & H2). split; auto.
      assert (Hx : exists x0, x = Some x0).
      { pose proof (Vx 0%nat 0%nat) as V. cbv beta in V. rewrite Nat.eqb_refl in V. specialize (Hsh eq_refl).
        assert (V' := V ltac:(lia) ltac:(lia)). rewrite f1_RX in V'. destruct x as [x0|]; [eauto|]. destruct V'; discriminate. }
      destruct Hx as [x0 ->].
      assert (Ix : forall i j : nat, ((if (i =? j)%nat then f1 else f0) * (Some x0 : T (Arith := RX)))%F = Some (x0 * rid i j)).
      { intros i j. unfold rid. destruct (i =? j)%nat; [rewrite f1_RX|rewrite f0_RX]; cbn; f_equal; ring. }
      assert (H1' : mat_r a1 n n (fun i j => b i j - x0 * rid i j)).
      { eapply mat_is_ext; [exact H1|]. intros i j Hi Hj. cbv beta. rewrite Ix. reflexivity. }
      destruct (from_qr_r n a1 _ g h _ FQ H1') as (q & Hq & Eg & Eh & D).
      exists q, x0, (fun i j => rmul n (rmul n (rtr q) (fun i j => b i j - x0 * rid i j)) q i j + x0 * rid i j). conjs; auto.
      + discriminate.
      + intros O i j Hi Hj. unfold rconj. rewrite rmul_assoc.
        assert (E : rmul n (rtr q) (rmul n (fun i j => b i j - x0 * rid i j) q) i j = rmul n (rtr q) (rmul n b q) i j + (- x0) * rmul n (rtr q) q i j).
        { unfold rmul at 1 3 5. rewrite <- Rsum_scal, <- Rsum_plus. apply Rsum_ext. intros t Ht.
          replace (rmul n (fun i0 j0 => b i0 j0 - x0 * rid i0 j0) q t j) with (rmul n b q t j + (- x0) * q t j); [ring|].
          rewrite <- (rmul_id_l n q t j Ht). unfold rmul. rewrite <- Rsum_scal, <- Rsum_plus. apply Rsum_ext. intros; ring. }
        rewrite E, (O i j Hi Hj). ring.
      + eapply mat_is_ext; [exact H2|]. intros i j Hi Hj. cbv beta. rewrite (fsum_mul_r n h g _ _ Eh Eg) by auto. rewrite Ix. reflexivity.
    - eapply wp_conseq; [apply (wp_plain n s _ Ha)| | |auto].
      + intros aq s' (-> & g & h & FQ & H2). split; auto. destruct (from_qr_r n _ _ g h _ FQ Ha) as (q & Hq & Eg & Eh & D).
        exists q, 0, (rmul n (rmul n (rtr q) b) q). conjs; auto.
        * destruct D as [D|(c & y & Hc & Hy & L)]; [auto|right]. exists c, y. conjs; auto. eapply Rle_trans; [|exact L]. apply Req_le. f_equal.
          apply Rsum_ext. intros i Hi. rewrite (rmv_ext n (fun i j => b i j - 0 * rid i j) b y y i) by (intros; try ring; auto). reflexivity.
        * intros O i j Hi Hj. apply rmul_assoc.
        * eapply mat_is_ext; [exact H2|]. intros i j Hi Hj. cbv beta. apply (fsum_mul_r n h g _ _ Eh Eg); auto.
      + intros e t (_ & [(e' & E)|(q0 & g & h & FQ & N)]).
        * destruct (l_qr _ n b Ha) as (? & ? & ? & ? & E' & _). congruence.
        * exfalso. destruct (from_qr_r n _ _ g h _ FQ Ha) as (q & Hq & Eg & Eh & D). apply N. intros i j k Hi Hj Hk.
          rewrite (fsum_mul_r n h g _ _ Eh Eg) by auto. apply valid_RX. }
  eapply wp_conseq; [exact W| |auto|auto]. clear W. intros [a q] s' (-> & fq & x & b' & Hx & D & Hb & Ha' & Hq). cbn [fst snd] in *.
  eapply wp_conseq; [apply (wp_tail n a q s _ _ _ _ _ Ha' Hq Hv Hw Hp)| | |auto].
  - intros go s' (E1 & H2 & _ & H3). exists fq, x, b'. conjs; auto.
    + rewrite E1. exact Ha'.
    + eapply mat_is_ext; [exact H2|]. intros i j Hi Hj. cbv beta. apply (fsum_mul_r n (fun i j => Some (v i j)) (fun i j => Some (fq i j)) v fq); auto.
    + destruct go; [|apply H3]. destruct H3 as (H3 & H4 & _). split; [exact H3|]. exists (fun i => b' i i). exact H4.
  - intros e t (_ & N). exfalso. apply N. split.
    + intros i j k Hi Hj Hk. rewrite (fsum_mul_r n (fun i j => Some (v i j)) (fun i j => Some (fq i j)) v fq) by auto. apply valid_RX.
    + intros i Hi. apply valid_RX.
Qed.

(*@ C26_eigen *)
(** C26: over the reals, without shift [eigen] always succeeds, and with shift it fails only on an undefined
    shift.  Unless a matrix orthogonally similar to the input (shifted when shifts are used) is near singular,
    the eigenvector matrix V it returns is orthogonal, and the eigenvalues are all zero or the diagonal of
    V^T A V; in the second case their sum is the trace of A *)
Lemma l_eigen :
  forall (ck sh : bool) (niter : nat) (m : Mat (T (Arith := RX))) (n : nat) (a : nat -> nat -> R),
  mat_r m n n a -> (sh = true -> (2 <= n)%nat) ->
  (exists u, sh = true /\ eigen ck m niter sh = Err (UtilsErr u)) \/
  exists vals vecs v l, eigen ck m niter sh = Ok (vals, vecs) /\ mat_r vecs n n v /\ vec_r vals n l /\
    (qr_degenerate n sh a \/
     (orth n v /\ orth n (rtr v) /\
      ((forall i, (i < n)%nat -> l i = 0) \/
       ((forall i, (i < n)%nat -> l i = rconj n v a i i) /\ Rsum n l = Rsum n (fun i => a i i))))).
Proof.
  intros ck sh niter m n a Hm Hsh. destruct (eig_start n m _ Hm) as (s0 & E & Ha & Hv & Hw & Hp). rewrite E.
  assert (W : rwp (exec (for_break (range 0 niter) (fun _ => eig_step ck n sh)) s0)
     (fun s => exists v l, mat_r (eg_vectors s) n n v /\ vec_r (eg_values s) n l /\
      (qr_degenerate n sh a \/ (orth n v /\ ((forall i, (i < n)%nat -> l i = 0) \/ forall i, (i < n)%nat -> l i = rconj n v a i i))))
     (fun e => sh = true /\ utils_err e) False).
  { apply wp_exec. apply wp_for_break with (I := fun _ s => exists b v p, mat_r (eg_a s) n n b /\ mat_r (eg_vectors s) n n v /\
        vec_is (A := RX) (eg_values s) n (fun _ => f0) /\ vec_r (eg_prev s) n p /\
        (qr_degenerate n sh a \/ (orth n v /\ req n n b (rconj n v a)))).
    - exists a, rid, (fun _ => 0). conjs; auto.
      + eapply mat_is_ext; [exact Hv|]. intros i j Hi Hj. unfold rid. destruct (i =? j)%nat; [apply f1_RX|apply f0_RX].
      + eapply vec_is_ext; [exact Hp|]. intros i Hi. apply f0_RX.
      + right. split; [apply orth_id|]. intros i j Hi Hj. symmetry. apply rconj_id; auto.
    - intros i s Hi (b & v & p & Hb & Hvv & Hvals & Hpp & D).
      eapply wp_conseq; [apply (wp_step_r ck n sh s b v p Hsh Hb Hvv Hvals Hpp)| |auto|auto].
      intros go s' (q & x & b' & Hx & Dq & Hb' & H1 & H2 & H3).
      assert (D' : qr_degenerate n sh a \/ (orth n (rmul n v q) /\ req n n b' (rconj n (rmul n v q) a))).
      { destruct D as [D|(O & Eb)]; [auto|]. destruct Dq as [Oq|(c & y & Hc & Hy & L)].
        - right. split; [apply orth_mul; auto|]. intros i0 j0 Hi0 Hj0. rewrite rconj_mul by auto. rewrite (Hb' Oq) by auto.
          unfold rconj at 1 2. apply rmul_ext; [auto|]. intros t Ht. apply rmul_ext; [|auto]. intros k Hk. apply Eb; auto.
        - left. exists v, x. conjs; auto. exists c, y. conjs; auto. eapply Rle_trans; [|exact L]. apply Req_le. f_equal.
          apply Rsum_ext. intros i0 Hi0.
          rewrite (rmv_ext n (fun i j => rconj n v a i j - x * rid i j) (fun i j => b i j - x * rid i j) y y i0); auto.
          intros t Ht. rewrite Eb by auto. reflexivity. }
      destruct go.
      + destruct H3 as (H3 & p' & H4). exists b', (rmul n v q), p'. conjs; auto.
      + exists (rmul n v q), (fun i => b' i i). conjs; auto. destruct D' as [D'|(O & Eb)]; [auto|]. right. split; auto.
    - intros s (b & v & p & Hb & Hvv & Hvals & Hpp & D). exists v, (fun _ => 0). conjs; auto.
      + eapply vec_is_ext; [exact Hvals|]. intros i Hi. apply f0_RX.
      + destruct D as [D|(O & _)]; auto. }
  destruct (exec _ s0) as [s|e|]; cbn [rwp rbind] in *; [|left|tauto].
  - right. destruct W as (v & l & H1 & H2 & D). exists (eg_values s), (eg_vectors s), v, l. conjs; auto.
    destruct D as [D|(O & D)]; [auto|right]. conjs; [auto|apply orth_tr; auto|]. destruct D as [D|D]; [auto|right]. split; auto.
    rewrite <- (rconj_trace n v a O). apply Rsum_ext; auto.
  - destruct W as (-> & u & ->). exists u. auto.
Qed.

(*@ C26_regular *)
(** C26: if A stretches every vector of norm at least 1 beyond EPSILON, unshifted [eigen] never degenerates: the
    eigenvectors are orthogonal and the eigenvalues are all zero or the diagonal of V^T A V *)
Lemma l_eigen_regular :
  forall (ck : bool) (niter : nat) (m : Mat (T (Arith := RX))) (n : nat) (a : nat -> nat -> R),
  mat_r m n n a -> (forall y, 1 <= rnorm n y -> eps < rnorm n (rmv n a y)) ->
  exists vals vecs v l, eigen ck m niter false = Ok (vals, vecs) /\ mat_r vecs n n v /\ vec_r vals n l /\
    orth n v /\ orth n (rtr v) /\
    ((forall i, (i < n)%nat -> l i = 0) \/
     ((forall i, (i < n)%nat -> l i = rconj n v a i i) /\ Rsum n l = Rsum n (fun i => a i i))).
Proof.
  intros ck niter m n a Hm Reg. destruct (l_eigen ck false niter m n a Hm) as [(u & E & _)|(vals & vecs & v & l & E & H1 & H2 & [D|D])]; try discriminate.
  - destruct (regular_not_degenerate n a Reg D).
  - exists vals, vecs, v, l. conjs; try apply D; auto.
Qed.

(*@ C26_budget *)
(** C26, violation, in binary32 and over the reals: with a budget of at most one iteration every eigenvalue
    returned is zero, whatever the matrix *)
Lemma l_eigen_budget :
  forall (ck sh : bool) (niter n : nat), (niter <= 1)%nat ->
  (forall (lm : Libm) (m : Mat f32) (f : nat -> nat -> f32) vals vecs, mat_is (A := F32 lm) m n n f ->
     eigen (A := F32 lm) ck m niter sh = Ok (vals, vecs) -> vec_is (A := F32 lm) vals n (fun _ => B754_zero false)) /\
  (forall (m : Mat (T (Arith := RX))) (a : nat -> nat -> R) vals vecs, mat_r m n n a ->
     eigen ck m niter sh = Ok (vals, vecs) -> vec_r vals n (fun _ => 0)).
Proof.
  intros ck sh niter n Hk. split.
  - intros lm m f vals vecs Hm E. exact (eigen_budget (F32 lm) (F32_ok lm) (first_fails_F32 lm) ck sh niter m n f Hm Hk vals vecs E).
  - intros m a vals vecs Hm E. eapply vec_is_ext; [exact (eigen_budget RX RX_ok first_fails_RX ck sh niter m n _ Hm Hk vals vecs E)|].
    intros i Hi. apply f0_RX.
Qed.

(*@ C26_shift_1x1 *)
(** C26, violation, for every arithmetic: on a 1 x 1 matrix with shift and at least one iteration, [eigen] panics when
    overflow checks are on, and fails with an index error otherwise *)
Lemma l_eigen_shift_1x1 :
  forall (A : Arith) (OK : ArithOk A) (m : Mat T) (f : nat -> nat -> T) (niter : nat), mat_is m 1 1 f -> (1 <= niter)%nat ->
  eigen true m niter true = Panic /\ eigen false m niter true = Err InvalidRow.
Proof.
  intros A OK m f niter Hm Hk. destruct niter as [|niter]; [lia|].
  destruct (eig_start 1 m f Hm) as (s0 & E & Ha & Hv & Hw & Hp). rewrite !E.
  assert (R : range 0 (S niter) = 0%nat :: range 1 (S niter)). { unfold range. rewrite !Nat.sub_succ, !Nat.sub_0_r. reflexivity. }
  rewrite R. unfold exec at 1 2. cbn [for_break]. destruct (m_init_new (A := A) 1 1 ltac:(lia) ltac:(lia)) as (m0 & F0 & _).
  split; unfold sbind at 1; rewrite eig_step_unfold; unfold sbind at 1, lift at 1; unfold exec at 1; rewrite F0; unfold sbind at 1, eig_shifted, sbind at 1, lift at 1; cbn [u8_sub Nat.leb]; [reflexivity|].
  unfold sbind at 1, lift at 1. cbn [u8_sub Nat.leb]. unfold sbind at 1, reads at 1. unfold m_get at 1. rewrite (mi_init _ _ _ _ Ha), (mi_rows _ _ _ _ Ha).
  cbn. reflexivity.
Qed.

Lemma eigen_undef_shift (A : Arith) (OK : ArithOk A) ck (m : Mat T) n f niter e : mat_is m n n f -> (2 <= n)%nat -> (1 <= niter)%nat ->
  (forall y, bad (y * eig_shift (f (n - 2)%nat (n - 2)%nat) (f (n - 2)%nat (n - 1)%nat) (f (n - 1)%nat (n - 1)%nat))%F = Some e) ->
  eigen ck m niter true = Err (UtilsErr e).
Proof.
  intros Hm Hn Hk B. destruct niter as [|niter]; [lia|]. destruct (mat_is_dim _ _ _ _ Hm) as [Dn _].
  destruct (eig_start n m f Hm) as (s0 & E & Ha & Hv & Hw & Hp). rewrite !E.
  assert (R : range 0 (S niter) = 0%nat :: range 1 (S niter)). { unfold range. rewrite !Nat.sub_succ, !Nat.sub_0_r. reflexivity. }
  rewrite R. unfold exec at 1. cbn [for_break]. unfold sbind at 1. rewrite eig_step_unfold.
  destruct (m_init_new (A := A) n n Dn Dn) as (m0 & E0 & H0). unfold sbind at 1, lift at 1; unfold exec at 1; rewrite E0.
  unfold sbind at 1. unfold eig_shifted. unfold sbind at 1, lift at 1. unfold u8_sub. destruct (Nat.leb_spec 2 n); [|lia].
  unfold sbind at 1, lift at 1. unfold sbind at 1, reads at 1. rewrite (mi_get _ _ _ _ Ha) by lia.
  unfold sbind at 1, reads at 1. rewrite (mi_get _ _ _ _ Ha) by lia. unfold sbind at 1, reads at 1. rewrite (mi_get _ _ _ _ Ha) by lia.
  unfold sbind at 1. unfold lift at 1. rewrite (exec_step _ _ _ _ E0).
  pose proof (l_identity A _ m0 n n _ H0) as HI. rewrite Nat.eqb_refl in HI. destruct HI as (mi & Ei & Hi). rewrite (exec_step _ _ _ _ Ei).
  set (x := eig_shift _ _ _) in *.
  destruct (l_matrix_in_place A mi mi n n _ _ Hi Hi x) as (_ & _ & _ & _ & P & _). unfold exec at 1.
  destruct (m_mul_by_scalar_in_place x mi) as [m' o]. destruct P as [(V & _)|(i & j & k & _ & _ & Bk & _ & Eo & _)]; cbn [fst snd] in *.
  - exfalso. assert (V0 := V 0%nat 0%nat ltac:(lia) ltac:(lia)). apply (bad_Some_not _ _ (B _) V0).
  - subst o. rewrite B in Bk. injection Bk as <-. reflexivity.
Qed.

(*@ C26_scalar_shift *)
(** C26, violation, in binary32 and over the reals: with shift, if the last two diagonal elements are equal and the
    element above the last one is zero (the identity, any multiple of it, ...), the shift is 0/0 and [eigen] fails *)
Lemma l_eigen_scalar_shift :
  forall (ck : bool) (niter n : nat), (2 <= n)%nat -> (1 <= niter)%nat ->
  (forall (lm : Libm) (m : Mat f32) (f : nat -> nat -> f32) (s : bool), mat_is (A := F32 lm) m n n f ->
     f (n - 2)%nat (n - 2)%nat = f (n - 1)%nat (n - 1)%nat -> f (n - 2)%nat (n - 1)%nat = B754_zero s ->
     eigen (A := F32 lm) ck m niter true = Err (UtilsErr Nan)) /\
  (forall (m : Mat (T (Arith := RX))) (a : nat -> nat -> R), mat_r m n n a ->
     a (n - 2)%nat (n - 2)%nat = a (n - 1)%nat (n - 1)%nat -> a (n - 2)%nat (n - 1)%nat = 0 ->
     eigen ck m niter true = Err (UtilsErr Nan)).
Proof.
  intros ck niter n Hn Hk. split.
  - intros lm m f s Hm E1 E2. apply (eigen_undef_shift (F32 lm) (F32_ok lm) ck m n f niter Nan Hm Hn Hk).
    rewrite E1, E2. assert (V := mat_is_valid _ _ _ _ (n - 1)%nat (n - 1)%nat Hm ltac:(lia) ltac:(lia)).
    revert V. generalize (f (n - 1)%nat (n - 1)%nat). clear. intros c [V1 V2] y.
    assert (Fc : is_finite c = true). { cbn [fnan finf F32] in *. destruct c as [| | |]; auto; discriminate. }
    assert (S0 : Bminus mode_NE c c = B754_zero false) by (apply Bminus_diag; auto).
    assert (N : eig_shift (A := F32 lm) c (B754_zero s) c = B754_nan).
    { unfold eig_shift. cbn [fsub fdiv fmul fadd fltb fabs fsqrt F32].
      assert (L : Bltb c c = false). { etransitivity; [exact (Bltb_correct 24 128 c c Fc Fc)|]. apply Rlt_bool_false. lra. }
      rewrite L. replace (Bminus mode_NE c c) with (B754_zero false : f32) by (symmetry; exact S0). destruct s; cbn; destruct c; reflexivity. }
    rewrite N. destruct y; reflexivity.
  - intros m a Hm E1 E2. apply (eigen_undef_shift RX RX_ok ck m n _ niter Nan Hm Hn Hk).
    intros y. rewrite E1, E2.
    assert (N : eig_shift (A := RX) (Some (a (n - 1)%nat (n - 1)%nat)) (Some 0) (Some (a (n - 1)%nat (n - 1)%nat)) = None).
    { generalize (a (n - 1)%nat (n - 1)%nat). intros c. unfold eig_shift. rewrite f2_RX. cbn [fsub fdiv fmul fadd fltb fabs fsqrt RX rx1 rx2 rxcmp]. rewrite Rlt_bool_false by lra.
      assert (Z : rx_div (Some (c - c)) (Some 2) = Some 0). { unfold rx_div. rewrite Req_bool_false by lra. f_equal. field. }
      rewrite Z. cbn [rx2]. replace (0 * 0 + 0 * 0) with 0 by ring. unfold rx_sqrt. rewrite Rlt_bool_false by lra. cbn [rx2]. rewrite sqrt_0, Rabs_R0.
      unfold rx_div. rewrite Req_bool_true by lra. reflexivity. }
    rewrite N. destruct y; reflexivity.
Qed.

(*@ example *)
(** the hypotheses are met: on the symmetric binary32 matrix [[2,1],[1,2]] ten unshifted iterations give the
    eigenvalues 3 and 1 up to 2^-12, one iteration gives zeros; with shift the identity is refused (test by evaluation) *)
Example C26_example : forall lm : Libm,
  let m := mk_mat (A := F32 lm) 2 2 (map z32 [2; 1; 1; 2]%Z) in
  let i := mk_mat (A := F32 lm) 2 2 (map z32 [1; 0; 0; 1]%Z) in
  wfm (A := F32 lm) m /\ wfm (A := F32 lm) i /\
  rmap (fun p => show_v (fst p)) (eigen (A := F32 lm) true m 1 false) = Ok (2%nat, true, map sf [0; 0]%Z) /\
  match eigen (A := F32 lm) true m 10 false with
  | Ok (v, _) => match v_elems v with
                 | x :: y :: _ => (Bltb (Babs (Bminus mode_NE x (z32 3))) (lit32 1 4096) && Bltb (Babs (Bminus mode_NE y (z32 1))) (lit32 1 4096)) = true
                 | _ => False end
  | _ => False end /\
  rmap (fun p => show_v (fst p)) (eigen (A := F32 lm) true i 5 true) = Err (UtilsErr Nan).
Proof.
  intros lm m i. split; [apply wfm_b_ok; vm_compute; reflexivity|]. split; [apply wfm_b_ok; vm_compute; reflexivity|].
  split; [vm_compute; reflexivity|]. split; vm_compute; reflexivity.
Qed.
