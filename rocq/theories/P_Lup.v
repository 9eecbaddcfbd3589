(** C14: pivoted LU factorisation. *)
(*@+*)
From Coq Require Import List Arith ZArith Reals Lia Bool Lra.
From Flocq Require Import Core BinarySingleNaN.
From Verif Require Import M_Base M_Arith M_Utils M_Vector M_Matrix M_F32 M_RX
  S_Spec S_Linalg S_Norm S_Lu P_Inst.
Import ListNotations.
Local Open Scope nat_scope.
(*@-*)
From Verif Require Import P_Hoare P_Cont P_Loops P_Access P_Pointwise P_Trans P_Float P_Product P_Norm.

Lemma idx_set p n pi i x : idx_is p n pi -> n <= 4 -> i < n ->
  exists p', vu_set i x p = (p', Ok tt) /\ idx_is p' n (fun a => if a =? i then x else pi a).
Proof.
  intros [L I R G] Hn Hi. unfold vu_set. rewrite I. cbn [negb].
  erewrite sbind_ok by (unfold lift, is_valid_row; rewrite R; destruct (Nat.leb_spec n i); [lia|reflexivity]).
  unfold v_store, arr_set. rewrite L. destruct (Nat.ltb_spec i 4); [|lia].
  eexists; split; [reflexivity|]. split; cbn [v_elems v_rows v_initialized]; auto.
  - rewrite upd_length. auto.
  - intros a Ha. specialize (G a Ha). unfold v_get in *. cbn [v_elems v_rows v_initialized]. rewrite I, R in *. cbn [negb] in *.
    unfold is_valid_row in *. destruct (Nat.leb_spec n a); [lia|]. cbn [rbind] in *. unfold arr_get in *.
    destruct (Nat.eqb_spec a i) as [->|Ne].
    + rewrite nth_error_upd_eq by lia. reflexivity.
    + rewrite nth_error_upd_neq by auto. exact G.
Qed.
Lemma idx_init n : 1 <= n <= 4 ->
  exists p, exec (v_init n ;;! for_ (range 0 n) (fun row => vu_set row row)) vu_new = Ok p /\ idx_is p n (fun i => i).
Proof.
  intros Hn.
  assert (W : rwp (exec (v_init n ;;! for_ (range 0 n) (fun row => vu_set row row)) vu_new)
                (fun p => idx_is p n (fun i => i)) (fun _ => False) False).
  { apply wp_exec, wp_bind. unfold wp at 1. unfold v_init. cbn [vu_new v_new v_initialized].
    erewrite sbind_ok by (unfold lift; rewrite rows_ok by auto; reflexivity). unfold modify.
    apply wp_for with (I := fun k p => idx_is p n (fun i => if i <? k then i else 0)).
    - split; auto. intros i Hi. cbn. unfold v_get. cbn. unfold is_valid_row. destruct (Nat.leb_spec n i); [lia|]. cbn.
      unfold arr_get. destruct i as [|[|[|[|]]]]; try reflexivity. lia.
    - intros k p Hk H. destruct (idx_set p n _ k k H ltac:(lia) ltac:(lia)) as (p' & E & H'). unfold wp. rewrite E.
      destruct H' as [L I R G]. split; auto. intros i Hi. rewrite G by auto. f_equal.
      destruct (Nat.eqb_spec i k), (Nat.ltb_spec i k), (Nat.ltb_spec i (S k)); lia.
    - intros p [L I R G]. split; auto. intros i Hi. rewrite G by auto. destruct (Nat.ltb_spec i (Nat.max 0 n)); [auto|lia]. }
  destruct (exec _ vu_new) as [p|e|]; cbn in W; try tauto. eauto.
Qed.

Lemma perm_id n : perm n (fun i => i).
Proof. split; auto. Qed.
Lemma perm_ext n f g : (forall i, i < n -> f i = g i) -> perm n f -> perm n g.
Proof.
  intros E [P1 P2]. split.
  - intros i Hi. rewrite <- E by auto. auto.
  - intros i j Hi Hj H. apply P2; auto. rewrite !E by auto. exact H.
Qed.
Definition exch (pi : nat -> nat) (k r i : nat) : nat := if i =? k then pi r else if i =? r then pi k else pi i.
Lemma exch_perm n pi k r : perm n pi -> k < n -> r < n -> perm n (exch pi k r).
Proof.
  intros [P1 P2] Hk Hr. unfold exch. split.
  - intros i Hi. destruct (Nat.eqb_spec i k), (Nat.eqb_spec i r); auto.
  - intros i j Hi Hj H.
    destruct (Nat.eqb_spec i k), (Nat.eqb_spec j k), (Nat.eqb_spec i r), (Nat.eqb_spec j r); apply P2 in H; auto; lia.
Qed.
(** surjectivity, by counting *)
Lemma NoDup_map_inj (f : nat -> nat) l : (forall a b, In a l -> In b l -> f a = f b -> a = b) -> NoDup l -> NoDup (map f l).
Proof.
  induction l as [|x l IH]; intros Hi Hn; cbn [map]; [constructor|].
  inversion Hn as [|? ? Hx Hl]; subst. constructor.
  - intros Hc. apply in_map_iff in Hc. destruct Hc as (y & E & Hy). apply Hx.
    rewrite <- (Hi y x); cbn; auto.
  - apply IH; auto. intros a b Ha Hb. apply Hi; cbn; auto.
Qed.
Lemma perm_onto n pi : perm n pi -> forall i, i < n -> exists j, j < n /\ pi j = i.
Proof.
  intros [P1 P2] i Hi.
  assert (ND : NoDup (map pi (seq 0 n))).
  { apply NoDup_map_inj; [|apply seq_NoDup]. intros a b Ha Hb. apply in_seq in Ha, Hb. apply P2; lia. }
  assert (Inc : incl (map pi (seq 0 n)) (seq 0 n)).
  { intros a Ha. apply in_map_iff in Ha. destruct Ha as (b & <- & Hb). apply in_seq in Hb. apply in_seq.
    specialize (P1 b). lia. }
  assert (Inc' : incl (seq 0 n) (map pi (seq 0 n))).
  { apply NoDup_length_incl; auto. rewrite map_length. auto. }
  specialize (Inc' i). rewrite in_seq in Inc'. specialize (Inc' ltac:(lia)). apply in_map_iff in Inc'.
  destruct Inc' as (j & E & Hj). apply in_seq in Hj. exists j. split; [lia|auto].
Qed.

Section Lup.
  Context {A : Arith}.
  Implicit Types (F G : nat -> nat -> T) (pi : nat -> nat).

  (** what one elimination step does to the permuted rows *)
  Definition elim (k : nat) (B : nat -> nat -> T) (i j : nat) : T :=
    if k <? i then
      if j =? k then (B i k / B k k)%F
      else if k <? j then (B i j - B k j * (B i k / B k k))%F
      else B i j
    else B i j.
  Definition step_rel (n k : nat) F pi F' pi' : Prop :=
    exists r, k <= r < n /\ (forall i, i < n -> pi' i = exch pi k r i) /\
      (fabs (F (pi' k) k) <? EPSILON)%F = false /\
      (forall i j, i < n -> j < n -> F' (pi' i) j = elim k (fun a b => F (pi' a) b) i j).

  (** some quotient or difference of the step is not finite *)
  Definition elim_bad (n k : nat) F pi (u : UtilsError) : Prop :=
    exists r i j, k <= r < n /\ i < n /\ j < n /\ (fabs (F (exch pi k r k) k) <? EPSILON)%F = false /\
      bad (elim k (fun a b => F (exch pi k r a) b) i j) = Some u.
  Definition st_is n (s : Mat T * Vec nat) F pi : Prop :=
    mat_is (fst s) n n F /\ idx_is (snd s) n pi /\ perm n pi.

  Lemma lu_get_ok n s F pi i j : st_is n s F pi -> i < n -> j < n -> lu_get i j s = Ok (F (pi i) j).
  Proof.
    intros (Hm & Hp & P1 & P2) Hi Hj. unfold lu_get. rewrite (ix_get _ _ _ Hp) by auto. cbn [rbind].
    apply (mi_get _ _ _ _ Hm); auto.
  Qed.
  Lemma wp_lu_set n s F pi i j x (Q : unit -> Mat T * Vec nat -> Prop) (X : LinalgError -> Mat T * Vec nat -> Prop) (P : Prop) : st_is n s F pi -> i < n -> j < n ->
    (valid x -> forall s', st_is n s' (fupd2 F (pi i) j x) pi -> Q tt s') ->
    (forall e s', bad x = Some e -> X (UtilsErr e) s') -> wp (lu_set i j x) s Q X P.
  Proof.
    intros (Hm & Hp & Pp) Hi Hj HQ HX. unfold lu_set. apply wp_bind, wp_reads. rewrite (ix_get _ _ _ Hp) by auto. cbn [rwp].
    apply wp_zoom. eapply wp_m_set; [exact Hm|apply Pp; auto|auto| |].
    - intros Vx m' Hm'. apply HQ; auto. split; auto.
    - intros e He. apply HX; auto.
  Qed.

  (** the row the pivot search chooses: candidates are compared in column [k], but against column 0 of the best so far *)
  Fixpoint srch F pi (k m : nat) : nat :=
    match m with
    | 0 => k
    | S m => if (F (pi (k + 1 + m)%nat) k >? F (pi (srch F pi k m)) 0%nat)%F then k + 1 + m else srch F pi k m
    end.
  Definition piv (n : nat) F pi (k : nat) : nat := srch F pi k (n - (k + 1)).
  Lemma srch_range F pi k m : k <= srch F pi k m < k + 1 + m.
  Proof. induction m as [|m IH]; cbn [srch]; [lia|]. destruct (_ >? _)%F; lia. Qed.
  Definition step_run (n k : nat) F pi F' pi' : Prop :=
    (forall i, i < n -> pi' i = exch pi k (piv n F pi k) i) /\
    (fabs (F (pi' k) k) <? EPSILON)%F = false /\
    (forall i j, i < n -> j < n -> F' (pi' i) j = elim k (fun a b => F (pi' a) b) i j).
  Lemma lup_step_run n s F pi k : st_is n s F pi -> S k < n ->
    wp (lup_step n n k) s
      (fun _ s' => exists F' pi', st_is n s' F' pi' /\ step_run n k F pi F' pi')
      (fun e s' => (e = Singular /\ (fabs (F (exch pi k (piv n F pi k) k) k) <? EPSILON)%F = true) \/
                   exists u i j, e = UtilsErr u /\ i < n /\ j < n /\ (fabs (F (exch pi k (piv n F pi k) k) k) <? EPSILON)%F = false /\
                     bad (elim k (fun a b => F (exch pi k (piv n F pi k) a) b) i j) = Some u) False.
  Proof.
    intros Hs Hk. pose proof Hs as (Hm & Hp & Pp). destruct (mat_is_dim _ _ _ _ Hm) as [Dn _].
    unfold lup_step. apply wp_bind, wp_reads.
    (* pivot search *)
    apply rwp_fold with (I := fun c r => r = srch F pi k (c - (k + 1))); [rewrite Nat.sub_diag; reflexivity| |].
    { intros c r Hc ->. pose proof (srch_range F pi k (c - (k + 1))). erewrite lu_get_ok by (eauto; lia). cbn [rbind].
      erewrite lu_get_ok by (eauto; lia). cbn [rbind rwp]. replace (S c - (k + 1)) with (S (c - (k + 1))) by lia. cbn [srch].
      replace (k + 1 + (c - (k + 1))) with c by lia. reflexivity. }
    intros r Er. replace (Nat.max (k + 1) n - (k + 1)) with (n - (k + 1)) in Er by lia. fold (piv n F pi k) in Er.
    assert (Hr : k <= r < n) by (pose proof (srch_range F pi k (n - (k + 1))); unfold piv in Er; lia).
    rewrite <- Er. clear - Hr Er Hs Hm Hp Pp Dn Hk.
    apply wp_bind, wp_reads. rewrite (ix_get _ _ _ Hp) by lia. cbn [rwp].
    apply wp_bind, wp_reads. rewrite (ix_get _ _ _ Hp) by lia. cbn [rwp].
    apply wp_bind. unfold p_set at 1. apply wp_zoom.
    destruct (idx_set (snd s) n pi k (pi r) Hp ltac:(lia) ltac:(lia)) as (p1 & E1 & H1). unfold wp at 1. rewrite E1.
    apply wp_bind. unfold p_set. apply wp_zoom. cbn [snd fst].
    destruct (idx_set p1 n _ r (pi k) H1 ltac:(lia) ltac:(lia)) as (p2 & E2 & H2). unfold wp at 1. rewrite E2.
    set (s2 := (fst s, p2)).
    assert (Hs2 : st_is n s2 F (exch pi k r)).
    { split; [exact Hm|]. split; [|apply exch_perm; auto; lia]. destruct H2 as [L I R G]. split; auto.
      intros i Hi. cbn [snd s2]. rewrite G by auto. f_equal. unfold exch.
      destruct (Nat.eqb_spec i r), (Nat.eqb_spec i k); subst; auto. }
    change (fst (fst s, p1), p2) with s2. clearbody s2. clear E1 E2 H1 H2 p1 p2 Hs Hp Pp.
    set (pi' := exch pi k r) in *. pose proof Hs2 as (_ & Hp & Pp).
    apply wp_bind, wp_reads. erewrite lu_get_ok by (eauto; lia). cbn [rwp].
    destruct (fabs (F (pi' k) k) <? EPSILON)%F eqn:EP.
    { apply wp_sthrow. left. split; auto. }
    set (B := fun a b => F (pi' a) b).
    apply wp_for with (I := fun i s => exists G, st_is n s G pi' /\
      forall a b, a < n -> b < n -> G (pi' a) b = if a <? i then elim k B a b else B a b).
    - exists F. split; auto. intros a b Ha Hb. unfold elim. destruct (Nat.ltb_spec a (k + 1)), (Nat.ltb_spec k a); auto; lia.
    - intros i s3 Hi (G & Hs3 & HG).
      apply wp_bind, wp_reads. erewrite lu_get_ok by (eauto; lia). cbn [rwp].
      apply wp_bind, wp_reads. erewrite lu_get_ok by (eauto; lia). cbn [rwp].
      rewrite !HG by lia. destruct (Nat.ltb_spec i i); [lia|]. destruct (Nat.ltb_spec k i); [|lia].
      assert (Ek : elim k B k k = B k k) by (unfold elim; rewrite Nat.ltb_irrefl; auto). rewrite Ek.
      apply wp_bind. eapply wp_lu_set; [exact Hs3|lia|lia| |].
      2:{ intros e s' He. right. exists e, i, k. conjs; auto; try lia. rewrite <- He. f_equal.
          unfold elim. destruct (Nat.ltb_spec k i); [|lia]. rewrite Nat.eqb_refl. reflexivity. }
      intros Vq s4 Hs4.
      assert (Inj : forall a, a < n -> (pi' a =? pi' i) = (a =? i)).
      { intros a Ha. destruct (Nat.eqb_spec a i) as [->|Ne]; [apply Nat.eqb_refl|]. apply Nat.eqb_neq. intros E.
        apply Pp in E; auto. lia. }
      apply wp_for with (I := fun j s => exists G, st_is n s G pi' /\
        forall a b, a < n -> b < n -> G (pi' a) b =
          if (a <? i) || (a =? i) && (b <? j) then elim k B a b else B a b).
      + eexists. split; [exact Hs4|]. intros a b Ha Hb. unfold fupd2. rewrite Inj by auto.
        destruct (Nat.eqb_spec a i) as [->|Ne]; cbn [andb].
        * rewrite Nat.ltb_irrefl. cbn [orb]. destruct (Nat.eqb_spec b k) as [->|Nb].
          -- destruct (Nat.ltb_spec k (k + 1)); [|lia]. unfold elim. destruct (Nat.ltb_spec k i); [|lia]. rewrite Nat.eqb_refl. auto.
          -- rewrite HG, Nat.ltb_irrefl by lia. destruct (Nat.ltb_spec b (k + 1)); auto. unfold elim.
             destruct (Nat.ltb_spec k i); [|lia]. destruct (Nat.eqb_spec b k); [lia|]. destruct (Nat.ltb_spec k b); [lia|auto].
        * rewrite orb_false_r. apply HG; auto.
      + intros j s5 Hj (G' & Hs5 & HG').
        apply wp_bind, wp_reads. erewrite lu_get_ok by (eauto; lia). cbn [rwp].
        apply wp_bind, wp_reads. erewrite lu_get_ok by (eauto; lia). cbn [rwp].
        apply wp_bind, wp_reads. erewrite lu_get_ok by (eauto; lia). cbn [rwp].
        rewrite !HG' by lia. rewrite !Nat.ltb_irrefl, Nat.eqb_refl. cbn [orb andb].
        destruct (Nat.ltb_spec k i); [|lia]. destruct (Nat.ltb_spec k j); [|lia].
        cbn [orb].
        eapply wp_lu_set; [exact Hs5|lia|lia| |].
        2:{ intros e s' He. right. exists e, i, j. conjs; auto; try lia. rewrite <- He. f_equal.
            unfold elim. rewrite !Nat.ltb_irrefl, !Nat.eqb_refl. destruct (Nat.ltb_spec k i); [|lia].
            destruct (Nat.eqb_spec j k); [lia|]. destruct (Nat.ltb_spec k j); [|lia]. auto. }
        intros Vx s6 Hs6. eexists. split; [exact Hs6|]. intros a b Ha Hb. unfold fupd2. rewrite Inj by auto.
        destruct (Nat.eqb_spec a i) as [->|Ne]; cbn [andb].
        * destruct (Nat.eqb_spec b j) as [->|Nb].
          -- rewrite Nat.ltb_irrefl. destruct (Nat.ltb_spec j (S j)); [|lia]. cbn [orb].
             unfold elim. rewrite !Nat.ltb_irrefl, !Nat.eqb_refl. destruct (Nat.ltb_spec k i); [|lia].
             destruct (Nat.eqb_spec j k); [lia|]. destruct (Nat.ltb_spec k j); [|lia]. auto.
          -- rewrite HG', Nat.ltb_irrefl, Nat.eqb_refl by lia. cbn [orb andb].
             destruct (Nat.ltb_spec b j), (Nat.ltb_spec b (S j)); auto; lia.
        * rewrite HG' by auto. destruct (Nat.eqb_spec a i); [lia|]. auto.
      + intros s5 (G' & Hs5 & HG'). exists G'. split; auto. intros a b Ha Hb. rewrite HG' by auto.
        destruct (Nat.ltb_spec b (Nat.max (k + 1) n)); [|lia]. rewrite andb_true_r.
        destruct (Nat.ltb_spec a i), (Nat.eqb_spec a i), (Nat.ltb_spec a (S i)); auto; lia.
    - intros s3 (G & Hs3 & HG). exists G, pi'. split; auto. split; [intros i Hi; rewrite <- Er; reflexivity|]. split; auto.
      intros i j Hi Hj. rewrite HG by auto. destruct (Nat.ltb_spec i (Nat.max (k + 1) n)); [auto|lia].
  Qed.
  Lemma lup_step_wp n s F pi k : st_is n s F pi -> S k < n ->
    wp (lup_step n n k) s
      (fun _ s' => exists F' pi', st_is n s' F' pi' /\ step_rel n k F pi F' pi')
      (fun e s' => (e = Singular /\ exists r, k <= r < n /\ (fabs (F (exch pi k r k) k) <? EPSILON)%F = true) \/
                   exists u, e = UtilsErr u /\ elim_bad n k F pi u) False.
  Proof.
    intros Hs Hk. pose proof (srch_range F pi k (n - (k + 1))) as Hr. fold (piv n F pi k) in Hr.
    eapply wp_conseq; [apply (lup_step_run n s F pi k Hs Hk)| | |tauto].
    - intros [] s' (F' & pi' & Hs' & R1 & R2 & R3). exists F', pi'. split; [exact Hs'|]. exists (piv n F pi k). split; [lia|]. auto.
    - intros e s' [(-> & E)|(u & i & j & -> & Hi & Hj & E & B)]; [left; split; auto; exists (piv n F pi k); split; [lia|auto]|].
      right. exists u. split; auto. exists (piv n F pi k), i, j. conjs; auto; lia.
  Qed.

  Context {OK : ArithOk A}.
  (** the chain of steps *)
  Fixpoint steps (n k : nat) F0 F pi : Prop :=
    match k with
    | 0 => (forall i j, i < n -> j < n -> F i j = F0 i j) /\ (forall i, i < n -> pi i = i)
    | S k' => exists F1 pi1, perm n pi1 /\ steps n k' F0 F1 pi1 /\ step_rel n k' F1 pi1 F pi
    end.
  Lemma lup_wp m n F0 : mat_is m n n F0 ->
    rwp (lup m)
      (fun s => exists F pi, st_is n s F pi /\ steps n (n - 1) F0 F pi)
      (fun e => (e = Singular /\ exists k F pi r, S k < n /\ perm n pi /\ steps n k F0 F pi /\ k <= r < n /\
                     (fabs (F (exch pi k r k) k) <? EPSILON)%F = true) \/
                exists u k F pi, e = UtilsErr u /\ S k < n /\ perm n pi /\ steps n k F0 F pi /\ elim_bad n k F pi u) False.
  Proof.
    intros Hm. destruct (mat_is_dim _ _ _ _ Hm) as [Dn _].
    unfold lup, m_get_rows, m_get_cols. rewrite (mi_init _ _ _ _ Hm), (mi_rows _ _ _ _ Hm), (mi_cols _ _ _ _ Hm). cbn [negb rbind].
    destruct (m_init_new n n Dn Dn) as (m0 & E0 & H0). rewrite (exec_step _ _ _ _ E0).
    destruct (m_copy_from_ok m0 m n n _ _ H0 Hm) as (m1 & E1 & H1). unfold exec at 1. rewrite E1. cbn [rbind].
    destruct (idx_init n Dn) as (p & Ep & Hp). rewrite Ep. cbn [rbind].
    apply wp_exec. apply wp_for with (I := fun k s => exists F pi, st_is n s F pi /\ steps n k F0 F pi).
    - exists F0, (fun i => i). split; [|cbn; auto]. split; [exact H1|]. split; [exact Hp|apply perm_id].
    - intros k s Hk (F & pi & Hs & St). eapply wp_conseq; [apply lup_step_wp with (1 := Hs); lia| | |tauto].
      + intros [] s' (F' & pi' & Hs' & R'). exists F', pi'. split; auto. cbn [steps]. exists F, pi.
        split; [apply Hs|]. auto.
      + intros e s' [(-> & r & Hr & Ez)|(u & -> & Eb)].
        * left. split; auto. exists k, F, pi, r. split; [lia|]. split; [apply Hs|]. auto.
        * right. exists u, k, F, pi. split; auto. split; [lia|]. split; [apply Hs|]. auto.
    - intros s H. rewrite Nat.max_0_l in H. exact H.
  Qed.
End Lup.

(** ** exact arithmetic *)
Local Open Scope R_scope.
Lemma Rsum_S n g : Rsum (S n) g = Rsum n g + g n.
Proof. reflexivity. Qed.
Lemma Rsum_split n i g : (i < n)%nat ->
  Rsum n g = Rsum i g + g i + Rsum n (fun t => if (i <? t)%nat then g t else 0).
Proof.
  induction n as [|n IH]; intros Hi; [lia|]. cbn [Rsum].
  destruct (Nat.eq_dec i n) as [->|Ne].
  - rewrite Nat.ltb_irrefl, (Rsum_0 n (fun t => if (n <? t)%nat then g t else 0)); [ring|]. intros t Ht. destruct (Nat.ltb_spec n t); [lia|auto].
  - rewrite IH by lia. destruct (Nat.ltb_spec i n); [ring|lia].
Qed.
Lemma Rsum_low n f y i : (i < n)%nat ->
  Rsum n (fun t => ulow f i t * y t) = y i + Rsum i (fun t => f i t * y t).
Proof.
  intros Hi. rewrite (Rsum_split n i) by auto.
  rewrite (Rsum_0 n (fun t => if (i <? t)%nat then ulow f i t * y t else 0)).
  2:{ intros t Ht. destruct (Nat.ltb_spec i t); auto. unfold ulow. destruct (Nat.eqb_spec i t); [lia|].
      destruct (Nat.ltb_spec t i); [lia|ring]. }
  unfold ulow at 2. rewrite Nat.eqb_refl.
  rewrite (Rsum_ext i _ (fun t => f i t * y t)); [ring|].
  intros t Ht. unfold ulow. destruct (Nat.eqb_spec i t); [lia|]. destruct (Nat.ltb_spec t i); [auto|lia].
Qed.

(** the invariant: with [k] columns eliminated, rows of A in the new order are L times U plus the rest *)
Definition lu_inv (n k : nat) (a f : nat -> nat -> R) (pi : nat -> nat) : Prop :=
  forall i j, (i < n)%nat -> (j < n)%nat ->
    a (pi i) j = Rsum (Nat.min i k) (fun t => f (pi i) t * (if (t <=? j)%nat then f (pi t) j else 0))
                 + (if (Nat.min i k <=? j)%nat then f (pi i) j else 0).

Lemma pivot_RX x : fltb (Arith := RX) (fabs (Arith := RX) (Some x)) (EPSILON (A := RX)) = Rlt_bool (Rabs x) eps.
Proof. reflexivity. Qed.
Lemma eps_pos : 0 < eps.
Proof. unfold eps. lra. Qed.

Lemma steps_RX n k (a : nat -> nat -> R) F pi : (k < n)%nat -> perm n pi ->
  steps (A := RX) n k (fun i j => Some (a i j)) F pi ->
  exists f, (forall i j, (i < n)%nat -> (j < n)%nat -> F i j = Some (f i j)) /\ lu_inv n k a f pi /\
    (forall t, (t < k)%nat -> eps <= Rabs (f (pi t) t)).
Proof.
  revert F pi. induction k as [|k IH]; intros F pi Hk Pp St.
  - destruct St as [EF Ep]. exists a. split; [auto|]. split.
    + intros i j Hi Hj. rewrite Ep, Nat.min_0_r by auto. cbn [Rsum Nat.leb]. ring.
    + intros; lia.
  - destruct St as (F1 & pi1 & P1 & St & (r & Hr & Epi & EP & EF)).
    destruct (IH F1 pi1 ltac:(lia) P1 St) as (f & Hf & Inv & Piv).
    assert (Pr : forall i, (i < n)%nat -> (pi i < n)%nat) by apply Pp.
    rewrite Hf in EP by (try apply Pr; lia). rewrite pivot_RX in EP.
    destruct (Rlt_bool_spec (Rabs (f (pi k) k)) eps) as [|EPk]; [discriminate|].
    assert (Nz : f (pi k) k <> 0).
    { intros E. rewrite E, Rabs_R0 in EPk. pose proof eps_pos. lra. }
    (* the new array, in permuted coordinates *)
    pose (e := fun i j => if (k <? i)%nat then
        if (j =? k)%nat then f (pi i) k / f (pi k) k
        else if (k <? j)%nat then f (pi i) j - f (pi k) j * (f (pi i) k / f (pi k) k) else f (pi i) j
      else f (pi i) j).
    assert (EF' : forall i j, (i < n)%nat -> (j < n)%nat -> F (pi i) j = Some (e i j)).
    { intros i j Hi Hj. rewrite EF by auto. unfold elim, e. rewrite !Hf by (try apply Pr; lia).
      cbn [fdiv RX rx_div]. rewrite Req_bool_false by auto.
      destruct (k <? i)%nat, (j =? k)%nat, (k <? j)%nat; reflexivity. }
    pose (f' := fun i j => match F i j with Some x => x | None => 0 end).
    assert (Hf' : forall i j, (i < n)%nat -> (j < n)%nat -> F i j = Some (f' i j)).
    { intros i j Hi Hj. destruct (perm_onto n pi Pp i Hi) as (i' & Hi' & <-). unfold f'. rewrite EF' by auto. reflexivity. }
    assert (Ef' : forall i j, (i < n)%nat -> (j < n)%nat -> f' (pi i) j = e i j).
    { intros i j Hi Hj. unfold f'. rewrite EF' by auto. reflexivity. }
    (* the invariant for the exchanged order *)
    assert (Same : forall i, (i < k)%nat -> pi i = pi1 i).
    { intros i Hi. rewrite Epi by lia. unfold exch. destruct (Nat.eqb_spec i k), (Nat.eqb_spec i r); lia. }
    assert (Inv1 : lu_inv n k a f pi).
    { intros i j Hi Hj.
      assert (Ex : exists i1, (i1 < n)%nat /\ pi i = pi1 i1 /\ Nat.min i1 k = Nat.min i k).
      { rewrite Epi by auto. unfold exch. destruct (Nat.eqb_spec i k) as [->|]; [exists r; repeat split; auto; lia|].
        destruct (Nat.eqb_spec i r) as [->|]; [exists k; repeat split; auto; lia|]. exists i; auto. }
      destruct Ex as (i1 & Hi1 & -> & M). rewrite (Inv i1 j Hi1 Hj), M. f_equal.
      apply Rsum_ext. intros t Ht. rewrite Same by lia. reflexivity. }
    exists f'. split; [exact Hf'|]. split.
    + intros i j Hi Hj. rewrite (Inv1 i j Hi Hj).
      destruct (Nat.le_gt_cases i k) as [L|L].
      * (* untouched row *)
        replace (Nat.min i (S k)) with i by lia. replace (Nat.min i k) with i by lia.
        f_equal.
        -- apply Rsum_ext. intros t Ht. rewrite !Ef' by lia. unfold e.
           destruct (Nat.ltb_spec k i); [lia|]. destruct (Nat.ltb_spec k t); [lia|]. reflexivity.
        -- destruct (i <=? j)%nat; auto. rewrite Ef' by lia. unfold e. destruct (Nat.ltb_spec k i); [lia|]. reflexivity.
      * replace (Nat.min i (S k)) with (S k) by lia. replace (Nat.min i k) with k by lia.
        cbn [Rsum]. rewrite !Ef' by lia.
        rewrite (Rsum_ext k (fun t => f' (pi i) t * (if (t <=? j)%nat then f' (pi t) j else 0))
                   (fun t => f (pi i) t * (if (t <=? j)%nat then f (pi t) j else 0))).
        2:{ intros t Ht. rewrite !Ef' by lia. unfold e. destruct (Nat.ltb_spec k t); [lia|].
            destruct (Nat.ltb_spec k i); [|lia]. destruct (Nat.eqb_spec t k); [lia|].
            destruct (Nat.ltb_spec k t); [lia|]. reflexivity. }
        rewrite Rplus_assoc. f_equal. unfold e. rewrite Nat.ltb_irrefl. destruct (Nat.ltb_spec k i); [|lia]. rewrite Nat.eqb_refl.
        destruct (Nat.eqb_spec j k) as [->|Nj].
        -- rewrite !Nat.leb_refl. destruct (Nat.leb_spec (S k) k); [lia|]. field. auto.
        -- destruct (Nat.leb_spec k j), (Nat.leb_spec (S k) j), (Nat.ltb_spec k j); try lia; [field; auto|ring].
    + intros t Ht. rewrite Ef' by lia. unfold e. destruct (Nat.ltb_spec k t); [lia|].
      destruct (Nat.eq_dec t k) as [->|]; auto. rewrite Same by lia. apply Piv. lia.
Qed.

(** what a successful factorisation means *)
Record lu_of (n : nat) (a f : nat -> nat -> R) (pi : nat -> nat) : Prop := {
  lu_perm : perm n pi;
  lu_eq : forall i j, (i < n)%nat -> (j < n)%nat ->
    a (pi i) j = rmul n (ulow (fun a b => f (pi a) b)) (upp (fun a b => f (pi a) b)) i j;
  lu_piv : forall k, (S k < n)%nat -> eps <= Rabs (f (pi k) k)
}.
Lemma lu_inv_end n a f pi : perm n pi -> (1 <= n)%nat -> lu_inv n (n - 1) a f pi ->
  (forall t, (t < n - 1)%nat -> eps <= Rabs (f (pi t) t)) -> lu_of n a f pi.
Proof.
  intros Pp Hn Inv Piv. split; auto; [|intros k Hk; apply Piv; lia].
  intros i j Hi Hj. rewrite (Inv i j Hi Hj). replace (Nat.min i (n - 1)) with i by lia.
  unfold rmul. rewrite Rsum_low with (y := fun t => upp (fun a b => f (pi a) b) t j) by auto.
  unfold upp at 1. rewrite Rplus_comm. f_equal.
Qed.
Lemma lup_rwp m n a : mat_r m n n a ->
  rwp (lup m)
    (fun s => exists f pi, mat_r (fst s) n n f /\ idx_is (snd s) n pi /\ lu_of n a f pi)
    (fun e => e = Singular /\ exists k F pi r f, (S k < n)%nat /\ perm n pi /\ steps (A := RX) n k (fun i j => Some (a i j)) F pi /\
       (forall i j, (i < n)%nat -> (j < n)%nat -> F i j = Some (f i j)) /\
       (k <= r < n)%nat /\ Rabs (f (pi r) k) < eps) False.
Proof.
  intros Hm. destruct (mat_is_dim _ _ _ _ Hm) as [Dn _].
  eapply rwp_conseq; [apply lup_wp, Hm| | |auto].
  - intros s (F & pi & (H1 & H2 & Pp) & St).
    destruct (steps_RX n (n - 1) a F pi ltac:(lia) Pp St) as (f & Hf & Inv & Piv).
    exists f, pi. split; [eapply mat_is_ext; [exact H1|]; auto|]. split; [exact H2|].
    apply lu_inv_end; auto; lia.
  - intros e [(-> & k & F & pi & r & Hk & Pp & St & Hr & Ez)|(u & k & F & pi & -> & Hk & Pp & St & r & i & j & Hr & Hi & Hj & Ep & Eb)].
    + split; auto. destruct (steps_RX n k a F pi ltac:(lia) Pp St) as (f & Hf & Inv & Piv).
      exists k, F, pi, r, f. conjs; auto; try lia.
      unfold exch in Ez. rewrite Nat.eqb_refl in Ez. rewrite Hf in Ez; [|apply Pp; lia|lia].
      rewrite pivot_RX in Ez. destruct (Rlt_bool_spec (Rabs (f (pi r) k)) eps); [auto|discriminate].
    + exfalso. destruct (steps_RX n k a F pi ltac:(lia) Pp St) as (f & Hf & _).
      pose proof (exch_perm n pi k r Pp ltac:(lia) ltac:(lia)) as [Px _].
      rewrite Hf, pivot_RX in Ep by (try apply Px; lia).
      destruct (Rlt_bool_spec (Rabs (f (exch pi k r k) k)) eps) as [|EPk]; [discriminate|].
      assert (Nz : f (exch pi k r k) k <> 0).
      { intros E. rewrite E, Rabs_R0 in EPk. pose proof eps_pos. lra. }
      apply bad_Some_not in Eb. apply Eb. unfold elim. rewrite !Hf by (try apply Px; lia).
      cbn [fdiv RX rx_div]. rewrite Req_bool_false by auto.
      destruct (k <? i)%nat, (j =? k)%nat, (k <? j)%nat; apply valid_RX.
Qed.

Local Open Scope nat_scope.
(*@ C14_factors *)
(** C14: when [lup] of a square matrix succeeds, the index vector is a permutation [pi] and row [pi i] of A
    is row i of L U, where L (unit lower) and U (upper) are read off the returned matrix through [pi];
    pivots before the last are at least EPSILON; the only failure is Singular *)
Lemma l_lup :
  forall (m : Mat (T (Arith := RX))) (n : nat) (a : nat -> nat -> R), mat_r m n n a ->
  (exists lu p f pi, lup m = Ok (lu, p) /\ mat_r lu n n f /\ idx_is p n pi /\ perm n pi /\
     (let f' := fun i j => f (pi i) j in req n n (fun i j => a (pi i) j) (rmul n (ulow f') (upp f'))) /\
     (forall k, S k < n -> (eps <= Rabs (f (pi k) k))%R))
  \/ lup m = Err Singular.
Proof.
  intros m n a Hm. pose proof (lup_rwp m n a Hm) as W. destruct (lup m) as [[lu p]|e|]; cbn in W.
  - left. destruct W as (f & pi & H1 & H2 & [P E V]). exists lu, p, f, pi. conjs; auto.
  - right. destruct W as [-> _]. reflexivity.
  - tauto.
Qed.

(*@ C14_permutation_f32 *)
(** C14: also in binary32 (any libm): the index vector is a permutation, the factor has the size of the
    input, and the only failures are Singular and a non-finite intermediate value *)
Lemma l_lup_f32 :
  forall (lm : Libm) (m : Mat f32) (n : nat) (f : nat -> nat -> f32), mat_is (A := F32 lm) m n n f ->
  (exists lu p g pi, lup (A := F32 lm) m = Ok (lu, p) /\ mat_is (A := F32 lm) lu n n g /\ idx_is p n pi /\ perm n pi)
  \/ lup (A := F32 lm) m = Err Singular \/ exists u, lup (A := F32 lm) m = Err (UtilsErr u).
Proof.
  intros lm m n f Hm. pose proof (lup_wp (A := F32 lm) m n f Hm) as W. destruct (lup (A := F32 lm) m) as [[lu p]|e|]; cbn in W.
  - left. destruct W as (g & pi & (H1 & H2 & H3) & _). exists lu, p, g, pi. auto.
  - right. destruct W as [[-> _]|(u & k & F & pi & -> & _)]; eauto.
  - tauto.
Qed.

(*@ C14_positive_column *)
(** C14: a sufficient condition for success: a 2 x 2 matrix with first column beyond EPSILON *)
Lemma l_lup_2 :
  forall (m : Mat (T (Arith := RX))) (a : nat -> nat -> R), mat_r m 2 2 a ->
  (eps <= Rabs (a 0%nat 0%nat))%R -> (eps <= Rabs (a 1%nat 0%nat))%R -> exists lu p, lup m = Ok (lu, p).
Proof.
  intros m a Hm H0 H1. pose proof (lup_rwp m 2 a Hm) as W. destruct (lup m) as [[lu p]|e|]; cbn in W; eauto.
  - exfalso. destruct W as (_ & k & F & pi & r & f & Hk & _ & St & Hf & Hr & Hp).
    assert (k = 0) by lia. subst k. cbn in St. destruct St as [E1 E2].
    rewrite E2 in Hp by lia. specialize (Hf r 0 ltac:(lia) ltac:(lia)). rewrite E1 in Hf by lia.
    injection Hf as Hf. rewrite <- Hf in Hp.
    assert (r = 0 \/ r = 1) as [->| ->] by lia; lra.
  - tauto.
Qed.

(*@ C14_complete_refuted *)
(** C14, violation: the rotation by 90 degrees (determinant 1) is reported Singular, in binary32 whatever
    the libm *)
Lemma l_lup_w :
  exists (m : Mat f32), forall lm : Libm, wfm (A := F32 lm) m /\
  rmap show_m (Ok m : res LinalgError (Mat f32)) = Ok (2, 2, true, map sf [0; 1; -1; 0]%Z) /\
  lup (A := F32 lm) m = Err Singular.
Proof.
  exists (mk_mat (A := F32 lm_id) 2 2 (map z32 [0; 1; -1; 0]%Z)). intros lm. split; [|split].
  - apply wfm_b_ok. vm_compute. reflexivity.
  - vm_compute. reflexivity.
  - vm_compute. reflexivity.
Qed.

(*@ C14_complete_real_refuted *)
(** C14, violation: the same over exact reals *)
Lemma l_lup_w_real :
  exists (m : Mat (T (Arith := RX))) (a : nat -> nat -> R), mat_r m 2 2 a /\ rdet 2 a = 1%R /\ lup m = Err Singular.
Proof.
  exists (rmat 2 2 [0; 1; -1; 0]%R), (fun i j => nth (i * 2 + j) [0; 1; -1; 0]%R 0%R).
  assert (Hm : mat_r (rmat 2 2 [0; 1; -1; 0]%R) 2 2 (fun i j => nth (i * 2 + j) [0; 1; -1; 0]%R 0%R)).
  { apply rmat_is; cbn; lia. }
  split; [exact Hm|]. split; [unfold rdet, Nat.ltb; cbn; ring|].
  destruct (mat_is_dim _ _ _ _ Hm) as [Dn _].
  set (m := rmat 2 2 _) in *. clearbody m.
  unfold lup, m_get_rows, m_get_cols. rewrite (mi_init _ _ _ _ Hm), (mi_rows _ _ _ _ Hm), (mi_cols _ _ _ _ Hm). cbn [negb rbind].
  destruct (m_init_new (A := RX) 2 2 Dn Dn) as (m0 & E0 & H0). rewrite (exec_step _ _ _ _ E0).
  destruct (m_copy_from_ok m0 _ 2 2 _ _ H0 Hm) as (m1 & E1 & H1). unfold exec at 1. rewrite E1. cbn [rbind].
  destruct (idx_init 2 Dn) as (p & Ep & Hp). rewrite Ep. cbn [rbind].
  assert (Hs : st_is (A := RX) 2 (m1, p) _ (fun i => i)) by (split; [exact H1|]; split; [exact Hp|apply perm_id]).
  change (range 0 (2 - 1)) with [0]. cbn [for_]. unfold exec, sbind at 1.
  unfold lup_step. unfold sbind at 1. unfold reads at 1. change (range (0 + 1) 2) with [1]. cbn [rfold].
  rewrite !(lu_get_ok 2 _ _ _ _ _ Hs) by lia. cbn [rbind nth Nat.mul Nat.add].
  replace (fltb (Arith := RX) (Some 0%R) (Some (-1)%R)) with false.
  2:{ cbn. symmetry. apply Rlt_bool_false. lra. }
  unfold sbind at 1, reads at 1. cbn [snd]. rewrite (ix_get _ _ _ Hp) by lia.
  unfold sbind at 1, reads at 1. cbn [snd]. rewrite (ix_get _ _ _ Hp) by lia.
  destruct (idx_set p 2 _ 0 0 Hp ltac:(lia) ltac:(lia)) as (p1 & F1 & G1).
  unfold sbind at 1, p_set at 1, zoom. cbn [snd fst]. rewrite F1.
  destruct (idx_set p1 2 _ 0 0 G1 ltac:(lia) ltac:(lia)) as (p2 & F2 & G2).
  unfold sbind at 1, p_set at 1, zoom. cbn [snd fst]. rewrite F2.
  unfold sbind at 1, reads at 1, lu_get. cbn [snd fst]. rewrite (ix_get _ _ _ G2) by lia. cbn [rbind Nat.eqb].
  rewrite (mi_get _ _ _ _ H1) by lia. cbn [nth Nat.mul Nat.add].
  rewrite pivot_RX, Rabs_R0, Rlt_bool_true by apply eps_pos. reflexivity.
Qed.

(*@ example *)
Example C14_example :
  let A := F32 lm_id in
  let m := mk_mat 3 3 (map z32 [1; 2; 3; 2; 4; 8; 4; 2; 0]%Z) in
  wfm m /\ rmap (fun s => (show_m (fst s), v_elems (snd s))) (lup m) =
    Ok (3, 3, true, map B2SF [lit32 1 4; lit32 3 2; z32 3; lit32 1 2; z32 2; z32 2; z32 4; z32 2; z32 0], [2; 0; 1; 0]).
Proof. cbv zeta. split; [apply wfm_b_ok; vm_compute; reflexivity|vm_compute; reflexivity]. Qed.
