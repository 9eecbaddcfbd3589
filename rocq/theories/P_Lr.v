(** C19, C20: the LR and Crout decompositions. *)
(*@+*)
From Coq Require Import List Arith ZArith Reals Lia Bool Lra.
From Flocq Require Import Core BinarySingleNaN.
From Verif Require Import M_Base M_Arith M_Utils M_Vector M_Matrix M_F32 M_RX
  S_Spec S_Linalg S_Norm S_Lu P_Inst.
Import ListNotations.
Local Open Scope R_scope.
(*@-*)
From Verif Require Import S_Compare P_Hoare P_Cont P_Loops P_Access P_Pointwise P_Trans P_Float P_Product P_Norm P_Lup P_Uninit P_Diag P_Compare.

Lemma wp_m_set_r m r c f i j (x : rx) (Q : unit -> Mat rx -> Prop) (X : LinalgError -> Mat rx -> Prop) (P : Prop) :
  mat_r m r c f -> (i < r)%nat -> (j < c)%nat ->
  (forall v m', x = Some v -> mat_r m' r c (fun a b => if (a =? i)%nat && (b =? j)%nat then v else f a b) -> Q tt m') ->
  (x = None -> X (UtilsErr Nan) m) -> wp (m_set (A := RX) i j x) m Q X P.
Proof.
  intros Hm Hi Hj HQ HX. destruct x as [v|].
  - destruct (m_set_in (A := RX) m r c _ i j (Some v) Hm Hi Hj (valid_RX v)) as (m' & E & H).
    unfold wp. rewrite E. eapply HQ; [reflexivity|]. eapply mat_is_ext; [exact H|]. intros a b Ha Hb. cbv beta. unfold fupd2.
    destruct ((a =? i)%nat && (b =? j)%nat); auto.
  - unfold wp. rewrite (m_set_bad (A := RX) m r c _ i j None Nan Hm eq_refl). auto.
Qed.

Lemma rwp_allclose_any x (Q : bool -> Prop) (X : LinalgError -> Prop) (P : Prop) :
  (forall b, Q b) -> rwp (allclose_l (A := RX) (Some x) f0 EPSILON) Q X P.
Proof.
  intros H. destruct (allclose_ok (A := RX) (Some x) f0 EPSILON (valid_RX x) ok_f0) as (b & E & _). rewrite E. apply H.
Qed.

Lemma fill_identity_r m n f : mat_r m n n f -> exists m', m_fill_identity (A := RX) m = (m', Ok tt) /\ mat_r m' n n rid.
Proof.
  intros Hm. pose proof (l_identity RX _ m n n _ Hm) as H. rewrite Nat.eqb_refl in H. destruct H as (m' & E & H').
  exists m'. split; auto. eapply mat_is_ext; [exact H'|]. intros i j _ _. unfold rid. destruct (i =? j)%nat; [apply f1_RX|apply f0_RX].
Qed.

Lemma init_r n : (1 <= n <= 4)%nat -> exists m, exec (m_init n n) (mnew (A := RX)) = Ok m /\ mat_r m n n (fun _ _ => 0).
Proof.
  intros H. destruct (m_init_new (A := RX) n n H H) as (m & E & Hm). exists m. unfold exec. rewrite E. split; auto.
  eapply mat_is_ext; [exact Hm|]. intros; apply f0_RX.
Qed.

Ltac mget := match goal with |- rwp (m_get ?m ?i ?j) _ _ _ =>
  match goal with H : mat_r m _ _ _ |- _ => rewrite (mi_get _ _ _ _ H) by lia; cbn [rwp andb Nat.eqb] end end.
Ltac setv := match goal with E : ?x = Some ?v |- _ => rewrite ?f0_RX in E; cbn [fsub fmul fadd fdiv RX rx2 rx_div andb Nat.eqb] in E; rewrite ?Rminus_0_r, ?Rplus_0_l in E;
   first [injection E as E; subst v
         |match type of E with (if Req_bool ?d 0 then _ else _) = _ => 
            destruct (Req_bool_spec d 0) as [?Z|?Z]; [discriminate|injection E as E; subst v] end] end.
Ltac lrstep :=
  match goal with
  | |- wp (sbind _ _) _ _ _ _ => apply wp_bind
  | |- wp (for_ (_ :: _) _) _ _ _ _ => cbn [for_]
  | |- wp (for_ [] _) _ _ _ _ => cbn [for_]
  | |- wp (sret _) _ _ _ _ => apply wp_sret
  | |- wp (for_ (range _ _) _) _ _ _ _ => match goal with |- wp (for_ (range ?a ?b) _) _ _ _ _ => let l := eval vm_compute in (range a b) in change (range a b) with l end
  | |- wp (lift (m_get _ _ _)) _ _ _ _ => apply wp_lift; mget
  | |- wp (lift (Ok _)) _ _ _ _ => apply wp_lift; cbn [rwp]
  | |- wp (lift (allclose_l _ _ _)) _ _ _ _ => apply wp_lift; apply rwp_allclose_any; intros ?b
  | |- wp (reads (fun _ => m_get _ _ _)) _ _ _ _ => apply wp_reads; cbn [lr_l lr_r lr_sum]; mget
  | |- wp (reads (fun _ => Ok _)) _ _ _ _ => apply wp_reads; cbn [lr_l lr_r lr_sum rwp]
  | |- wp (set_sum _) _ _ _ _ => apply wp_modify; cbn [lr_l lr_r lr_sum]
  | |- wp (on_l (m_set _ _ _)) _ _ _ _ => apply wp_zoom; cbn [lr_l lr_r lr_sum]; eapply wp_m_set_r; [eassumption|lia|lia|intros ?v ?m' ?E ?H; setv|intros ?E]
  | |- wp (on_r (m_set _ _ _)) _ _ _ _ => apply wp_zoom; cbn [lr_l lr_r lr_sum]; eapply wp_m_set_r; [eassumption|lia|lia|intros ?v ?m' ?E ?H; setv|intros ?E]
  end.

Definition lr_shape (n : nat) (l r : nat -> nat -> R) : Prop :=
  (forall i, (i < n)%nat -> l i i = 1) /\ lower n l /\ upper n r.
Ltac lrstart Hm n :=
  unfold m_lr; rewrite (m_guard_square_is _ _ _ _ Hm), Nat.eqb_refl; cbn [rbind];
  rewrite (mi_rows _ _ _ _ Hm); let l0 := fresh "l0" in let E0 := fresh "E0" in let L0 := fresh "L0" in
  destruct (init_r n ltac:(lia)) as (l0 & E0 & L0);
  rewrite E0; cbn [rbind]; apply rwp_bind; apply wp_exec;
  apply wp_bind; apply wp_zoom; cbn [lr_l lr_r lr_sum];
  let l1 := fresh "l1" in let E1 := fresh "E1" in let L1 := fresh "L1" in
  destruct (fill_identity_r l0 n _ L0) as (l1 & E1 & L1); unfold wp at 1; rewrite E1; cbn [lr_l lr_r lr_sum].
Ltac errz := match goal with E : ?x = None |- _ => rewrite ?f0_RX in E; cbn [fsub fmul fadd fdiv RX rx2 rx_div andb Nat.eqb] in E;
   first [discriminate E
         |match type of E with (if Req_bool ?d 0 then _ else _) = _ => 
            destruct (Req_bool_spec d 0) as [?Z|?Z]; [|discriminate] end] end.
Ltac idx H := repeat match type of H with (?i < S _)%nat => destruct i as [|i]; [clear H|apply Nat.succ_lt_mono in H] end; [..|exfalso; lia].
(** every index below a concrete bound *)
Lemma below1 (P : nat -> Prop) : P 0%nat -> forall i, (i < 1)%nat -> P i.
Proof. intros H i Hi. replace i with 0%nat by lia. auto. Qed.
Lemma below2 (P : nat -> Prop) : P 0%nat -> P 1%nat -> forall i, (i < 2)%nat -> P i.
Proof. intros H H1 i Hi. destruct i as [|[|i]]; auto. lia. Qed.
Lemma below3 (P : nat -> Prop) : P 0%nat -> P 1%nat -> P 2%nat -> forall i, (i < 3)%nat -> P i.
Proof. intros H H1 H2 i Hi. destruct i as [|[|[|i]]]; auto. lia. Qed.

Lemma sq1 (P : nat -> nat -> Prop) : P 0%nat 0%nat ->
  forall i j, (i < 1)%nat -> (j < 1)%nat -> P i j.
Proof. intros. destruct i as [|[|[|i]]], j as [|[|[|j]]]; first [assumption|lia]. Qed.
Ltac sq1 := refine (sq1 _ _); cbv beta.
Lemma sq2 (P : nat -> nat -> Prop) : P 0%nat 0%nat -> P 0%nat 1%nat -> P 1%nat 0%nat -> P 1%nat 1%nat ->
  forall i j, (i < 2)%nat -> (j < 2)%nat -> P i j.
Proof. intros. destruct i as [|[|[|i]]], j as [|[|[|j]]]; first [assumption|lia]. Qed.
Ltac sq2 := refine (sq2 _ _ _ _ _); cbv beta.
Lemma sq3 (P : nat -> nat -> Prop) : P 0%nat 0%nat -> P 0%nat 1%nat -> P 0%nat 2%nat -> P 1%nat 0%nat -> P 1%nat 1%nat -> P 1%nat 2%nat -> P 2%nat 0%nat -> P 2%nat 1%nat -> P 2%nat 2%nat ->
  forall i j, (i < 3)%nat -> (j < 3)%nat -> P i j.
Proof. intros. destruct i as [|[|[|i]]], j as [|[|[|j]]]; first [assumption|lia]. Qed.
Ltac sq3 := refine (sq3 _ _ _ _ _ _ _ _ _ _); cbv beta.

Lemma lr1_rwp m a : mat_r m 1 1 a ->
  rwp (m_lr m) (fun s => a 0%nat 0%nat <> 0 /\ exists l r, mat_r (fst s) 1 1 l /\ mat_r (snd s) 1 1 r /\ lr_shape 1 l r /\ req 1 1 (rmul 1 l r) a)
    (fun e => e = UtilsErr Nan /\ a 0%nat 0%nat = 0) False.
Proof.
  intros Hm. lrstart Hm 1%nat. repeat lrstep.
  all: try (errz; (split; [reflexivity|lra])).
  split; [auto|]. do 2 eexists. cbn [lr_l lr_r fst snd]. split; [eassumption|]. split; [eassumption|].
  unfold lr_shape, lower, upper, req. conjs.
  - apply below1. cbn. field. auto.
  - intros; lia.
  - intros; lia.
  - sq1. cbn. field. auto.
Qed.
Lemma lr2_rwp m a : mat_r m 2 2 a ->
  rwp (m_lr m) (fun s => a 0%nat 0%nat <> 0 /\ exists l r, mat_r (fst s) 2 2 l /\ mat_r (snd s) 2 2 r /\ lr_shape 2 l r /\ req 2 2 (rmul 2 l r) a)
    (fun e => e = UtilsErr Nan /\ a 0%nat 0%nat = 0) False.
Proof.
  intros Hm. lrstart Hm 2%nat. repeat lrstep.
  all: try (errz; (split; [reflexivity|lra])).
  split; [auto|]. do 2 eexists. cbn [lr_l lr_r fst snd]. split; [eassumption|]. split; [eassumption|].
  unfold lr_shape, lower, upper, req. conjs.
  - apply below2; cbn; [field; auto|reflexivity].
  - sq2; intros; try lia; cbn; try reflexivity.
  - sq2; intros; try lia; cbn; try reflexivity.
  - sq2; cbn; field; auto.
Qed.
Lemma lr3_rwp m a : mat_r m 3 3 a ->
  rwp (m_lr m) (fun s => a 0%nat 0%nat <> 0 /\ exists l r, mat_r (fst s) 3 3 l /\ mat_r (snd s) 3 3 r /\ lr_shape 3 l r /\
      (req 3 3 (rmul 3 l r) a <-> a 0%nat 1%nat * a 1%nat 0%nat = 0 /\ a 0%nat 1%nat * a 2%nat 0%nat = 0))
    (fun e => e = UtilsErr Nan /\ (a 0%nat 0%nat = 0 \/ a 0%nat 0%nat * a 1%nat 1%nat = a 0%nat 1%nat * a 1%nat 0%nat)) False.
Proof.
  intros Hm. lrstart Hm 3%nat. repeat lrstep.
  all: try (errz; (split; [reflexivity|left; lra])).
  all: try (errz; (split; [reflexivity|right])).
  2:{ match goal with Z : _ = 0 |- _ => rename Z into ZZ end. apply (Rmult_eq_compat_l (a 0%nat 0%nat)) in ZZ. rewrite Rmult_0_r in ZZ.
      field_simplify in ZZ; [|auto]. lra. }
  split; [auto|]. do 2 eexists. cbn [lr_l lr_r fst snd]. split; [eassumption|]. split; [eassumption|].
  unfold lr_shape, lower, upper, req. conjs.
  - apply below3; cbn; [field; auto|reflexivity..].
  - sq3; intros; try lia; cbn; try reflexivity.
  - sq3; intros; try lia; cbn; try reflexivity.
  - split.
    + intros HH. assert (K : forall x, a 0%nat 1%nat * (x / a 0%nat 0%nat) = 0 -> a 0%nat 1%nat * x = 0).
      { intros x Hx. apply (Rmult_eq_compat_l (a 0%nat 0%nat)) in Hx. field_simplify in Hx; auto. }
      split; apply K.
      * specialize (HH 1%nat 2%nat ltac:(lia) ltac:(lia)). cbn in HH. lra.
      * specialize (HH 2%nat 2%nat ltac:(lia) ltac:(lia)). cbn in HH. lra.
    + intros [H1' H2'].
      assert (K : forall x, a 0%nat 1%nat * x = 0 -> x / a 0%nat 0%nat * a 0%nat 1%nat = 0).
      { intros x Hx. unfold Rdiv. replace (x * / a 0%nat 0%nat * a 0%nat 1%nat) with (a 0%nat 1%nat * x * / a 0%nat 0%nat) by ring. rewrite Hx. ring. }
      apply K in H1'. apply K in H2'. rewrite H1', H2' in *.
      match goal with Z : a 1%nat 1%nat - 0 <> 0 |- _ => rewrite Rminus_0_r in Z end.
      sq3; cbn; rewrite ?H1', ?H2'; field; auto.
Qed.

(*@ C19_small *)
(** C19: for 1 x 1 and 2 x 2, [lr] succeeds exactly when the first element is not zero, and then L R = A with L
    unit lower triangular and R upper triangular *)
Lemma l_lr_small :
  forall (m : Mat (T (Arith := RX))) (n : nat) (a : nat -> nat -> R), mat_r m n n a -> (n <= 2)%nat ->
  (a 0%nat 0%nat <> 0 -> exists ml mr l r, m_lr m = Ok (ml, mr) /\ mat_r ml n n l /\ mat_r mr n n r /\
     (forall i, (i < n)%nat -> l i i = 1) /\ lower n l /\ upper n r /\ req n n (rmul n l r) a) /\
  (a 0%nat 0%nat = 0 -> m_lr m = Err (UtilsErr Nan)).
Proof.
  intros m n a Hm Hn. destruct (mat_is_dim _ _ _ _ Hm) as [Dn _].
  assert (W : rwp (m_lr m) (fun s => a 0%nat 0%nat <> 0 /\ exists l r, mat_r (fst s) n n l /\ mat_r (snd s) n n r /\ lr_shape n l r /\ req n n (rmul n l r) a)
    (fun e => e = UtilsErr Nan /\ a 0%nat 0%nat = 0) False).
  { assert (n = 1 \/ n = 2)%nat as [-> | ->] by lia; [apply lr1_rwp|apply lr2_rwp]; auto. }
  destruct (m_lr m) as [[ml mr]|e|]; cbn [rwp] in W; [|..|tauto].
  - destruct W as (Z & l & r & Hl & Hr & (S1 & S2 & S3) & E). split; [|tauto]. intros _. exists ml, mr, l, r. auto 10.
  - destruct W as [-> Z]. split; [tauto|auto].
Qed.

(*@ C19_three *)
(** C19, violation for every 3 x 3 matrix: when [lr] succeeds, L R = A holds if and only if a01 a10 = 0 and
    a01 a20 = 0; the factors are always triangular *)
Lemma l_lr_three :
  forall (m ml mr : Mat (T (Arith := RX))) (a : nat -> nat -> R), mat_r m 3 3 a -> m_lr m = Ok (ml, mr) ->
  exists l r, mat_r ml 3 3 l /\ mat_r mr 3 3 r /\ (forall i, (i < 3)%nat -> l i i = 1) /\ lower 3 l /\ upper 3 r /\
    (req 3 3 (rmul 3 l r) a <->
     a 0%nat 1%nat * a 1%nat 0%nat = 0 /\ a 0%nat 1%nat * a 2%nat 0%nat = 0).
Proof.
  intros m ml mr a Hm E. pose proof (lr3_rwp m a Hm) as W. rewrite E in W. cbn [rwp fst snd] in W.
  destruct W as (_ & l & r & Hl & Hr & (S1 & S2 & S3) & Q). exists l, r. auto 10.
Qed.

(*@ C19_refuted *)
(** C19, violation: in binary32, [[1,1,1],[1,2,3],[1,3,6]] = L R with integer factors, and [lr] succeeds with
    another R *)
Lemma l_lr_w :
  exists m : Mat f32, forall lm : Libm, wfm (A := F32 lm) m /\
  show_m m = (3%nat, 3%nat, true, map sf [1; 1; 1; 1; 2; 3; 1; 3; 6]%Z) /\
  rmap (fun s => (show_m (fst s), show_m (snd s), rmap show_m (m_mul_new (A := F32 lm) (fst s) (snd s)))) (m_lr (A := F32 lm) m) =
    Ok ((3%nat, 3%nat, true, map sf [1; 0; 0; 1; 1; 0; 1; 2; 1]%Z),
        (3%nat, 3%nat, true, map sf [1; 1; 1; 0; 1; 1; 0; 0; 2]%Z),
        Ok (3%nat, 3%nat, true, map sf [1; 1; 1; 1; 2; 2; 1; 3; 5]%Z)).
Proof.
  exists (mk_mat (A := F32 lm_id) 3 3 (map z32 [1; 1; 1; 1; 2; 3; 1; 3; 6]%Z)). intros lm. split; [|split].
  - apply wfm_b_ok. vm_compute. reflexivity.
  - vm_compute. reflexivity.
  - vm_compute. reflexivity.
Qed.

(*@ example *)
Example C19_example :
  let A := F32 lm_id in
  let m := mk_mat 2 2 (map z32 [2; 1; 4; 5]%Z) in
  wfm m /\ rmap (fun s => (show_m (fst s), show_m (snd s))) (m_lr m) =
    Ok ((2%nat, 2%nat, true, map sf [1; 0; 2; 1]%Z), (2%nat, 2%nat, true, map sf [2; 1; 0; 3]%Z)).
Proof. cbv zeta. split; [apply wfm_b_ok; vm_compute; reflexivity|vm_compute; reflexivity]. Qed.

(** ** Crout *)
Lemma crout_singular {A : Arith} (OK : ArithOk A) m n f :
  (f0 + f1 * f0 = f0)%F -> (f0 + f0 * f0 = f0)%F -> (forall x, valid x -> valid (x - f0)%F) ->
  mat_is m n n f -> (2 <= n)%nat -> ~ within EPSILON (f 0%nat 0%nat - f0)%F f0 ->
  m_lu_crout m = Err Singular.
Proof.
  intros Z1 Z2 V Hm Hn Nw. destruct (mat_is_dim _ _ _ _ Hm) as [Dn _].
  assert (W : rwp (m_lu_crout m) (fun _ => False) (fun e => e = Singular) False).
  2:{ destruct (m_lu_crout m); cbn in W; subst; auto; tauto. }
  unfold m_lu_crout. rewrite (m_guard_square_is _ _ _ _ Hm), Nat.eqb_refl. cbn [rbind]. rewrite (mi_rows _ _ _ _ Hm).
  destruct (m_init_new (A := A) n n Dn Dn) as (l0 & E0 & H0). unfold exec at 1 2. rewrite E0. cbn [rbind].
  apply rwp_bind. apply wp_exec. apply wp_bind, wp_zoom. cbn [lr_l lr_r lr_sum].
  pose proof (l_identity A OK l0 n n _ H0) as I0. rewrite Nat.eqb_refl in I0. destruct I0 as (l1 & E1 & H1).
  unfold wp at 1. rewrite E1. cbn [lr_l lr_r lr_sum].
  rewrite (range_cons 0 n) by lia. cbn [for_]. apply wp_bind, wp_bind.
  apply wp_for with (I := fun col s => lr_l s = l1 /\ lr_sum s = f0 /\
    mat_is (lr_r s) n n (fun i j => if (i =? 0)%nat && (j <? col)%nat then (f 0%nat j - f0)%F else f0)).
  - cbn [lr_l lr_r lr_sum]. split; [auto|]. split; [auto|]. eapply mat_is_ext; [exact H0|]. intros i j Hi Hj. cbv beta.
    destruct (Nat.ltb_spec j 0); [lia|]. rewrite andb_false_r. reflexivity.
  - intros col [l r s] Hc (El & Es & Hr). cbn [lr_l lr_r lr_sum] in El, Es, Hr. subst l s. apply wp_bind.
    apply wp_for with (I := fun _ s => s = mkLR l1 r f0); [reflexivity| |].
    + intros k s Hk ->. apply wp_bind, wp_reads. cbn [lr_l lr_r lr_sum]. rewrite (mi_get _ _ _ _ H1) by lia. cbn [rwp].
      apply wp_bind, wp_reads. cbn [lr_l lr_r lr_sum]. rewrite (mi_get _ _ _ _ Hr) by lia. cbn [rwp].
      apply wp_modify. cbn [lr_l lr_r lr_sum]. destruct (Nat.ltb_spec col col); [lia|]. rewrite andb_false_r.
      destruct (0 =? k)%nat; rewrite ?Z1, ?Z2; reflexivity.
    + intros s ->. apply wp_bind, wp_lift. rewrite (mi_get _ _ _ _ Hm) by lia. cbn [rwp].
      apply wp_bind, wp_reads. cbn [lr_l lr_r lr_sum rwp]. apply wp_zoom. cbn [lr_l lr_r lr_sum].
      eapply wp_m_set; [exact Hr|lia|lia| |].
      * intros _ r' Hr'. cbn [lr_l lr_r lr_sum]. split; [auto|]. split; [auto|]. eapply mat_is_ext; [exact Hr'|].
        intros i j Hi Hj. cbv beta. unfold fupd2.
        destruct (Nat.eqb_spec i 0), (Nat.eqb_spec j col), (Nat.ltb_spec j col), (Nat.ltb_spec j (S col)); cbn [andb]; subst; auto; lia.
      * intros k Hk. exfalso. apply (bad_Some_not _ _ Hk). apply V. eapply mat_is_valid; [exact Hm|lia|lia].
  - rewrite Nat.max_0_l. intros [l r s] (El & Es & Hr). cbn [lr_l lr_r lr_sum] in El, Es, Hr. subst l s.
    apply wp_bind, wp_modify. cbn [lr_l lr_r lr_sum]. change (0 + 1)%nat with 1%nat.
    rewrite (range_cons 1 n) by lia. cbn [for_]. apply wp_bind, wp_bind.
    apply wp_for with (I := fun _ s => lr_r s = r /\ lr_l s = l1); [auto| |].
    + intros k [l r' s'] Hk [Er El]. cbn [lr_l lr_r] in Er, El. subst l r'.
      apply wp_bind, wp_reads. cbn [lr_l lr_r lr_sum]. rewrite (mi_get _ _ _ _ H1) by lia. cbn [rwp].
      apply wp_bind, wp_reads. cbn [lr_l lr_r lr_sum]. rewrite (mi_get _ _ _ _ Hr) by lia. cbn [rwp].
      apply wp_modify. cbn [lr_l lr_r lr_sum]. auto.
    + intros [l r' s'] [Er El]. cbn [lr_l lr_r] in Er, El. subst l r'.
      apply wp_bind, wp_reads. cbn [lr_l lr_r lr_sum]. rewrite (mi_get _ _ _ _ Hr) by lia. cbn [rwp].
      destruct (Nat.ltb_spec 0 n); [|lia]. cbn [Nat.eqb andb].
      apply wp_bind, wp_lift.
      destruct (allclose_ok (f 0%nat 0%nat - f0)%F f0 EPSILON) as (b & E & Hb).
      { apply V. eapply mat_is_valid; [exact Hm|lia|lia]. }
      { apply ok_f0. }
      rewrite E. cbn [rwp]. destruct b; [exfalso; apply Nw, Hb; auto|]. cbn [negb]. apply wp_sthrow. reflexivity.
Qed.

(*@ C20_singular *)
(** C20, violation for every matrix of size at least 2: if |a00| > EPSILON, [lu_crout] reports Singular *)
Lemma l_crout :
  forall (m : Mat (T (Arith := RX))) (n : nat) (a : nat -> nat -> R), mat_r m n n a -> (2 <= n)%nat ->
  (eps < Rabs (a 0%nat 0%nat) -> m_lu_crout m = Err Singular) /\
  (forall l u, m_lu_crout m = Ok (l, u) -> Rabs (a 0%nat 0%nat) <= eps).
Proof.
  intros m n a Hm Hn.
  assert (K : eps < Rabs (a 0%nat 0%nat) -> m_lu_crout m = Err Singular).
  { intros L. eapply (crout_singular (A := RX) _ m n _); [| | |exact Hm|auto|].
    - rewrite f0_RX, f1_RX. cbn. f_equal. ring.
    - rewrite f0_RX. cbn. f_equal. ring.
    - intros [x|] Hx; [|destruct Hx; discriminate]. rewrite f0_RX. apply valid_RX.
    - unfold within. rewrite f0_RX, eps_RX. cbn. rewrite Rle_bool_false; [discriminate|]. rewrite !Rminus_0_r. auto. }
  split; [exact K|]. intros l u E. destruct (Rle_or_lt (Rabs (a 0%nat 0%nat)) eps) as [L|L]; auto. rewrite (K L) in E. discriminate.
Qed.

(*@ C20_singular_f32 *)
(** C20: the same in binary32, whatever the libm *)
Lemma l_crout_f32 :
  forall (lm : Libm) (m : Mat f32) (n : nat) (f : nat -> nat -> f32), mat_is (A := F32 lm) m n n f -> (2 <= n)%nat ->
  let A := F32 lm in (fabs (f 0%nat 0%nat : T) <=? EPSILON)%F = false -> m_lu_crout m = Err Singular.
Proof.
  intros lm m n f Hm Hn A Hx.
  assert (E0 : f0 (A := F32 lm) = (B754_zero false : f32)) by reflexivity.
  eapply (crout_singular (A := F32 lm) _ m n _); [| | |exact Hm|auto|].
  - rewrite E0. cbn [F32 fadd fmul]. reflexivity.
  - rewrite E0. cbn [F32 fadd fmul]. reflexivity.
  - intros x. rewrite E0. rewrite !valid_finite. cbn [F32 fsub]. destruct x as [[]|s| |s e' k' H']; cbn; auto.
  - unfold within. pose proof (mat_is_valid _ _ _ _ 0 0 Hm ltac:(lia) ltac:(lia)) as Vx. revert Vx Hx. rewrite E0, valid_finite. subst A. cbn [F32 fsub fabs fleb].
    set (ep := EPSILON (A := F32 lm)). assert (Pe : Bleb (B754_zero false : f32) ep = true) by (vm_compute; reflexivity). clearbody ep.
    destruct (f 0%nat 0%nat) as [s|s| |s e' k' H']; intros Fx; try discriminate Fx.
    + intros Hx. exfalso. cbn in Hx, Pe. congruence.
    + intros Hx H. cbn [Bminus] in H. cbn in Hx, H. congruence.
Qed.

(*@ C20_refuted *)
(** C20, violation: [[2,1],[4,5]] has an LU decomposition without pivoting (found by [lr]) and [lu_crout] reports
    Singular; on [[2^-14, 1], [1, 1]], whose first pivot is below EPSILON, it succeeds *)
Lemma l_crout_w :
  exists m m' : Mat f32, forall lm : Libm, wfm (A := F32 lm) m /\ wfm (A := F32 lm) m' /\
  show_m m = (2%nat, 2%nat, true, map sf [2; 1; 4; 5]%Z) /\
  show_m m' = (2%nat, 2%nat, true, map B2SF [lit32 1 16384; z32 1; z32 1; z32 1]) /\
  (exists l u, m_lr (A := F32 lm) m = Ok (l, u)) /\ m_lu_crout (A := F32 lm) m = Err Singular /\
  rmap (fun s => (show_m (fst s), show_m (snd s))) (m_lu_crout (A := F32 lm) m') =
    Ok ((2%nat, 2%nat, true, map sf [1; 0; 16384; 1]%Z), (2%nat, 2%nat, true, map B2SF [lit32 1 16384; z32 1; z32 0; z32 (-16383)])).
Proof.
  exists (mk_mat (A := F32 lm_id) 2 2 (map z32 [2; 1; 4; 5]%Z)), (mk_mat (A := F32 lm_id) 2 2 [lit32 1 16384; z32 1; z32 1; z32 1]).
  intros lm. split; [|split; [|split; [|split; [|split; [|split]]]]].
  - apply wfm_b_ok. vm_compute. reflexivity.
  - apply wfm_b_ok. vm_compute. reflexivity.
  - vm_compute. reflexivity.
  - vm_compute. reflexivity.
  - assert (E : rmap (fun _ => tt) (m_lr (A := F32 lm) (mk_mat (A := F32 lm_id) 2 2 (map z32 [2; 1; 4; 5]%Z))) = Ok tt) by (vm_compute; reflexivity).
    destruct (m_lr _) as [[l u]|e|]; [eauto|discriminate E|discriminate E].
  - vm_compute. reflexivity.
  - vm_compute. reflexivity.
Qed.

(*@ example *)
Example C20_example :
  mat_r (rmat 2 2 [2; 1; 4; 5]) 2 2 (fun i j => nth (i * 2 + j) [2; 1; 4; 5] 0) /\ eps < Rabs 2.
Proof. split; [apply rmat_is; cbn; lia|]. unfold eps. rewrite Rabs_right; lra. Qed.
