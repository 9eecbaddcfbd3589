(** C12: diagonals, identity and trace. *)
(*@+*)
From Coq Require Import List Arith ZArith Reals Lia Bool.
From Flocq Require Import Core BinarySingleNaN.
From Verif Require Import M_Base M_Arith M_Utils M_Vector M_Matrix M_F32 M_RX S_Spec S_Linalg P_Inst.
Import ListNotations.
Local Open Scope nat_scope.
(*@-*)
From Verif Require Import P_Hoare P_Cont P_Loops P_Access P_Pointwise P_Trans P_Product.

Lemma i8_chk_ok {E} ck z : (-128 <= z <= 127)%Z -> i8_chk (E := E) ck z = Ok z.
Proof.
  intros H. unfold i8_chk. destruct (Z.leb_spec (-128) z); [|lia]. destruct (Z.leb_spec z 127); [|lia]. reflexivity.
Qed.

Section D.
  Context {A : Arith} {OK : ArithOk A}.
  Lemma m_diag_ok ck m r c f k : mat_is m r c f -> (-128 <= k <= 127)%Z ->
    let n := Z.to_nat (if (0 <=? k)%Z then Z.min (Z.of_nat r) (Z.of_nat c - k)
                       else Z.min (Z.of_nat r + k) (Z.of_nat c)) in
    if n =? 0 then m_diag ck m (Some k) = Err InvalidDiagonalLength
    else exists v, m_diag ck m (Some k) = Ok v /\
           vec_is v n (fun i => f (i + Z.to_nat (- k)) (i + Z.to_nat k)).
  Proof.
    intros Hm Hk n. destruct (mat_is_dim _ _ _ _ Hm) as [Dr Dc].
    unfold m_diag. rewrite (mi_rows _ _ _ _ Hm), (mi_cols _ _ _ _ Hm).
    assert (min8 : forall x y, min_i8 x y = Z.min x y).
    { intros x y. unfold min_i8. destruct (Z.ltb_spec x y); lia. }
    set (L := (if (0 <=? k)%Z then Z.min (Z.of_nat r) (Z.of_nat c - k) else Z.min (Z.of_nat r + k) (Z.of_nat c))) in *.
    assert (E : (if (0 <=? k)%Z then let? d := i8_chk ck (Z.of_nat c - k)%Z in Ok (min_i8 (Z.of_nat r) d)
             else let? d := i8_chk ck (Z.of_nat r + k)%Z in Ok (min_i8 d (Z.of_nat c))) = Ok (E := LinalgError) L).
    { subst L. destruct (Z.leb_spec 0 k); rewrite i8_chk_ok by lia; cbn [rbind]; rewrite min8; reflexivity. }
    rewrite E. cbn [rbind]. subst n.
    destruct (Z.leb_spec L 0).
    { assert (Z.to_nat L = 0) as -> by lia. reflexivity. }
    destruct (Nat.eqb_spec (Z.to_nat L) 0); [lia|].
    assert (HL : 1 <= Z.to_nat L <= 4) by (subst L; destruct (Z.leb_spec 0 k); lia).
    destruct (v_init_new (Z.to_nat L) HL) as (v0 & E0 & H0). rewrite (exec_step _ _ _ _ E0).
    set (g := fun i => f (i + Z.to_nat (- k)) (i + Z.to_nat k)).
    assert (W : wp (for_ (range 0 (Z.to_nat L)) (fun i =>
              let zi := Z.of_nat i in
              let! row := lift (if (0 <=? k)%Z then Ok zi else i8_chk ck (zi - k)%Z) in
              let! col := lift (if (0 <=? k)%Z then i8_chk ck (zi + k)%Z else Ok zi) in
              let! element := lift (m_get m (Z.to_nat (row mod 256)) (Z.to_nat (col mod 256))) in
              v_set i element)) v0 (fun _ v => vec_is v (Z.to_nat L) g) (fun _ _ => False) False).
    { apply wp_for with (I := fun i v => vec_is v (Z.to_nat L) (fun a => if a <? i then g a else f0)).
      - exact H0.
      - intros i v Hi HI. cbv zeta.
        assert (Hrow : (if (0 <=? k)%Z then Ok (Z.of_nat i) else i8_chk ck (Z.of_nat i - k)%Z) =
                       Ok (E := LinalgError) (Z.of_nat (i + Z.to_nat (- k)))).
        { subst L. destruct (Z.leb_spec 0 k); [f_equal; lia|]. rewrite i8_chk_ok by lia. f_equal. lia. }
        assert (Hcol : (if (0 <=? k)%Z then i8_chk ck (Z.of_nat i + k)%Z else Ok (Z.of_nat i)) =
                       Ok (E := LinalgError) (Z.of_nat (i + Z.to_nat k))).
        { subst L. destruct (Z.leb_spec 0 k); [|f_equal; lia]. rewrite i8_chk_ok by lia. f_equal. lia. }
        assert (Hir : i + Z.to_nat (- k) < r) by (subst L; destruct (Z.leb_spec 0 k); lia).
        assert (Hic : i + Z.to_nat k < c) by (subst L; destruct (Z.leb_spec 0 k); lia).
        rewrite Hrow, Hcol. apply wp_bind, wp_lift. cbn [rwp]. apply wp_bind, wp_lift. cbn [rwp].
        rewrite !Z.mod_small, !Nat2Z.id by lia.
        apply wp_bind, wp_lift. eapply rwp_m_get; [exact Hm|auto|auto|]. intros V.
        eapply wp_v_set; [exact HI|lia| |].
        + intros _ v' Hv'. eapply vec_is_ext; [exact Hv'|]. intros a Ha. unfold fupd1. cbv beta.
          destruct (Nat.eqb_spec a i) as [->|], (Nat.ltb_spec i (S i)); try lia; auto.
          * destruct (Nat.ltb_spec a i), (Nat.ltb_spec a (S i)); try lia; reflexivity.
        + intros e He. apply bad_Some_not in He. auto.
      - intros v Hv. rewrite Nat.max_0_l in Hv. eapply vec_is_ext; [exact Hv|]. intros a Ha. cbv beta.
        destruct (Nat.ltb_spec a (Z.to_nat L)); [reflexivity|lia]. }
    apply wp_exact in W. destruct W as (v & E1 & H1). unfold exec. cbv zeta in E1. rewrite E1. eauto.
  Qed.
End D.

(*@ C12_diag *)
(** C12: [diag(k)] for every i8 offset: the elements (i + max(-k,0), i + max(k,0)), as many as
    lie inside the matrix; an error exactly when there is none.  No overflow with or without
    overflow checks. *)
Lemma l_diag :
  forall (A : Arith) (OK : ArithOk A) (ck : bool) (m : Mat T) (r c : nat) (f : nat -> nat -> T) (k : Z),
  mat_is m r c f -> (-128 <= k <= 127)%Z ->
  exists n, (forall i, i < n <-> i + Z.to_nat (- k) < r /\ i + Z.to_nat k < c) /\
    match n with
    | 0 => m_diag ck m (Some k) = Err InvalidDiagonalLength
    | _ => exists v, m_diag ck m (Some k) = Ok v /\
             vec_is v n (fun i => f (i + Z.to_nat (- k)) (i + Z.to_nat k))
    end.
Proof.
  intros A OK ck m r c f k Hm Hk. pose proof (m_diag_ok ck m r c f k Hm Hk) as H. cbv zeta in H.
  match type of H with context [if ?n =? 0 then _ else _] => exists n; destruct n eqn:E end.
  - split; auto. intros i. destruct (mat_is_dim _ _ _ _ Hm). destruct (Z.leb_spec 0 k); lia.
  - split; auto. intros i. destruct (mat_is_dim _ _ _ _ Hm). destruct (Z.leb_spec 0 k); lia.
Qed.

(*@ C12_diag_default *)
(** C12: without offset, the main diagonal *)
Lemma l_diag_default :
  forall (A : Arith) (OK : ArithOk A) (ck : bool) (m : Mat T) (r c : nat) (f : nat -> nat -> T),
  mat_is m r c f -> exists v, m_diag ck m None = Ok v /\ vec_is v (min r c) (fun i => f i i).
Proof.
  intros A OK ck m r c f Hm.
  assert (E : m_diag ck m None = m_diag ck m (Some 0%Z)) by reflexivity. rewrite E.
  pose proof (m_diag_ok ck m r c f 0 Hm ltac:(lia)) as H. cbv zeta in H.
  destruct (mat_is_dim _ _ _ _ Hm). cbn [Z.leb Z.compare] in H. rewrite Z.sub_0_r, <- Nat2Z.inj_min, Nat2Z.id in H.
  destruct (Nat.eqb_spec (min r c) 0); [lia|]. destruct H as (v & Ev & Hv). exists v. split; auto.
  eapply vec_is_ext; [exact Hv|]. intros i Hi. cbn. rewrite Nat.add_0_r. reflexivity.
Qed.

(*@ C12_identity *)
Lemma l_identity :
  forall (A : Arith) (OK : ArithOk A) (m : Mat T) (r c : nat) (f : nat -> nat -> T), mat_is m r c f ->
  if r =? c then exists m', m_fill_identity m = (m', Ok tt) /\
                   mat_is m' r r (fun i j => if i =? j then f1 else f0)
  else m_fill_identity m = (m, Err NotSquare).
Proof.
  intros A OK m r c f Hm. unfold m_fill_identity.
  destruct (Nat.eqb_spec r c) as [<-|Hne].
  - erewrite sbind_ok by (unfold reads; rewrite (m_guard_square_is _ _ _ _ Hm), Nat.eqb_refl; reflexivity).
    eapply pointwise_m_ok; [|eapply m_loop_pointwise; [exact Hm|auto]].
    intros i j Hi Hj. cbv beta. destruct (i =? j); [apply ok_f1|apply ok_f0].
  - erewrite sbind_err; [reflexivity|]. unfold reads. rewrite (m_guard_square_is _ _ _ _ Hm).
    destruct (Nat.eqb_spec r c); [lia|reflexivity].
Qed.

(*@ C12_trace *)
(** C12: the trace is the left-to-right sum of the main diagonal of a square matrix (it is not
    checked for overflow) *)
Lemma l_trace :
  forall (A : Arith) (m : Mat T) (r c : nat) (f : nat -> nat -> T), mat_is m r c f ->
  m_trace m = if r =? c then Ok (fsum r (fun i => f i i)) else Err NotSquare.
Proof.
  intros A m r c f Hm. unfold m_trace. rewrite (m_guard_square_is _ _ _ _ Hm).
  destruct (Nat.eqb_spec r c) as [<-|Hne]; cbn [rbind]; [|reflexivity].
  rewrite (mi_rows _ _ _ _ Hm), (mi_cols _ _ _ _ Hm). unfold min_u8. rewrite Nat.ltb_irrefl.
  assert (W : rwp (rfold (range 0 r) (fun i trace => let? a := m_get m i i in Ok (trace + a)%F) f0)
     (fun x => x = fsum r (fun i => f i i)) (fun _ : LinalgError => False) False).
  { apply rwp_fold with (I := fun n x => x = fsum n (fun i => f i i)); auto.
    intros i acc Hi ->. apply rwp_bind. eapply rwp_m_get; [exact Hm|lia|lia|]. reflexivity. }
  unfold rwp in W. destruct (rfold _ _ _); try tauto. subst. reflexivity.
Qed.

(*@ example *)
Example C12_example :
  let A := F32 lm_id in
  let m := mk_mat 2 3 (map z32 [1; 2; 3; 4; 5; 6]%Z) in
  wfm m /\
  rmap show_v (m_diag true m (Some 1%Z)) = Ok (2, true, map sf [2; 6]%Z) /\
  rmap show_v (m_diag true m (Some (-1)%Z)) = Ok (1, true, map sf [4]%Z) /\
  rmap show_v (m_diag true m (Some (-128)%Z)) = Err InvalidDiagonalLength /\
  rmap show_v (m_diag true m (Some 127%Z)) = Err InvalidDiagonalLength.
Proof.
  cbv zeta. split; [apply wfm_b_ok; vm_compute; reflexivity|].
  repeat (split; [vm_compute; reflexivity|]). vm_compute; reflexivity.
Qed.
