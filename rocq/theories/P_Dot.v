(** C29: dot and outer products. *)
(*@+*)
From Coq Require Import List Arith ZArith Reals Lia Bool.
From Flocq Require Import Core BinarySingleNaN.
From Verif Require Import M_Base M_Arith M_Utils M_Vector M_Matrix M_F32 M_RX S_Spec S_Linalg P_Inst.
Import ListNotations.
Local Open Scope nat_scope.
(*@-*)
From Verif Require Import P_Hoare P_Cont P_Loops P_Access P_Pointwise P_Trans P_Float P_Product.

Section D.
  Context {A : Arith} {OK : ArithOk A}.
  Lemma rfold_fsum (r : nat) (g : nat -> T) (e : nat -> T -> res LinalgError T) :
    (forall i acc, i < r -> e i acc = Ok (acc + g i)%F) ->
    rfold (range 0 r) e f0 = Ok (fsum r g).
  Proof.
    intros H. assert (W : rwp (rfold (range 0 r) e f0) (fun x => x = fsum r g) (fun _ => False) False).
    { apply rwp_fold with (I := fun n x => x = fsum n g); auto.
      intros i acc Hi ->. rewrite H by lia. reflexivity. }
    unfold rwp in W. destruct (rfold _ _ _); try tauto. subst. reflexivity.
  Qed.
  Lemma v_dot_is u v n k fu fv : vec_is u n fu -> vec_is v k fv ->
    v_dot_product u v = if n =? k then Ok (fsum n (fun i => fu i * fv i)%F) else Err NotSameSize.
  Proof.
    intros Hu Hv. unfold v_dot_product. rewrite (v_same_ok _ _ _ _ _ _ Hu Hv). cbn [rbind].
    destruct (Nat.eqb_spec n k) as [<-|]; cbn [negb]; auto.
    rewrite (vi_rows _ _ _ Hu). apply rfold_fsum. intros i acc Hi.
    rewrite (vi_get _ _ _ Hu), (vi_get _ _ _ Hv) by auto. reflexivity.
  Qed.
  Lemma v_outer_is u v n k fu fv : vec_is u n fu -> vec_is v k fv ->
    pointwise_mnew n k (fun i j => fu i * fv j)%F (v_outer_product u v).
  Proof.
    intros Hu Hv. unfold v_outer_product.
    rewrite (v_get_rows_is _ _ _ Hu), (v_get_rows_is _ _ _ Hv). cbn [rbind].
    destruct (m_init_new n k (vec_is_dim _ _ _ Hu) (vec_is_dim _ _ _ Hv)) as (m0 & E0 & H0).
    rewrite (exec_step _ _ _ _ E0). eapply exec_pointwise_m.
    assert (Eq : for_ (range 0 n) (fun row => for_ (range 0 k) (fun col =>
              let! a := lift (v_get u row) in
              let! b := lift (v_get v col) in
              m_set row col (a * b)%F)) m0 =
       m_loop (fun _ row col => let? a := v_get u row in let? b := v_get v col in Ok (a * b)%F) m0).
    { unfold m_loop. rewrite (mi_rows _ _ _ _ H0), (mi_cols _ _ _ _ H0).
      assert (B : forall row col s, (let! a := lift (v_get u row) in let! b := lift (v_get v col) in
              m_set row col (a * b)%F) s =
          (let! x := reads (fun _ : Mat T => let? a := v_get u row in let? b := v_get v col in Ok (a * b)%F) in m_set row col x) s).
      { intros row col s. unfold sbind, lift, reads. destruct (v_get u row); cbn [rbind]; auto. destruct (v_get v col); auto. }
      assert (FE : forall l (b1 b2 : nat -> ST (Mat T) LinalgError unit) s, (forall i s, b1 i s = b2 i s) -> for_ l b1 s = for_ l b2 s).
      { intros l b1 b2 s H. revert s. induction l as [|i l IH]; intros s; cbn [for_]; auto.
        unfold sbind. rewrite H. destruct (b2 i s) as [s' [| |]]; auto. }
      apply FE. intros i s. apply FE. intros j s'. apply B. }
    rewrite Eq. eapply m_loop_pointwise; [exact H0|]. intros m' f' i j Hi Hj _ _.
    rewrite (vi_get _ _ _ Hu), (vi_get _ _ _ Hv) by auto. reflexivity.
  Qed.
End D.

(*@ C29_dot *)
(** C29: the dot product is the left-to-right sum of products; sizes must agree.  The result
    is not checked, so it may be infinite or NaN. *)
Lemma l_dot :
  forall (A : Arith) (u v : Vec T) (n k : nat) (fu fv : nat -> T), vec_is u n fu -> vec_is v k fv ->
  v_dot_product u v = if n =? k then Ok (fsum n (fun i => fu i * fv i)%F) else Err NotSameSize.
Proof. intros. eapply v_dot_is; eauto. Qed.

(*@ C29_dot_symmetric *)
(** C29: symmetric bit for bit in f32 *)
Lemma l_dot_sym :
  forall (lm : Libm), let A := F32 lm in forall (u v : Vec T) (n k : nat) (fu fv : nat -> T),
  vec_is u n fu -> vec_is v k fv -> v_dot_product u v = v_dot_product v u.
Proof.
  intros lm A u v n k fu fv Hu Hv. rewrite (v_dot_is _ _ _ _ _ _ Hu Hv), (v_dot_is _ _ _ _ _ _ Hv Hu).
  rewrite (Nat.eqb_sym k n). destruct (Nat.eqb_spec n k) as [<-|]; auto. f_equal.
  apply fsum_ext. intros t Ht. apply Bmult_comm.
Qed.

(*@ C29_dot_real *)
Lemma l_dot_real :
  forall (u v : Vec (T (Arith := RX))) (n : nat) (fu fv : nat -> R),
  vec_r u n fu -> vec_r v n fv -> v_dot_product u v = Ok (Some (rdot n fu fv)).
Proof.
  intros u v n fu fv Hu Hv. rewrite (v_dot_is _ _ _ _ _ _ Hu Hv), Nat.eqb_refl. f_equal.
  apply (fsum_RX n (fun t => fu t * fv t)%R).
Qed.

(*@ C29_outer *)
(** C29: the outer product; the first element (row-major) that overflows is reported *)
Lemma l_outer :
  forall (A : Arith) (OK : ArithOk A) (u v : Vec T) (n k : nat) (fu fv : nat -> T),
  vec_is u n fu -> vec_is v k fv -> pointwise_mnew n k (fun i j => fu i * fv j)%F (v_outer_product u v).
Proof. intros. apply v_outer_is; auto. Qed.

(*@ C29_outer_transpose *)
(** C29: in f32, the transpose of u v^T is v u^T bit for bit, and both succeed together *)
Lemma l_outer_tr :
  forall (lm : Libm), let A := F32 lm in forall (u v : Vec T) (n k : nat) (fu fv : nat -> T) (m : Mat T),
  vec_is u n fu -> vec_is v k fv -> v_outer_product u v = Ok m ->
  exists t p f, m_transpose m = (t, Ok tt) /\ v_outer_product v u = Ok p /\ mat_is t k n f /\ mat_is p k n f.
Proof.
  intros lm A u v n k fu fv m Hu Hv E.
  destruct (v_outer_is u v n k fu fv Hu Hv) as [(V & m' & E' & Hm)|(i & j & e & _ & _ & _ & _ & E')]; [|congruence].
  rewrite E in E'. injection E' as <-.
  destruct (m_transpose_ok m n k _ Hm) as (t & Et & Ht).
  destruct (pointwise_mnew_ok k n (fun i j => fv i * fu j)%F (v_outer_product v u)) as (p & Ep & Hp).
  - intros i j Hi Hj. change (fv i * fu j)%F with (Bmult mode_NE (fv i : f32) (fu j)). rewrite Bmult_comm. apply V; auto.
  - apply v_outer_is; auto.
  - exists t, p. eexists. conjs; eauto. eapply mat_is_ext; [exact Hp|]. intros i j Hi Hj. cbv beta. apply Bmult_comm.
Qed.

(*@ example *)
Example C29_example :
  let A := F32 lm_id in
  let u := mk_vec (map z32 [1; 2; 3]%Z) in
  let v := mk_vec (map z32 [4; -5; 6]%Z) in
  let w := mk_vec (map z32 [7; 8]%Z) in
  wfv u /\ wfv v /\ wfv w /\
  obs (v_dot_product u v) = Ok (sf 12) /\ obs (v_dot_product u w) = Err NotSameSize /\
  rmap show_m (v_outer_product u w) = Ok (3, 2, true, map sf [7; 8; 14; 16; 21; 24]%Z).
Proof.
  cbv zeta. do 3 (split; [apply wfv_b_ok; vm_compute; reflexivity|]).
  repeat (split; [vm_compute; reflexivity|]). vm_compute; reflexivity.
Qed.
