(** C01: what a program can get hold of is well formed; which calls can panic. *)
(*@+*)
From Coq Require Import String List Arith ZArith NArith Bool Lia.
From Verif Require Import M_Base M_Arith M_Utils M_Vector M_Matrix M_Quaternion S_Spec S_Reach M_F32 P_Inst.
Import ListNotations.
Open Scope string_scope.
Open Scope list_scope.
(*@-*)
From Verif Require Import P_Hoare P_Cont P_Safe P_SafeOps.

Section PReach.
  Context {A : Arith} {OK : ArithOk A}.
  Definition gobj (o : obj) : Prop := match o with OM m => wfm m | OV v => wfv v | OU p => wfu p end.
  Class Compat X (ox : Objs X) (g : Good X) : Prop := compat : forall a, good a -> forall o, In o (objs a) -> gobj o.
  #[local] Instance compat_m : Compat (Mat T) objs_m good_m.
  Proof. intros m H o [<-|[]]. exact H. Qed.
  #[local] Instance compat_v : Compat (Vec T) objs_v good_v.
  Proof. intros m H o [<-|[]]. exact H. Qed.
  #[local] Instance compat_u : Compat (Vec nat) objs_u good_u.
  Proof. intros m H o [<-|[]]. exact H. Qed.
  #[local] Instance compat_pair X Y ox gx oy gy (cx : Compat X ox gx) (cy : Compat Y oy gy) : Compat (X * Y) (objs_pair ox oy) (good_pair gx gy).
  Proof. intros m [H1 H2] o I. unfold objs, objs_pair in I. apply in_app_or in I. destruct I as [I|I]; [exact (cx _ H1 _ I)|exact (cy _ H2 _ I)]. Qed.
  #[local] Instance compat_none X g : Compat X (objs_none X) g.
  Proof. intros m _ o []. Qed.

  Definition fine (P : Prop) (q : list obj * ending) : Prop :=
    (forall o, In o (fst q) -> gobj o) /\ (snd q = Panicked -> P).
  Lemma out_fine P {X} {ox : Objs X} {g : Good X} {c : Compat X ox g} (r : res LinalgError X) : R P r -> fine P (out r).
  Proof.
    unfold R, rwp, fine, out, objs_res, ending_of. cbn. destruct r; intros H; split; auto; try (intros ? []); try discriminate.
    exact (c _ H).
  Qed.
  Lemma mut_fine P {S X} {gs : Good S} {ox : Objs X} {g : Good X} {c : Compat X ox g} inj (o : S * res LinalgError X) :
    (forall s, good s -> gobj (inj s)) -> Wo P o -> fine P (mut inj o).
  Proof.
    intros J [H1 H2]. destruct (out_fine P (snd o) H2) as [F1 F2]. split; [|exact F2].
    intros x [<-|I]; auto.
  Qed.
  Lemma uninit (m : Mat T) : wfm m -> m_rows m = 0 -> m_initialized m = false.
  Proof. intros H Z. destruct (m_initialized m) eqn:I; auto. pose proof (wfm_pos m H I). lia. Qed.

  Lemma rows1 (m : Mat T) : wfm m -> m_rows m = 1 -> m_initialized m = true -> m_get_rows m = Ok 1.
  Proof. intros H Z I. unfold m_get_rows. rewrite I, Z. reflexivity. Qed.

  Lemma eigen_S' ck (a : Mat T) n s : wfm a -> R (ck = true /\ s = true /\ m_get_rows a = Ok 1) (eigen ck a n s).
  Proof.
    intros H. destruct (m_initialized a) eqn:I.
    - apply eigen_S; auto. intros. repeat split; auto. apply rows1; auto.
    - unfold eigen, m_guard_square, m_is_square. rewrite I. exact Logic.I.
  Qed.

  Lemma call_fine ck fn ins q ov : call ck fn ins q ov -> (forall x, In x ins -> gobj x) -> fine (ck = true /\ ov) q.
  Proof.
    intros C; destruct C; intros G.
    all: repeat match type of G with
      | forall x, In x (?o :: ?l) -> _ => let H := fresh "G" in pose proof (G o (or_introl eq_refl)) as H; cbn [gobj] in H;
          assert (G' : forall x, In x l -> gobj x) by (intros ? ?; apply G; right; assumption); clear G; rename G' into G end.
    all: clear G.
    all: first [refine (out_fine _ _ _) | refine (mut_fine _ (gs := good_m) OM _ (fun s H => H) _) | refine (mut_fine _ (gs := good_v) OV _ (fun s H => H) _) | refine (mut_fine _ (gs := good_u) OU _ (fun s H => H) _)].
    all: try solve [auto with safe].
    - apply m_add_row_S; auto. intros. split; auto. lia.
    - apply m_add_col_S; auto. intros. split; auto. lia.
    - apply m_del_row_S; auto using uninit.
    - apply m_is_lower_triangular_S; auto using uninit.
    - apply m_det_naive_S; auto.
    - apply m_diag_S; auto.
    - apply eigen_S'; auto.
  Qed.

  Lemma reach_good ck o : reach ck o -> gobj o.
  Proof.
    induction 1 as [| | |fn ins outs e ov o C _ IH I]; [apply mnew_good|apply vnew_good|apply vu_new_good|].
    exact (proj1 (call_fine ck fn ins (outs, e) ov C IH) o I).
  Qed.
End PReach.

Lemma nth_valid {A : Arith} l i x : Forall valid l -> nth_error l i = Some x -> fnan x = false /\ finf x = false.
Proof. intros F N. apply nth_error_In in N. exact (proj1 (Forall_forall _ _) F x N). Qed.

Lemma panicked {X} (r : res LinalgError X) : ending_of r = Panicked -> r = Panic.
Proof. destruct r; [discriminate|discriminate|reflexivity]. Qed.

(*@ C01_matrix *)
(** C01: every matrix a program can get hold of, whatever calls it made and whichever of them
    failed, is well formed; seen through the accessors: 1 to 4 rows and columns, and every
    element that can be read is finite. *)
Lemma l_matrix :
  forall (A : Arith) (OK : ArithOk A) (ck : bool) (m : Mat T), reach ck (OM m) ->
  wfm m /\
  (forall r, m_get_rows m = Ok r -> 1 <= r <= 4) /\
  (forall c, m_get_cols m = Ok c -> 1 <= c <= 4) /\
  (forall i j x, m_get m i j = Ok x -> fnan x = false /\ finf x = false) /\
  (forall i j, m_get m i j <> Panic).
Proof.
  intros A OK ck m Rm. pose proof (reach_good ck _ Rm) as H. cbn in H. split; [exact H|].
  pose proof (wfm_rows m H). pose proof (wfm_cols m H). pose proof (wfm_pos m H) as Hp.
  split; [|split; [|split]].
  - intros r. unfold m_get_rows. destruct (m_initialized m); [|discriminate]. intros [= <-]. specialize (Hp eq_refl). lia.
  - intros r. unfold m_get_cols. destruct (m_initialized m); [|discriminate]. intros [= <-]. specialize (Hp eq_refl). lia.
  - intros i j x G. pose proof (m_get_S False m i j H) as S. clear S. revert G. unfold m_get. destruct (m_initialized m); [|discriminate]. cbn.
    destruct (is_valid_row i (m_rows m)) as [[]| |]; cbn; try discriminate. destruct (is_valid_col j (m_cols m)) as [[]| |]; cbn; try discriminate.
    unfold arr_get. destruct (nth_error (m_elems m) _) eqn:N; cbn; try discriminate. intros [= <-]. exact (nth_valid _ _ _ (wfm_fin m H) N).
  - intros i j G. pose proof (m_get_S False m i j H) as S. rewrite G in S. exact S.
Qed.

(*@ C01_vector *)
(** C01: the same for vectors. *)
Lemma l_vector :
  forall (A : Arith) (OK : ArithOk A) (ck : bool) (v : Vec T), reach ck (OV v) ->
  wfv v /\
  (forall r, v_get_rows v = Ok r -> 1 <= r <= 4) /\
  (forall i x, v_get v i = Ok x -> fnan x = false /\ finf x = false) /\
  (forall i, v_get v i <> Panic).
Proof.
  intros A OK ck m Rm. pose proof (reach_good ck _ Rm) as H. cbn in H. split; [exact H|].
  pose proof (wfv_rows m H). pose proof (wfv_pos m H) as Hp.
  split; [|split].
  - intros r. unfold v_get_rows. destruct (v_initialized m); [|discriminate]. intros [= <-]. specialize (Hp eq_refl). lia.
  - intros i x. unfold v_get. destruct (v_initialized m); [|discriminate]. cbn.
    destruct (is_valid_row i (v_rows m)) as [[]| |]; cbn; try discriminate.
    unfold arr_get. destruct (nth_error (v_elems m) _) eqn:N; cbn; try discriminate. intros [= <-]. exact (nth_valid _ _ _ (wfv_fin m H) N).
  - intros i G. pose proof (v_get_S False m i H) as S. rewrite G in S. exact S.
Qed.

(*@ C01_vector_u8 *)
(** C01: the shape of vectors of u8 (the permutations of [lup]). *)
Lemma l_vector_u8 :
  forall (A : Arith) (OK : ArithOk A) (ck : bool) (p : Vec nat), reach ck (OU p) ->
  length (v_elems p) = 4 /\
  (forall r, v_get_rows p = Ok r -> 1 <= r <= 4) /\
  (forall i, v_get p i <> Panic).
Proof.
  intros A OK ck m Rm. pose proof (reach_good ck _ Rm) as H. cbn in H. split; [exact (wfu_len m H)|].
  pose proof (wfu_rows m H). pose proof (wfu_pos m H) as Hp. split.
  - intros r. unfold v_get_rows. destruct (v_initialized m); [|discriminate]. intros [= <-]. specialize (Hp eq_refl). lia.
  - intros i G. pose proof (vu_get_S False m i H) as S. rewrite G in S. exact S.
Qed.

(*@ C01_no_panic *)
(** C01: compiled without overflow checks, no public operation on containers a program can
    get hold of ever panics (no array index is ever out of range). *)
Lemma l_no_panic :
  forall (A : Arith) (OK : ArithOk A) (fn : string) (ins outs : list obj) (e : ending) (ov : Prop),
  call false fn ins (outs, e) ov -> (forall x, In x ins -> reach false x) -> e <> Panicked.
Proof.
  intros A OK fn ins outs e ov C G ->. destruct (proj2 (call_fine false fn ins (outs, Panicked) ov C (fun x I => reach_good _ x (G x I))) eq_refl) as [D _]. discriminate D.
Qed.

(*@ C01_checked_panic *)
(** C01: compiled with overflow checks (the default of debug builds), an operation panics only
    if its u8 arithmetic overflows: [add_row] and [add_col] at index 255, [del_row] and
    [is_lower_triangular] on an uninitialised matrix, and [eigen] with shifts on a 1 x 1
    matrix. *)
Lemma l_checked_panic :
  forall (A : Arith) (OK : ArithOk A) (fn : string) (ins outs : list obj) (ov : Prop),
  call true fn ins (outs, Panicked) ov -> (forall x, In x ins -> reach true x) ->
  (fn = "Matrix::add_row" /\ exists v m, ins = [OV v; OM m] /\ snd (m_add_row true v 255 m) = Panic) \/
  (fn = "Matrix::add_col" /\ exists v m, ins = [OV v; OM m] /\ snd (m_add_col true v 255 m) = Panic) \/
  (fn = "Matrix::del_row" /\ exists m, ins = [OM m] /\ m_initialized m = false) \/
  (fn = "Matrix::is_lower_triangular" /\ exists m, ins = [OM m] /\ m_initialized m = false) \/
  (fn = "linalg::eigen" /\
     exists m n, ins = [OM m] /\ m_get_rows m = Ok 1 /\ eigen true m n true = Panic).
Proof.
  intros A OK fn ins outs ov C G.
  pose proof (proj2 (call_fine true fn ins (outs, Panicked) ov C (fun x I => reach_good _ x (G x I))) eq_refl) as [_ Ov].
  clear G. remember (outs, Panicked) as q eqn:Q. destruct C; try destruct Ov; subst.
  all: unfold mut, out in Q; apply (f_equal snd) in Q; cbn [snd] in Q; apply panicked in Q; eauto 12.
Qed.

(*@ C01_panics_refuted *)
(** C01: these panics do happen: "no public operation panics" fails in a program compiled with
    overflow checks. *)
Lemma l_panics :
  forall lm : Libm, let A := F32 lm in
  exists ov1 ov2 ov3 ov4 ov5 m1 m2 (m : Mat T) (v : Vec T),
  reach true (OM m) /\ reach true (OV v) /\ reach true (OM mnew) /\
  call true "Matrix::add_row" [OV v; OM m] ([OM m1], Panicked) ov1 /\
  call true "Matrix::add_col" [OV v; OM m] ([OM m2], Panicked) ov2 /\
  call true "Matrix::del_row" [OM mnew] ([OM mnew], Panicked) ov3 /\
  call true "Matrix::is_lower_triangular" [OM mnew] ([], Panicked) ov4 /\
  call true "linalg::eigen" [OM m] ([], Panicked) ov5.
Proof.
  intros lm A.
  set (m := fst (m_init 1 1 mnew)). set (v := fst (v_init 1 vnew)).
  assert (P1 : snd (m_add_row true v 255 m) = Panic) by (vm_compute; reflexivity).
  assert (P2 : snd (m_add_col true v 255 m) = Panic) by (vm_compute; reflexivity).
  assert (P3 : m_del_row true 0 mnew = (mnew, Panic)) by reflexivity.
  assert (P4 : m_is_lower_triangular true mnew = Panic) by reflexivity.
  assert (P5 : eigen true m 1 true = Panic) by (vm_compute; reflexivity).
  eexists _, _, _, _, _, (fst (m_add_row true v 255 m)), (fst (m_add_col true v 255 m)), m, v.
  split; [|split; [|split; [|split; [|split; [|split; [|split]]]]]].
  - apply (reach_call true "Matrix::init" [OM mnew] [OM m] Success False); [exact (call_m_init true 1 1 mnew)| |left; reflexivity].
    intros x [<-|[]]. apply reach_m.
  - apply (reach_call true "Vector<f32>::init" [OV vnew] [OV v] Success False); [exact (call_v_init true 1 vnew)| |left; reflexivity].
    intros x [<-|[]]. apply reach_v.
  - apply reach_m.
  - pose proof (call_m_add_row true v 255 m ltac:(lia)) as C. unfold mut in C. rewrite P1 in C. exact C.
  - pose proof (call_m_add_col true v 255 m ltac:(lia)) as C. unfold mut in C. rewrite P2 in C. exact C.
  - pose proof (call_m_del_row true 0 mnew) as C. rewrite P3 in C. exact C.
  - pose proof (call_m_is_lower_triangular true mnew) as C. rewrite P4 in C. exact C.
  - pose proof (call_eigen true m 1 true) as C. rewrite P5 in C. exact C.
Qed.

(*@ example *)
(** not vacuous: a failed [add_row] (the vector is uninitialised) leaves a reachable 2 x 1
    matrix behind, which the theorems above cover. *)
Example C01_example :
  forall lm : Libm, exists m : Mat (T (Arith := F32 lm)),
  reach true (OM m) /\ m_get_rows m = Ok 2 /\ m_get m 1 0 = Ok (f0 (A := F32 lm)).
Proof.
  intros lm. set (m0 := fst (m_init 1 1 mnew) : Mat (T (Arith := F32 lm))).
  exists (fst (m_add_row true vnew 1 m0)). split; [|split; vm_compute; reflexivity].
  assert (R0 : reach (A := F32 lm) true (OM m0)).
  { apply (reach_call true "Matrix::init" [OM mnew] [OM m0] Success False); [exact (call_m_init true 1 1 mnew)| |left; reflexivity].
    intros x [<-|[]]. apply reach_m. }
  assert (E : snd (m_add_row true vnew 1 m0) = Err NotInit) by (vm_compute; reflexivity).
  pose proof (call_m_add_row true vnew 1 m0 ltac:(lia)) as C. unfold mut in C. rewrite E in C.
  apply (reach_call true _ _ _ _ _ _ C); [|left; reflexivity].
  intros x [<-|[<-|[]]]; [apply reach_v|exact R0].
Qed.
