(** Generated by tools/gen_properties.py from P_Reach.v: property theorems only. *)

From Coq Require Import String List Arith ZArith NArith Bool Lia.
From Verif Require Import M_Base M_Arith M_Utils M_Vector M_Matrix M_Quaternion S_Spec S_Reach M_F32 P_Inst.
Import ListNotations.
Open Scope string_scope.
Open Scope list_scope.

From Verif Require Import P_Reach.

(** C01: every matrix a program can get hold of, whatever calls it made and whichever of them
    failed, is well formed; seen through the accessors: 1 to 4 rows and columns, and every
    element that can be read is finite. *)
Theorem C01_matrix :
  forall (A : Arith) (OK : ArithOk A) (ck : bool) (m : Mat T), reach ck (OM m) ->
  wfm m /\
  (forall r, m_get_rows m = Ok r -> 1 <= r <= 4) /\
  (forall c, m_get_cols m = Ok c -> 1 <= c <= 4) /\
  (forall i j x, m_get m i j = Ok x -> fnan x = false /\ finf x = false) /\
  (forall i j, m_get m i j <> Panic).
Proof. exact l_matrix. Qed.
Print Assumptions C01_matrix.

(** C01: the same for vectors. *)
Theorem C01_vector :
  forall (A : Arith) (OK : ArithOk A) (ck : bool) (v : Vec T), reach ck (OV v) ->
  wfv v /\
  (forall r, v_get_rows v = Ok r -> 1 <= r <= 4) /\
  (forall i x, v_get v i = Ok x -> fnan x = false /\ finf x = false) /\
  (forall i, v_get v i <> Panic).
Proof. exact l_vector. Qed.
Print Assumptions C01_vector.

(** C01: the shape of vectors of u8 (the permutations of [lup]). *)
Theorem C01_vector_u8 :
  forall (A : Arith) (OK : ArithOk A) (ck : bool) (p : Vec nat), reach ck (OU p) ->
  length (v_elems p) = 4 /\
  (forall r, v_get_rows p = Ok r -> 1 <= r <= 4) /\
  (forall i, v_get p i <> Panic).
Proof. exact l_vector_u8. Qed.
Print Assumptions C01_vector_u8.

(** C01: compiled without overflow checks, no public operation on containers a program can
    get hold of ever panics (no array index is ever out of range). *)
Theorem C01_no_panic :
  forall (A : Arith) (OK : ArithOk A) (fn : string) (ins outs : list obj) (e : ending) (ov : Prop),
  call false fn ins (outs, e) ov -> (forall x, In x ins -> reach false x) -> e <> Panicked.
Proof. exact l_no_panic. Qed.
Print Assumptions C01_no_panic.

(** C01: compiled with overflow checks (the default of debug builds), an operation panics only
    if its u8 arithmetic overflows: [add_row] and [add_col] at index 255, [del_row] and
    [is_lower_triangular] on an uninitialised matrix, and [eigen] with shifts on a 1 x 1
    matrix. *)
Theorem C01_checked_panic :
  forall (A : Arith) (OK : ArithOk A) (fn : string) (ins outs : list obj) (ov : Prop),
  call true fn ins (outs, Panicked) ov -> (forall x, In x ins -> reach true x) ->
  (fn = "Matrix::add_row" /\ exists v m, ins = [OV v; OM m] /\ snd (m_add_row true v 255 m) = Panic) \/
  (fn = "Matrix::add_col" /\ exists v m, ins = [OV v; OM m] /\ snd (m_add_col true v 255 m) = Panic) \/
  (fn = "Matrix::del_row" /\ exists m, ins = [OM m] /\ m_initialized m = false) \/
  (fn = "Matrix::is_lower_triangular" /\ exists m, ins = [OM m] /\ m_initialized m = false) \/
  (fn = "linalg::eigen" /\
     exists m n, ins = [OM m] /\ m_get_rows m = Ok 1 /\ eigen true m n true = Panic).
Proof. exact l_checked_panic. Qed.
Print Assumptions C01_checked_panic.

(** C01: these panics do happen: "no public operation panics" fails in a program compiled with
    overflow checks. *)
Theorem C01_panics_refuted :
  forall lm : Libm, let A := F32 lm in
  exists ov1 ov2 ov3 ov4 ov5 m1 m2 (m : Mat T) (v : Vec T),
  reach true (OM m) /\ reach true (OV v) /\ reach true (OM mnew) /\
  call true "Matrix::add_row" [OV v; OM m] ([OM m1], Panicked) ov1 /\
  call true "Matrix::add_col" [OV v; OM m] ([OM m2], Panicked) ov2 /\
  call true "Matrix::del_row" [OM mnew] ([OM mnew], Panicked) ov3 /\
  call true "Matrix::is_lower_triangular" [OM mnew] ([], Panicked) ov4 /\
  call true "linalg::eigen" [OM m] ([], Panicked) ov5.
Proof. exact l_panics. Qed.
Print Assumptions C01_panics_refuted.

(** not vacuous: a failed [add_row] (the vector is uninitialised) leaves a reachable 2 x 1
    matrix behind, which the theorems above cover. *)
Example C01_example :
  forall lm : Libm, exists m : Mat (T (Arith := F32 lm)),
  reach true (OM m) /\ m_get_rows m = Ok 2 /\ m_get m 1 0 = Ok (f0 (A := F32 lm)).
Proof.
  intros lm. set (m0 := fst (m_init 1 1 mnew) : Mat (T (Arith := F32 lm))).
  exists (fst (m_add_row true vnew 1 m0)). split; [|split; vm_compute; reflexivity].
  assert (R0 : reach (A := F32 lm) true (OM m0)).
  { apply (reach_call true "Matrix::init" [OM mnew] [OM m0] Success False); [exact (call_m_init true 1 1 mnew)| |left; reflexivity].
    intros x [<-|[]]. apply reach_m. }
  assert (E : snd (m_add_row true vnew 1 m0) = Err NotInit) by (vm_compute; reflexivity).
  pose proof (call_m_add_row true vnew 1 m0 ltac:(lia)) as C. unfold mut in C. rewrite E in C.
  apply (reach_call true _ _ _ _ _ _ C); [|left; reflexivity].
  intros x [<-|[<-|[]]]; [apply reach_v|exact R0].
Qed.
