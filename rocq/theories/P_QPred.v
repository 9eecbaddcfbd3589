(** C37: quaternion predicates and accessors. *)
(*@+*)
From Coq Require Import List Arith ZArith Reals Lia Bool Lra.
From Flocq Require Import Core BinarySingleNaN.
From Verif Require Import M_Base M_Arith M_Utils M_Vector M_Matrix M_Quaternion M_F32 M_RX
  S_Spec S_Compare S_Linalg S_Norm S_Quat P_Inst P_InstQ.
Import ListNotations.
Local Open Scope nat_scope.
(*@-*)
From Verif Require Import P_Hoare P_Cont P_Loops P_Access P_Pointwise P_Trans P_Float P_Product
  P_Compare P_Dot P_Norm P_FErr P_Norm32 P_Quat P_Rot.

(*@ C37_get *)
(** C37: the getters return exactly the named components *)
Lemma l_get :
  forall (A : Arith) (q : Vec T) (f : nat -> T), vec_is q 4 f ->
  q_get_qw q = Ok (f 0) /\ q_get_qx q = Ok (f 1) /\ q_get_qy q = Ok (f 2) /\ q_get_qz q = Ok (f 3).
Proof.
  intros A q f H. unfold q_get_qw, q_get_qx, q_get_qy, q_get_qz.
  conjs; apply (q_get_is _ _ _ H); lia.
Qed.

(*@ C37_get_vector_part *)
(** C37: [get_vector_part] returns the 3-vector (x, y, z) *)
Lemma l_vector_part :
  forall (A : Arith) (OK : ArithOk A) (q : Vec T) (f : nat -> T), vec_is q 4 f ->
  exists v, q_get_vector_part q = Ok v /\ vec_is v 3 (triple (f 1) (f 2) (f 3)).
Proof. intros A OK q f H. apply q_get_vector_part_ok; auto. Qed.

(*@ C37_set *)
(** C37: a setter writes its own component only; a value that is not finite is refused and nothing changes *)
Lemma l_set :
  forall (A : Arith) (q : Vec T) (f : nat -> T) (x : T), vec_is q 4 f ->
  let outcome (cmd : T -> ST (Vec T) LinalgError unit) (i : nat) :=
    (valid x -> exists q', cmd x q = (q', Ok tt) /\ vec_is q' 4 (fun k => if k =? i then x else f k)) /\
    (forall k, bad x = Some k -> cmd x q = (q, Err (UtilsErr k))) in
  outcome q_set_qw 0 /\ outcome q_set_qx 1 /\ outcome q_set_qy 2 /\ outcome q_set_qz 3.
Proof.
  intros A q f x H outcome.
  assert (K : forall i, i < 4 -> outcome (q_set i) i).
  { intros i Hi. unfold outcome, q_set. split.
    - intros V. rewrite guard_bind by (unfold reads; rewrite (q_guard_ok _ _ H); reflexivity).
      destruct (v_set_in q 4 f i x H Hi V) as (v' & E & H'). exists v'. split; [exact E|exact H'].
    - intros k Hk. rewrite guard_bind by (unfold reads; rewrite (q_guard_ok _ _ H); reflexivity).
      eapply v_set_bad; eauto. }
  conjs; apply K; lia.
Qed.

(*@ C37_fill *)
(** C37: [fillq] writes the four components in order, stopping at the first that is not finite;
    [fill_identity] gives 1, 0, 0, 0 *)
Lemma l_fill :
  forall (A : Arith) (OK : ArithOk A) (q : Vec T) (f : nat -> T) (w x y z : T), vec_is q 4 f ->
  pointwise_v 4 f (quad w x y z) (q_fillq w x y z q) /\
  exists q', q_fill_identity q = (q', Ok tt) /\ vec_is q' 4 (quad f1 f0 f0 f0).
Proof.
  intros A OK q f w x y z H. split; [apply q_fillq_pw; auto|].
  unfold q_fill_identity. eapply q_fillq_ok; eauto; (apply ok_f1 || apply ok_f0).
Qed.

(*@ C37_is_real *)
(** C37: [is_real], [is_pure], [is_identity] *)
Lemma l_is_real :
  forall (A : Arith) (OK : ArithOk A) (q : Vec T) (f : nat -> T), vec_is q 4 f ->
  decides (q_is_real q) (within EPSILON (f 1) f0 /\ within EPSILON (f 2) f0 /\ within EPSILON (f 3) f0) /\
  decides (q_is_pure q) (within EPSILON (f 0) f0) /\
  decides (q_is_identity q) (within EPSILON (f 0) f1 /\
    within EPSILON (f 1) f0 /\ within EPSILON (f 2) f0 /\ within EPSILON (f 3) f0).
Proof.
  intros A OK q f H.
  assert (R : decides (rall (range 1 4) (fun row => let? x := v_get q row in allclose_l x f0 EPSILON))
                (within EPSILON (f 1) f0 /\ within EPSILON (f 2) f0 /\ within EPSILON (f 3) f0)).
  { eapply decides_iff.
    - apply rall_decides with (t := fun i => within EPSILON (f i) f0). intros i Hi.
      rewrite (vi_get _ _ _ H) by lia. cbn [rbind]. apply allclose_ok; [eapply vec_is_valid; eauto; lia|apply ok_f0].
    - split.
      + intros K. conjs; apply K; lia.
      + intros (K1 & K2 & K3) i Hi. destruct i as [|[|[|[|i]]]]; auto; lia. }
  conjs.
  - unfold q_is_real. rewrite (q_guard_ok _ _ H). cbn [rbind]. exact R.
  - unfold q_is_pure. rewrite (q_guard_ok _ _ H). cbn [rbind]. rewrite (vi_get _ _ _ H) by lia. cbn [rbind].
    apply allclose_ok; [eapply vec_is_valid; eauto; lia|apply ok_f0].
  - unfold q_is_identity. rewrite (q_guard_ok _ _ H). cbn [rbind]. rewrite (vi_get _ _ _ H) by lia. cbn [rbind].
    destruct (allclose_ok (f 0) f1 EPSILON) as (b & E & Hb); [eapply vec_is_valid; eauto; lia|apply ok_f1|].
    rewrite E. cbn [rbind]. destruct b; cbn [negb].
    + eapply decides_iff; [exact R|]. tauto.
    + exists false. split; auto. intuition congruence.
Qed.

(*@ C37_is_versor *)
(** C37: [is_versor] compares the norm with 1; if the norm overflowed it reports the error *)
Lemma l_is_versor :
  forall (A : Arith) (OK : ArithOk A) (q : Vec T) (f : nat -> T) (N : T), vec_is q 4 f -> v_calculate_norm q = Ok N ->
  (valid N -> decides (q_is_versor q) (within EPSILON N f1)) /\
  (forall k, bad N = Some k -> q_is_versor q = Err (UtilsErr k)).
Proof.
  intros A OK q f N H HN. unfold q_is_versor. rewrite (q_guard_ok _ _ H). cbn [rbind]. rewrite HN. cbn [rbind].
  split.
  - intros V. apply allclose_ok; [exact V|apply ok_f1].
  - intros k Hk. unfold allclose_l, allclose. rewrite is_valid_value_bad, Hk. reflexivity.
Qed.

(*@ C37_is_versor_real *)
(** C37: in exact arithmetic [is_versor] holds exactly when | |q| - 1 | <= EPSILON *)
Lemma l_is_versor_real :
  forall (v : Vec (T (Arith := RX))) (q : quat), quat_r v q ->
  decides (q_is_versor v) (Rabs (qnorm q - 1) <= eps)%R.
Proof.
  intros v q H. pose proof (v_norm_r _ _ _ H) as N.
  destruct (l_is_versor RX _ v _ _ H N) as [D _]. specialize (D (valid_RX _)). eapply decides_iff; [exact D|].
  unfold within. rewrite f1_RX, eps_RX, rnorm_qnorm. cbn.
  assert (E0 : (0 < eps < 1/2)%R) by (unfold eps; lra).
  destruct (Rle_bool_spec (qnorm q) eps) as [L|L].
  - split; intros K.
    + destruct (Rle_bool_spec (Rabs (0 - 1)) eps) as [B|B]; [|discriminate].
      rewrite Rminus_0_l, Rabs_Ropp, Rabs_R1 in B. lra.
    + apply Rabs_le_inv in K. exfalso. lra.
  - split; intros K.
    + destruct (Rle_bool_spec (Rabs (qnorm q - 1)) eps) as [B|B]; [exact B|discriminate].
    + apply Rle_bool_true. exact K.
Qed.

(*@ C37_sizes *)
(** C37: on a vector of size other than 4 every one of them answers InvalidSize and changes nothing *)
Lemma l_qpred_sizes :
  forall (A : Arith) (q : Vec T) (n : nat) (f : nat -> T) (w x y z : T), vec_is q n f -> n <> 4 ->
  q_is_quaternion q = Ok false /\
  q_is_real q = Err InvalidSize /\ q_is_pure q = Err InvalidSize /\ q_is_versor q = Err InvalidSize /\
  q_is_identity q = Err InvalidSize /\ q_get_vector_part q = Err InvalidSize /\
  q_get_qw q = Err InvalidSize /\ q_get_qx q = Err InvalidSize /\ q_get_qy q = Err InvalidSize /\ q_get_qz q = Err InvalidSize /\
  q_set_qw x q = (q, Err InvalidSize) /\ q_set_qx x q = (q, Err InvalidSize) /\
  q_set_qy x q = (q, Err InvalidSize) /\ q_set_qz x q = (q, Err InvalidSize) /\
  q_fillq w x y z q = (q, Err InvalidSize) /\ q_fill_identity q = (q, Err InvalidSize).
Proof.
  intros A q n f w x y z H N. pose proof (q_guard_not _ _ _ H N) as G.
  split. { unfold q_is_quaternion. rewrite (v_get_rows_is _ _ _ H). cbn [rbind]. destruct (Nat.eqb_spec n 4); [lia|reflexivity]. }
  unfold q_is_real, q_is_pure, q_is_versor, q_is_identity, q_get_vector_part, q_get_qw, q_get_qx, q_get_qy, q_get_qz, q_get,
    q_set_qw, q_set_qx, q_set_qy, q_set_qz, q_fill_identity, q_set, q_fillq, sbind, reads. rewrite G. conjs; reflexivity.
Qed.

(*@ example *)
Example C37_example :
  let A := F32 lm_id in
  let q := mk_vec (A := F32 lm_id) [z32 1; z32 0; z32 2; z32 0] in
  wfv q /\ q_is_identity q = Ok false /\ q_is_real q = Ok false /\ q_is_pure q = Ok false /\
  q_is_versor q = Ok false /\ obs (q_get_qy q) = Ok (sf 2).
Proof. split; [apply wfv_b_ok; reflexivity|]. vm_compute. auto. Qed.
