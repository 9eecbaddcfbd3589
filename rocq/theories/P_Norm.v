(** C27: norm and normalisation over the reals. *)
(*@+*)
From Coq Require Import List Arith ZArith Reals Lia Bool Lra.
From Flocq Require Import Core BinarySingleNaN.
From Verif Require Import M_Base M_Arith M_Utils M_Vector M_Matrix M_F32 M_RX S_Spec S_Linalg S_Norm P_Inst.
Import ListNotations.
Local Open Scope nat_scope.
(*@-*)
From Verif Require Import P_Hoare P_Cont P_Loops P_Access P_Pointwise P_Trans P_Float P_Product P_Dot.

Section N.
  Context {A : Arith}.
  Definition flush (x : T) : T := if (x <=? EPSILON)%F then f0 else x.
  Lemma v_norm_is v n f : vec_is v n f ->
    v_calculate_norm v = Ok (flush (fsqrt (fsum n (fun i => f i * f i)%F))).
  Proof.
    intros Hv. unfold v_calculate_norm. rewrite (vi_rows _ _ _ Hv).
    erewrite rfold_fsum; [reflexivity|]. intros i acc Hi. rewrite (vi_get _ _ _ Hv) by auto. reflexivity.
  Qed.
  Lemma v_normalize_pw v n f : vec_is v n f ->
    let nn := flush (fsqrt (fsum n (fun i => f i * f i)%F)) in
    pointwise_v n f (fun i => if (nn >? EPSILON)%F then (f i / nn)%F else f0) (v_normalize v).
  Proof.
    intros Hv nn. unfold v_normalize.
    erewrite sbind_ok by (unfold reads; rewrite (v_norm_is _ _ _ Hv); reflexivity). fold nn.
    destruct (nn >? EPSILON)%F eqn:E.
    - eapply v_loop_pointwise; [exact Hv|]. intros v' f' i Hi Hv' Hf.
      rewrite (vi_get _ _ _ Hv') by auto. rewrite Hf. reflexivity.
    - eapply v_fill_pw; eauto.
  Qed.
End N.

Lemma rdot_pos n x : (0 <= rdot n x x)%R.
Proof. unfold rdot. induction n as [|n IH]; cbn; [lra|]. pose proof (Rle_0_sqr (x n)) as H. unfold Rsqr in H. lra. Qed.
Lemma rnorm_pos n x : (0 <= rnorm n x)%R.
Proof. apply sqrt_pos. Qed.
Lemma rnorm_sqr n x : (rnorm n x * rnorm n x = rdot n x x)%R.
Proof. apply sqrt_sqrt, rdot_pos. Qed.
Lemma rdot_ext n x y x' y' : (forall i, i < n -> x i = x' i) -> (forall i, i < n -> y i = y' i) ->
  rdot n x y = rdot n x' y'.
Proof. intros Hx Hy. apply Rsum_ext. intros i Hi. rewrite Hx, Hy by auto. reflexivity. Qed.
Lemma rnorm_ext n x y : (forall i, i < n -> x i = y i) -> rnorm n x = rnorm n y.
Proof. intros H. unfold rnorm. rewrite (rdot_ext n x x y y) by auto. reflexivity. Qed.
Lemma rnorm_div n x a : (0 < a)%R -> rnorm n (fun i => x i / a)%R = (rnorm n x / a)%R.
Proof.
  intros Ha. unfold rnorm, rdot.
  rewrite (Rsum_ext n _ (fun i => (/ (a * a)) * (x i * x i))%R) by (intros; field; lra).
  rewrite Rsum_scal. rewrite Rmult_comm. fold (Rdiv (Rsum n (fun i => x i * x i)%R) (a * a)).
  rewrite sqrt_div_alt, sqrt_square by nra. reflexivity.
Qed.
Lemma eps_RX : EPSILON (A := RX) = Some eps.
Proof. reflexivity. Qed.
Lemma f0_RX : f0 (A := RX) = Some 0%R.
Proof. unfold f0. cbn. f_equal. lra. Qed.
Lemma f1_RX : f1 (A := RX) = Some 1%R.
Proof. unfold f1. cbn. f_equal. lra. Qed.
Lemma norm_RX n (x : nat -> R) :
  fsqrt (Arith := RX) (fsum (A := RX) n (fun i => fmul (Arith := RX) (Some (x i)) (Some (x i)))) = Some (rnorm n x).
Proof.
  change (fun i => fmul (Arith := RX) (Some (x i)) (Some (x i))) with (fun i => Some (x i * x i)%R).
  rewrite fsum_RX. cbn. rewrite Rlt_bool_false by apply rdot_pos. reflexivity.
Qed.
Lemma flush_RX a : flush (A := RX) (Some a) = Some (if Rle_bool a eps then 0 else a)%R.
Proof.
  unfold flush. rewrite eps_RX, f0_RX. cbn. destruct (Rle_bool a eps); reflexivity.
Qed.

(*@ C27_norm *)
(** C27: [calculate_norm] is the Euclidean norm, flushed to 0 when it is at most EPSILON *)
Lemma l_norm :
  forall (v : Vec (T (Arith := RX))) (n : nat) (x : nat -> R), vec_r v n x ->
  ((rnorm n x <= eps)%R -> v_calculate_norm v = Ok (Some 0%R)) /\
  ((eps < rnorm n x)%R -> v_calculate_norm v = Ok (Some (rnorm n x))).
Proof.
  intros v n x Hv. rewrite (v_norm_is _ _ _ Hv), norm_RX, flush_RX. split; intros H.
  - rewrite Rle_bool_true by auto. reflexivity.
  - rewrite Rle_bool_false by auto. reflexivity.
Qed.

(*@ C27_normalize *)
(** C27: [normalize] divides by the norm when it exceeds EPSILON, and the result then has norm 1 *)
Lemma l_normalize :
  forall (v : Vec (T (Arith := RX))) (n : nat) (x : nat -> R), vec_r v n x -> (eps < rnorm n x)%R ->
  exists v' y, v_normalize v = (v', Ok tt) /\ vec_r v' n y /\ rnorm n y = 1%R /\
    forall i, i < n -> (x i = rnorm n x * y i)%R.
Proof.
  intros v n x Hv H. pose proof (v_normalize_pw v n _ Hv) as P. cbv beta zeta in P.
  rewrite norm_RX, flush_RX, Rle_bool_false in P by auto.
  assert (H0 : (0 < eps)%R) by (unfold eps; lra).
  cbn in P. rewrite Rlt_bool_true in P by auto.
  rewrite Req_bool_false in P by lra.
  apply pointwise_v_ok in P; [|intros; apply valid_RX].
  destruct P as (v' & E & Hv'). exists v', (fun i => x i / rnorm n x)%R. conjs; auto.
  - rewrite rnorm_div by lra. field. lra.
  - intros i Hi. field. lra.
Qed.

(*@ C27_normalize_small *)
(** C27: otherwise it writes zeros *)
Lemma l_normalize_small :
  forall (v : Vec (T (Arith := RX))) (n : nat) (x : nat -> R), vec_r v n x -> (rnorm n x <= eps)%R ->
  exists v', v_normalize v = (v', Ok tt) /\ vec_r v' n (fun _ => 0%R).
Proof.
  intros v n x Hv H. pose proof (v_normalize_pw v n _ Hv) as P. cbv beta zeta in P.
  rewrite norm_RX, flush_RX, Rle_bool_true in P by auto.
  assert (H0 : (0 < eps)%R) by (unfold eps; lra).
  change (fltb (Arith := RX)) with (rxcmp Rlt_bool) in P. unfold rxcmp in P. rewrite eps_RX in P.
  rewrite Rlt_bool_false, f0_RX in P by lra.
  apply pointwise_v_ok in P; [|intros; apply valid_RX]. exact P.
Qed.

(*@ example *)
Example C27_example :
  let v := rvec [3; 4]%R in
  vec_r v 2 (fun i => nth i [3; 4] 0)%R /\ rnorm 2 (fun i => nth i [3; 4] 0)%R = 5%R /\ (eps < 5)%R.
Proof.
  cbv zeta. split; [apply (rvec_is [3; 4]%R); cbn; lia|]. split; [|unfold eps; lra].
  unfold rnorm, rdot. cbn. replace (0 + 3 * 3 + 4 * 4)%R with (5 * 5)%R by ring. apply sqrt_square. lra.
Qed.
