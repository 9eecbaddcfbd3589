(** C19, C20: exactly when the LR and Crout decompositions of 2 x 2 matrices succeed. *)
(*@+*)
From Coq Require Import List Arith ZArith Reals Lia Bool Lra.
From Flocq Require Import Core BinarySingleNaN.
From Verif Require Import M_Base M_Arith M_Utils M_Vector M_Matrix M_F32 M_RX
  S_Spec S_Linalg S_Norm S_Lu P_Inst.
Import ListNotations.
Local Open Scope R_scope.
(*@-*)
From Verif Require Import S_Compare P_Hoare P_Cont P_Loops P_Access P_Pointwise P_Trans P_Float P_Product P_Norm P_Lup P_Uninit P_Diag P_Compare P_Lr P_Crout P_Dcm.

Ltac nice E := rewrite ?f0_RX in E; cbn [fsub fmul fadd fdiv RX rx2 rx_div andb Nat.eqb] in E; rewrite ?Rminus_0_r, ?Rplus_0_l in E.
Ltac istep :=
  match goal with
  | |- wp (on_l (m_set _ _ _)) _ _ _ _ => apply wp_zoom; cbn [lr_l lr_r lr_sum]; eapply wp_m_set_r; [eassumption|lia|lia|intros ?v ?m' ?E ?H; keepv|intros ?E]
  | |- wp (on_r (m_set _ _ _)) _ _ _ _ => apply wp_zoom; cbn [lr_l lr_r lr_sum]; eapply wp_m_set_r; [eassumption|lia|lia|intros ?v ?m' ?E ?H; keepv|intros ?E]
  | |- wp (lift (allclose_l _ _ _)) _ _ _ _ => apply wp_lift; rewrite ?f0_RX; change (EPSILON (A := RX)) with (Some eps); rewrite allclose_RX; cbn [rwp]
  | |- wp (if negb (Rle_bool ?x ?y) then _ else _) _ _ _ _ => destruct (Rle_bool_spec x y); cbn [negb]
  | |- wp (if (Rle_bool ?x ?y) then _ else _) _ _ _ _ => destruct (Rle_bool_spec x y)
  | |- wp (sthrow _) _ _ _ _ => apply wp_sthrow
  | |- _ => lrstep
  end.
Lemma div_some x y v : rx_div (Some x) (Some y) = v -> (v = None <-> y = 0).
Proof. intros <-. unfold rx_div. destruct (Req_bool_spec y 0); split; intros; congruence. Qed.
Ltac none :=
  match goal with E : _ = None |- _ => nice E; first [discriminate E|match type of E with (if Req_bool ?d 0 then _ else _) = None => let Z := fresh "ZZ" in destruct (Req_bool_spec d 0) as [Z|Z]; [|discriminate E] end] end.

Lemma crout_iff2 m a : mat_r m 2 2 a ->
  rwp (m_lu_crout m) (fun _ => 0 < Rabs (a 0%nat 0%nat) <= eps) (fun _ => ~ 0 < Rabs (a 0%nat 0%nat) <= eps) False.
Proof.
  intros Hm. crstart Hm 2%nat. repeat istep; try (exfalso; none; fail); cbn in *; rewrite ?Rminus_0_r in *.
  - split; [apply Rabs_pos_lt; congruence|congruence].
  - none. rewrite E, ZZ, Rabs_R0. lra.
  - rewrite E. lra.
Qed.
Lemma crout_iff3 m a : mat_r m 3 3 a -> let u := a 1%nat 1%nat - a 1%nat 0%nat / a 0%nat 0%nat * a 0%nat 1%nat in
  rwp (m_lu_crout m) (fun _ => 0 < Rabs (a 0%nat 0%nat) <= eps /\ 0 < Rabs u <= eps) (fun _ => ~ (0 < Rabs (a 0%nat 0%nat) <= eps /\ 0 < Rabs u <= eps)) False.
Proof.
  intros Hm u. crstart Hm 3%nat. repeat istep; try (exfalso; none; fail); cbn in *; rewrite ?Rminus_0_r in *.
  all: try none; try (exfalso; congruence); try (exfalso; lra); try (rewrite E in *; intros [? _]; rewrite ?ZZ, ?Rabs_R0 in *; lra).
  all: assert (V2 : a 1%nat 0%nat / v = v2) by (apply (Rmult_eq_reg_r v); [unfold Rdiv; rewrite Rmult_assoc, Rinv_l by exact NZ; lra|exact NZ]);
    assert (V0 : v0 = a 0%nat 1%nat) by lra; assert (UU : u = v4) by (unfold u; rewrite E, V2, <- V0; lra); rewrite UU, E.
  - split; split; try lra; apply Rabs_pos_lt; assumption.
  - rewrite ZZ, Rabs_R0. lra.
  - lra.
Qed.
Lemma lr_iff2 m a : mat_r m 2 2 a -> rwp (m_lr m) (fun _ => a 0%nat 0%nat <> 0) (fun _ => ~ a 0%nat 0%nat <> 0) False.
Proof.
  intros Hm. lrstart Hm 2%nat. repeat istep; try (exfalso; none; fail).
  all: try none; cbn in *; try congruence; try tauto.
Qed.
Lemma lr_iff3 m a : mat_r m 3 3 a -> let u := a 0%nat 0%nat * a 1%nat 1%nat - a 1%nat 0%nat * a 0%nat 1%nat in
  rwp (m_lr m) (fun _ => a 0%nat 0%nat <> 0 /\ u <> 0) (fun _ => ~ (a 0%nat 0%nat <> 0 /\ u <> 0)) False.
Proof.
  intros Hm u. lrstart Hm 3%nat. repeat istep; try (exfalso; none; fail).
  all: try none; cbn in *; try congruence; try tauto.
  - assert (UU : u = v5 * v10) by (unfold u; rewrite E4, E5, <- K2, <- E7; ring). rewrite UU, E4. split; [exact NZ2|apply Rmult_integral_contrapositive_currified; assumption].
  - assert (UU : u = v5 * v10) by (unfold u; rewrite E4, E5, <- K2, <- E7; ring). rewrite UU, ZZ, Rmult_0_r. tauto.
  - rewrite E, ZZ. tauto.
Qed.
Lemma rwp_iff {X} (r : res LinalgError X) (P : Prop) : rwp r (fun _ => P) (fun _ => ~ P) False -> (exists x, r = Ok x) <-> P.
Proof.
  destruct r as [x|e|]; cbn [rwp]; intros H; [|split; [intros [x E]; discriminate|tauto]|contradiction]. split; [auto|intros _; exists x; reflexivity].
Qed.

(*@ C19_succeeds *)
(** C19 (exact arithmetic): [lr] succeeds on a 2 x 2 matrix exactly when a00 is not zero, and on a 3 x 3 matrix exactly when
    the first two leading minors are not zero: the outcomes of the comparisons with EPSILON are discarded *)
Lemma l_lr_iff :
  forall (m : Mat (T (Arith := RX))) (a : nat -> nat -> R),
  (mat_r m 2 2 a -> (exists s, m_lr m = Ok s) <-> a 0%nat 0%nat <> 0) /\
  (mat_r m 3 3 a -> (exists s, m_lr m = Ok s) <-> a 0%nat 0%nat <> 0 /\ a 0%nat 0%nat * a 1%nat 1%nat - a 1%nat 0%nat * a 0%nat 1%nat <> 0).
Proof. intros m a. split; intros Hm; apply rwp_iff; [apply lr_iff2|apply lr_iff3]; exact Hm. Qed.

(*@ C20_succeeds *)
(** C20, violation (exact arithmetic): [lu_crout] succeeds on a 2 x 2 matrix exactly when a00 is not zero but at most
    EPSILON in magnitude, and on a 3 x 3 matrix exactly when moreover the second pivot is so: the worse the pivots, the
    better *)
Lemma l_crout_iff :
  forall (m : Mat (T (Arith := RX))) (a : nat -> nat -> R),
  (mat_r m 2 2 a -> (exists s, m_lu_crout m = Ok s) <-> 0 < Rabs (a 0%nat 0%nat) <= eps) /\
  (mat_r m 3 3 a -> (exists s, m_lu_crout m = Ok s) <->
     0 < Rabs (a 0%nat 0%nat) <= eps /\ 0 < Rabs (a 1%nat 1%nat - a 1%nat 0%nat / a 0%nat 0%nat * a 0%nat 1%nat) <= eps).
Proof. intros m a. split; intros Hm; apply rwp_iff; [apply crout_iff2|apply crout_iff3]; exact Hm. Qed.

(*@ example *)
(** matrices on either side of the two criteria *)
Example C20_succeeds_example :
  mat_r (rmat 2 2 [/ 20000; 1; 1; 3]) 2 2 (fun i j => nth (i * 2 + j) [/ 20000; 1; 1; 3] 0) /\ 0 < Rabs (/ 20000) <= eps /\ / 20000 <> 0 /\
  mat_r (rmat 2 2 [2; 1; 1; 3]) 2 2 (fun i j => nth (i * 2 + j) [2; 1; 1; 3] 0) /\ ~ 0 < Rabs 2 <= eps.
Proof.
  assert (M : forall l, length l = 4%nat -> mat_r (rmat 2 2 l) 2 2 (fun i j => nth (i * 2 + j) l 0)) by (intros l H; apply (rmat_is 2 2 l); [lia|lia|exact H]).
  split; [apply M; reflexivity|]. rewrite !Rabs_pos_eq by lra. unfold eps. split; [lra|]. split; [lra|]. split; [apply M; reflexivity|lra].
Qed.
