(** Attitude from two directions: how errors of the computed quaternion and field move the result. *)
From Coq Require Import List Arith ZArith NArith Reals Lia Bool Lra SpecFloat.
From Flocq Require Import Core BinarySingleNaN.
From Verif Require Import M_Base M_Arith M_Utils M_Vector M_Matrix M_Quaternion M_Sensors M_Ar M_Aqua M_F32
  S_Spec S_Linalg S_Norm S_Quat S_Sensors S_Ar S_Aqua S_F32 S_Reading P_Inst P_InstF.
Import ListNotations.
Local Open Scope R_scope.
From Coq Require Import Psatz.
From Verif Require Import P_Hoare P_Cont P_Loops P_Access P_Pointwise P_Trans P_Float P_Product P_Diag
  P_Compare P_Dot P_Norm P_FErr P_Norm32 P_Quat P_Rot P_Dcm P_Sensors P_Ar P_Aqua P_ArR P_AquaR P_FAcc P_F32Mul P_F32Rot P_F32App.

Section Geo.
  Lemma conj_unit q : unitq q -> unitq (qconj q).
  Proof. unfold unitq, qnorm2, qconj. cbn. lra. Qed.
  Lemma conj_dist p q : qdist (qconj p) (qconj q) = qdist p q.
  Proof. unfold qdist, qnorm, qnorm2. cbn. f_equal. ring. Qed.
  Lemma qrot_iso q x y : unitq q -> vdist 3 (qrot q x) (qrot q y) = vdist 3 x y.
  Proof.
    intros U. unfold vdist. rewrite <- (qrot_len q (fun i => x i - y i) U). apply rnorm_ext. intros i Hi. destruct q as [w a b c].
    destruct i as [|[|[|i]]]; [| | |lia]; cbn; ring.
  Qed.
  Lemma vdist_comp x y i : (i < 3)%nat -> Rabs (x i - y i) <= vdist 3 x y.
  Proof.
    intros Hi. unfold vdist. pose proof (rnorm_pos 3 (fun i => x i - y i)) as P. apply sqr_le_abs; [exact P|]. rewrite rnorm_sqr. unfold rdot. cbn [Rsum].
    rewrite <- Rabs_mult, Rabs_pos_eq by apply Rle_0_sqr.
    assert (PP : forall t, 0 <= t * t) by (intros; apply Rle_0_sqr).
    pose proof (PP (x 0%nat - y 0%nat)). pose proof (PP (x 1%nat - y 1%nat)). pose proof (PP (x 2%nat - y 2%nat)).
    destruct i as [|[|[|i]]]; [| | |lia]; lra.
  Qed.
  Lemma vdist_sym x y : vdist 3 x y = vdist 3 y x.
  Proof. rewrite !pq_dist. apply qdist_sym. Qed.
  Lemma vdist_pos x y : 0 <= vdist 3 x y. Proof. apply rnorm_pos. Qed.

  (** a unit vector is at least its sine away from every multiple of another *)
  Lemma off_line a m c h : rnorm 3 a = 1 -> rnorm 3 m = 1 -> 0 <= h -> h * h <= 1 - rdot 3 a m * rdot 3 a m -> h <= vdist 3 m (fun i => c * a i).
  Proof.
    intros Ha Hm Hh H. apply sqr_le_abs; [apply vdist_pos|]. unfold vdist. rewrite rnorm_sqr.
    pose proof (rnorm_sqr 3 a) as Na. pose proof (rnorm_sqr 3 m) as Nm. rewrite Ha in Na. rewrite Hm in Nm.
    unfold rdot in *. cbn [Rsum] in *. pose proof (Rle_0_sqr (c - (0 + a 0%nat * m 0%nat + a 1%nat * m 1%nat + a 2%nat * m 2%nat))) as P. unfold Rsqr in P.
    assert (CC : c * c * (0 + a 0%nat * a 0%nat + a 1%nat * a 1%nat + a 2%nat * a 2%nat) = c * c) by (rewrite <- Na; ring). lra.
  Qed.
  Definition vec (x y z : R) : nat -> R := triple x y z.
  Variables (t a m b : nat -> R) (dt db : R).
  Hypothesis Ut : t 0%nat * t 0%nat + t 1%nat * t 1%nat + t 2%nat * t 2%nat = 1.
  Hypothesis Ua : rnorm 3 a = 1.
  Hypothesis Um : rnorm 3 m = 1.
  Hypothesis Ht : vdist 3 a t <= dt.
  Let p0 := qacc (t 0%nat) (t 1%nat) (t 2%nat).
  Hypothesis Hb : vdist 3 b (qrot (qconj p0) m) <= db.
  Let U0 : unitq p0. Proof. apply qacc_unit. exact Ut. Qed.
  Let E0 i : (i < 3)%nat -> qrot (qconj p0) t i = triple 0 0 (-1) i.
  Proof.
    intros Hi. rewrite <- (qacc_down _ _ _ i Ut Hi). apply qrot_ext. intros k Hk. destruct k as [|[|[|k]]]; [reflexivity..|lia].
  Qed.
  Let DT0 : 0 <= dt. Proof. eapply Rle_trans; [apply vdist_pos|exact Ht]. Qed.
  Let DB0 : 0 <= db. Proof. eapply Rle_trans; [apply vdist_pos|exact Hb]. Qed.
  Lemma b_len : Rabs (rnorm 3 b - 1) <= db.
  Proof. rewrite <- Um, <- (qrot_len (qconj p0) m) by (apply conj_unit, U0). eapply Rle_trans; [apply vdist_norm|exact Hb]. Qed.
  Lemma horizontal h : 0 <= h -> h * h <= 1 - rdot 3 a m * rdot 3 a m ->
    h - (1 + db) * dt - db <= sqrt (b 0%nat * b 0%nat + b 1%nat * b 1%nat).
  Proof.
    intros Hh H. set (c := - b 2%nat).
    assert (B2 : Rabs c <= 1 + db).
    { unfold c. rewrite Rabs_Ropp. pose proof (vdist_comp b (fun _ => 0) 2 ltac:(lia)) as V. rewrite Rminus_0_r in V.
      assert (E : vdist 3 b (fun _ => 0) = rnorm 3 b) by (unfold vdist; apply rnorm_ext; intros; ring). rewrite E in V.
      pose proof b_len as L. apply Rabs_le_inv in L. lra. }
    assert (S : sqrt (b 0%nat * b 0%nat + b 1%nat * b 1%nat) = vdist 3 b (fun i => c * triple 0 0 (-1) i)).
    { unfold vdist, rnorm, rdot. cbn [Rsum triple]. f_equal. unfold c. ring. }
    rewrite S.
    pose proof (off_line a m c h Ua Um Hh H) as OL.
    pose proof (vdist_tri m (fun i => c * t i) (fun i => c * a i)) as T1.
    assert (T2 : vdist 3 (fun i => c * t i) (fun i => c * a i) <= (1 + db) * dt).
    { replace (vdist 3 (fun i => c * t i) (fun i => c * a i)) with (Rabs c * vdist 3 a t).
      - apply Rmult_le_compat; auto using Rabs_pos, vdist_pos.
      - rewrite vdist_sym. rewrite !pq_dist. unfold qdist. rewrite <- qnorm_scale. f_equal. apply quat_eta; cbn; ring. }
    assert (T3 : vdist 3 m (fun i => c * t i) = vdist 3 (qrot (qconj p0) m) (fun i => c * triple 0 0 (-1) i)).
    { rewrite <- (qrot_iso (qconj p0) m) by (apply conj_unit, U0). apply vdist_ext; [auto|]. intros i Hi. rewrite qrot_scale by auto. rewrite E0 by auto. reflexivity. }
    pose proof (vdist_tri (qrot (qconj p0) m) b (fun i => c * triple 0 0 (-1) i)) as T4. rewrite (vdist_sym (qrot (qconj p0) m) b) in T4. lra.
  Qed.
  Variables (p : quat) (dq : R).
  Let g := b 0%nat * b 0%nat + b 1%nat * b 1%nat.
  Hypothesis Hg : 0 < g.
  Let qs := qmul p0 (qmag (b 0%nat) (b 1%nat)).
  Hypothesis Up : unitq p.
  Hypothesis Hp : qdist p qs <= dq.
  Let Us : unitq qs. Proof. apply unit_mul; [exact U0|]. apply qmag_unit. exact Hg. Qed.
  Lemma tilt : vdist 3 (qrot (qconj p) a) (triple 0 0 (-1)) <= 2 * dq + dt.
  Proof.
    eapply Rle_trans; [apply (vdist_tri _ (qrot (qconj qs) a))|]. apply Rplus_le_compat.
    - eapply Rle_trans; [apply qrot_close; apply conj_unit; auto|]. rewrite conj_dist, Ua, Rmult_1_r. lra.
    - eapply Rle_trans; [|exact Ht]. rewrite <- (qrot_iso (qconj qs) a t) by (apply conj_unit, Us). right. apply vdist_ext; [auto|].
      intros i Hi. unfold qs. rewrite qrot_mul_conj by auto. rewrite (qrot_ext _ _ (triple 0 0 (-1)) i) by (intros; apply E0; auto).
      destruct (qmag_turn (b 0%nat) (b 1%nat) (triple 0 0 (-1)) Hg) as (X0 & X1 & X2). cbn [triple] in X0, X1, X2.
      assert (0 < sqrt (b 0%nat * b 0%nat + b 1%nat * b 1%nat)) by (apply sqrt_lt_R0; exact Hg).
      destruct i as [|[|[|i]]]; [rewrite X0|rewrite X1|rewrite X2|lia]; cbn [triple]; [field; lra|field; lra|reflexivity].
  Qed.
  Lemma heading : Rabs (qrot (qconj p) m 1%nat) <= 2 * dq + db /\ Rabs (qrot (qconj p) m 0%nat - sqrt g) <= 2 * dq + db.
  Proof.
    assert (D : vdist 3 (qrot (qconj p) m) (qrot (qconj (qmag (b 0%nat) (b 1%nat))) b) <= 2 * dq + db).
    { eapply Rle_trans; [apply (vdist_tri _ (qrot (qconj qs) m))|]. apply Rplus_le_compat.
      - eapply Rle_trans; [apply qrot_close; apply conj_unit; auto|]. rewrite conj_dist, Um, Rmult_1_r. lra.
      - eapply Rle_trans; [|exact Hb]. rewrite (vdist_sym b). rewrite <- (qrot_iso (qconj (qmag (b 0%nat) (b 1%nat))) _ b) by (apply conj_unit, qmag_unit, Hg).
        right. apply vdist_ext; [|auto]. intros i Hi. unfold qs. apply qrot_mul_conj. exact Hi. }
    destruct (qmag_turn (b 0%nat) (b 1%nat) b Hg) as (X0 & X1 & _).
    assert (P : 0 < sqrt g) by (apply sqrt_lt_R0; exact Hg). assert (SG : sqrt g * sqrt g = g) by (apply sqrt_sqrt; lra).
    pose proof (vdist_comp _ _ 0 ltac:(lia) : Rabs (qrot (qconj p) m 0%nat - qrot (qconj (qmag (b 0%nat) (b 1%nat))) b 0%nat) <= _) as C0.
    pose proof (vdist_comp _ _ 1 ltac:(lia) : Rabs (qrot (qconj p) m 1%nat - qrot (qconj (qmag (b 0%nat) (b 1%nat))) b 1%nat) <= _) as C1.
    rewrite X1 in C1. rewrite X0 in C0. split.
    - eapply Rle_trans; [|exact D]. eapply Rle_trans; [|exact C1]. right. f_equal. fold g. field. lra.
    - eapply Rle_trans; [|exact D]. eapply Rle_trans; [|exact C0]. right. f_equal. f_equal. fold g. rewrite <- SG at 2. field. lra.
  Qed.
End Geo.
