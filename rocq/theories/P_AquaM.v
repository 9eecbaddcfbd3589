(** C56: the corrections of the Aqua filter in mode MARG, in exact arithmetic. *)
(*@+*)
From Coq Require Import List Arith ZArith NArith Reals Lia Bool Lra.
From Flocq Require Import Core.
From Verif Require Import M_Base M_Arith M_Utils M_Vector M_Matrix M_Quaternion M_Sensors M_Ar M_Aqua M_RX
  S_Spec S_Linalg S_Norm S_Quat S_Sensors S_Ar S_Aqua S_AquaM P_Inst.
Import ListNotations.
Local Open Scope R_scope.
(*@-*)
From Verif Require Import P_Hoare P_Cont P_Loops P_Access P_Pointwise P_Trans P_Product P_Diag P_Quat P_Rot P_Norm P_Dcm P_Sensors P_Ar P_Interp P_Aqua P_ArR P_AquaR.

(** ** real algebra *)
(** A + B c *)
Definition blend (A B : R) (c : quat) : quat := Quat (A + B * Qw c) (B * Qx c) (B * Qy c) (B * Qz c).
Lemma blend_norm A B c : unitq c -> qnorm2 (blend A B c) = A * A + 2 * A * B * Qw c + B * B.
Proof. unfold unitq, qnorm2, blend. cbn [Qw Qx Qy Qz]. intros U. transitivity (A * A + 2 * A * B * Qw c + B * B * (Qw c * Qw c + Qx c * Qx c + Qy c * Qy c + Qz c * Qz c)); [ring|rewrite U; ring]. Qed.
Lemma qrot_back c g i : unitq c -> (i < 3)%nat -> qrot c (qrot (qconj c) g) i = g i.
Proof.
  intros U Hi. transitivity (qnorm2 c * qnorm2 c * g i); [|rewrite U; ring].
  destruct c as [w x y z]. unfold qnorm2. destruct i as [|[|[|i]]]; [| | |lia]; cbn; ring.
Qed.
Lemma blend_turn A B c g : unitq c -> let d := qrot (qconj c) g in
  qrot (qconj (blend A B c)) g 0%nat = A * A * g 0%nat + B * B * d 0%nat + 2 * (A * B) * (Qw c * d 0%nat + (Qy c * d 2%nat - Qz c * d 1%nat)) /\
  qrot (qconj (blend A B c)) g 1%nat = A * A * g 1%nat + B * B * d 1%nat + 2 * (A * B) * (Qw c * d 1%nat + (Qz c * d 0%nat - Qx c * d 2%nat)) /\
  qrot (qconj (blend A B c)) g 2%nat = A * A * g 2%nat + B * B * d 2%nat + 2 * (A * B) * (Qw c * d 2%nat + (Qx c * d 1%nat - Qy c * d 0%nat)).
Proof.
  intros U d.
  assert (G : forall i, (i < 3)%nat -> qrot (qconj (blend A B c)) g i = qrot (qconj (blend A B c)) (qrot c d) i).
  { intros i Hi. apply qrot_ext. intros k Hk. symmetry. apply qrot_back; auto. }
  assert (E : forall i, (i < 3)%nat -> g i = qrot c d i) by (intros i Hi; symmetry; apply qrot_back; auto).
  rewrite !G, !E by lia. clearbody d. clear G E g. unfold unitq in U.
  assert (P : forall i, (i < 3)%nat -> qrot (qconj (blend A B c)) (qrot c d) i =
    A * A * qrot c d i + B * B * (qnorm2 c * qnorm2 c) * d i + 2 * (A * B) * qnorm2 c * (Qw c * d i + triple (Qy c * d 2%nat - Qz c * d 1%nat) (Qz c * d 0%nat - Qx c * d 2%nat) (Qx c * d 1%nat - Qy c * d 0%nat) i)).
  { intros i Hi. destruct c as [w x y z]. unfold qnorm2, blend. destruct i as [|[|[|i]]]; [| | |lia]; cbn; ring. }
  rewrite !P, U by lia. cbn [triple]. split; [ring|split; ring].
Qed.

(** ** the factor *)
Lemma remaining_arc k c : -1 < c < 1 -> 0 <= k <= 1 ->
  let A := sin ((1 - k) * acos c) / sin (acos c) in let B := sin (k * acos c) / sin (acos c) in
  0 <= A /\ 0 <= B /\ A * A + 2 * A * B * c + B * B = 1.
Proof.
  intros C K A B. pose proof (acos_in c C) as T. assert (Ec : cos (acos c) = c) by (apply cos_acos; lra). set (th := acos c) in *.
  pose proof (sin_gt_0 th ltac:(lra) ltac:(lra)) as Sp.
  assert (P1 : 0 <= sin ((1 - k) * th)) by (apply sin_ge_0; nra). assert (P2 : 0 <= sin (k * th)) by (apply sin_ge_0; nra).
  split; [apply Rmult_le_pos; [exact P1|left; apply Rinv_0_lt_compat; exact Sp]|]. split; [apply Rmult_le_pos; [exact P2|left; apply Rinv_0_lt_compat; exact Sp]|].
  rewrite <- Ec. clearbody th. unfold A, B.
  replace (sin ((1 - k) * th)) with (sin th * cos (k * th) - cos th * sin (k * th)) by (rewrite <- sin_minus; f_equal; ring).
  pose proof (sin2_cos2 th) as S1. pose proof (sin2_cos2 (k * th)) as S2. unfold Rsqr in S1, S2.
  set (s := sin th) in *. set (cc := cos th) in *. set (sk := sin (k * th)) in *. set (ck := cos (k * th)) in *.
  apply Rmult_eq_reg_r with (s * s); [|nra].
  transitivity ((s * ck - cc * sk) * (s * ck - cc * sk) + 2 * (s * ck - cc * sk) * sk * cc + sk * sk); [field; lra|].
  transitivity (s * s * (ck * ck) + (1 - cc * cc) * (sk * sk)); [ring|]. replace (1 - cc * cc) with (s * s) by lra.
  transitivity (s * s * (sk * sk + ck * ck)); [ring|]. rewrite S2. ring.
Qed.
(** sin(k a) >= k sin a on the half turn *)
Lemma sin_chord k a : 0 <= k <= 1 -> 0 <= a <= PI -> k * sin a <= sin (k * a).
Proof.
  intros K Ha. destruct (Req_dec a 0) as [->|Na]; [rewrite Rmult_0_r, sin_0; lra|].
  destruct (Rle_lt_or_eq_dec 0 k) as [Kp|Kp]; [lra| |subst k; rewrite !Rmult_0_l, sin_0; lra].
  destruct (Rle_lt_or_eq_dec k 1) as [K1|K1]; [lra| |subst k; rewrite !Rmult_1_l; lra].
  (* f(x) = sin (k x) - k sin x has derivative k (cos (k x) - cos x) >= 0 *)
  pose (f := fun x => sin (k * x) - k * sin x). pose (f' := fun x => k * cos (k * x) - k * cos x).
  assert (D : forall x, derivable_pt_lim f x (f' x)).
  { intros x. unfold f, f'. apply (derivable_pt_lim_minus (fun x => sin (k * x)) (fun x => k * sin x)).
    - replace (k * cos (k * x)) with (cos (k * x) * k) by ring. apply (derivable_pt_lim_comp (fun x => k * x) sin); [|apply derivable_pt_lim_sin].
      pose proof (derivable_pt_lim_scal (fun x => x) k x 1 (derivable_pt_lim_id x)) as X. rewrite Rmult_1_r in X. exact X.
    - apply (derivable_pt_lim_scal sin k). apply derivable_pt_lim_sin. }
  assert (M : f 0 <= f a).
  { destruct (MVT_cor2 f f' 0 a) as (c & E & Hc); [lra|intros; apply D|].
    assert (0 <= f' c).
    { unfold f'. assert (cos c <= cos (k * c)); [|nra]. apply cos_decr_1; nra. }
    nra. }
  unfold f in M. rewrite Rmult_0_r, sin_0, Rmult_0_r, Rminus_0_r in M. lra.
Qed.
Lemma remaining_bound k t c : 0 <= k <= 1 -> 0 <= t < 1 -> 0 <= c <= 1 -> 0 <= remaining k t c <= 1 - k * k.
Proof.
  intros K T C. unfold remaining. destruct (Rlt_bool_spec t c) as [L|L].
  - assert (N2 : 0 <= 2 * k * (1 - k) * c) by (apply Rmult_le_pos; [|lra]; apply Rmult_le_pos; lra).
    assert (N1 : 0 < (1 - k) * (1 - k) + k * k) by nra.
    assert (N : 0 < (1 - k) * (1 - k) + 2 * k * (1 - k) * c + k * k) by lra.
    split; [apply Rmult_le_pos; [nra|left; apply Rinv_0_lt_compat; exact N]|].
    apply Rmult_le_reg_r with ((1 - k) * (1 - k) + 2 * k * (1 - k) * c + k * k); [exact N|].
    replace ((1 - k) * (1 - k) / ((1 - k) * (1 - k) + 2 * k * (1 - k) * c + k * k) * ((1 - k) * (1 - k) + 2 * k * (1 - k) * c + k * k)) with ((1 - k) * (1 - k)) by (field; lra).
    apply Rle_trans with ((1 - k * k) * ((1 - k) * (1 - k) + k * k)).
    + assert (0 <= (1 - k) * (2 * k * k * k)) by (apply Rmult_le_pos; [lra|]; apply Rmult_le_pos; [|lra]; apply Rmult_le_pos; lra).
      replace ((1 - k * k) * ((1 - k) * (1 - k) + k * k)) with ((1 - k) * (1 - k) + (1 - k) * (2 * k * k * k)) by ring. lra.
    + apply Rmult_le_compat_l; [nra|lra].
  - destruct (remaining_arc k c ltac:(lra) K) as (PA & PB & E). pose proof (acos_in c ltac:(lra)) as TH.
    pose proof (sin_chord k (acos c) K ltac:(lra)) as SC. cbv zeta. set (A := _ / _) in *. set (B := sin (k * acos c) / _) in *. 
    pose proof (sin_gt_0 (acos c) ltac:(lra) ltac:(lra)) as Sp.
    assert (KB : k <= B). { unfold B. apply Rmult_le_reg_r with (sin (acos c)); [exact Sp|]. unfold Rdiv. rewrite Rmult_assoc, Rinv_l by lra. lra. }
    clearbody A B. assert (0 <= A * B * c) by (apply Rmult_le_pos; [|lra]; apply Rmult_le_pos; lra). split; [nra|]. assert (k * k <= B * B) by nra. nra.
Qed.
Lemma remaining_0 t c : 0 <= t < 1 -> -1 < c <= 1 -> remaining 0 t c = 1.
Proof.
  intros T C. unfold remaining. destruct (Rlt_bool_spec t c) as [L|L].
  - field.
  - pose proof (acos_in c ltac:(lra)) as TH. pose proof (sin_gt_0 (acos c) ltac:(lra) ltac:(lra)) as Sp. rewrite Rminus_0_r, Rmult_1_l. cbv zeta. field. lra.
Qed.
Lemma remaining_1 t c : 0 <= t < 1 -> -1 < c <= 1 -> remaining 1 t c = 0.
Proof.
  intros T C. unfold remaining. destruct (Rlt_bool_spec t c) as [L|L].
  - field.
  - pose proof (acos_in c ltac:(lra)) as TH. pose proof (sin_gt_0 (acos c) ltac:(lra) ltac:(lra)) as Sp. replace ((1 - 1) * acos c) with 0 by ring. rewrite sin_0. cbv zeta. field. lra.
Qed.

(** ** the stages *)
Lemma predicted_unit q w t : 0 < qnorm q -> unitq (predicted q w t) /\ qnorm q <= qnorm (qadd q (qscale (t / 2) (qmul q (purer w)))).
Proof.
  intros P. set (p := qadd q (qscale (t / 2) (qmul q (purer w)))).
  assert (E : qnorm2 p = qnorm2 q * (1 + t * t / 4 * (w 0%nat * w 0%nat + w 1%nat * w 1%nat + w 2%nat * w 2%nat))).
  { unfold p, qnorm2, qadd, qscale, qmul, purer. cbn [Qw Qx Qy Qz]. field. }
  assert (L : qnorm q <= qnorm p).
  { unfold qnorm. apply sqrt_le_1_alt. rewrite E. pose proof (qnorm2_pos q). assert (0 <= t * t / 4) by nra.
    assert (0 <= t * t / 4 * (w 0%nat * w 0%nat + w 1%nat * w 1%nat + w 2%nat * w 2%nat)) by (apply Rmult_le_pos; [lra|nra]). nra. }
  split; [|exact L]. unfold predicted. fold p. clearbody p. unfold unitq, qnormalized. pose proof (qnorm_sqr p) as S. unfold qnorm2 in *. unfold qscale. cbn [Qw Qx Qy Qz].
  set (n := qnorm p) in *. assert (0 < n) by lra.
  transitivity (/ n * / n * (Qw p * Qw p + Qx p * Qx p + Qy p * Qy p + Qz p * Qz p)); [ring|]. rewrite <- S. field. lra.
Qed.
Lemma fhalf_RX : fhalf (A := RX) = Some (1 / 2).
Proof. unfold fhalf. cbn. apply (f_equal (@Some R)). field. Qed.
Lemma all_some_rwp {X} (r : res LinalgError X) Q (E : Prop) : rwp r Q (fun e => ul e /\ ~ E) False -> E -> exists x, r = Ok x /\ Q x.
Proof. destruct r; cbn; intros H HE; [eauto|destruct H; contradiction|contradiction]. Qed.
Lemma all_some_rwpA {X} (r : res AhrsError X) Q (E : Prop) : rwp r Q (fun e => is_utils e /\ ~ E) False -> E -> exists x, r = Ok x /\ Q x.
Proof. destruct r; cbn; intros H HE; [eauto|destruct H; contradiction|contradiction]. Qed.
Lemma gyr_r (v : nat -> rt) (w : nat -> R) att t q : (forall i, (i < 3)%nat -> v i = Some (w i)) -> quat_r att q -> eps < qnorm q ->
  exists gq, st_gyr (A := RX) (v 0%nat) (v 1%nat) (v 2%nat) att (Some t) = Ok gq /\ quat_r gq (predicted q w t).
Proof.
  intros Hw Hq N. assert (Vw : forall i, (i < 3)%nat -> valid (v i)) by (intros i Hi; rewrite Hw by auto; apply valid_RX).
  unfold st_gyr. destruct (w3_ok (A := RX) v Vw) as (wv & Ew & _). change (vec3 (v 0%nat) (v 1%nat) (v 2%nat) = Ok wv) in Ew. rewrite Ew. las.
  destruct (all_some_rwpA _ _ _ (omega_ok (A := RX) v Vw)) as (om & -> & Hom & _); [intros; rewrite (omega_RX v w Hw); apply valid_RX|]. las.
  pose proof (rwp_pm _ _ _ _ _ _ (m_mul_by_scalar_in_place_pw (A := RX) om 4 4 _ Hom fhalf)) as PM.
  destruct (exec (m_mul_by_scalar_in_place fhalf) om) as [om'|e|]; cbn [rwp] in PM; [destruct PM as [Hom' _]| |tauto].
  2:{ exfalso. destruct PM as (_ & i & j & _ & _ & N1). apply N1. rewrite (omega_RX v w Hw), fhalf_RX. apply valid_RX. }
  las. destruct (v_convert_ok att 4 _ Hq) as (am & -> & Ham). las.
  assert (C : forall i k, (k <= 4)%nat -> fsum (A := RX) k (fun j => fmul (Arith := RX) (fmul (Arith := RX) (omega_t v i j) fhalf) (Some (qf q j))) = Some (Rsum k (fun j => omr w i j * (1 / 2) * qf q j))).
  { intros i k Hk. apply (apply_RX (fun i j => fmul (Arith := RX) (omega_t v i j) fhalf) (fun i j => omr w i j * (1 / 2)) (fun j => Some (qf q j)) q); [|reflexivity|exact Hk].
    intros i' j'. rewrite (omega_RX v w Hw), fhalf_RX. reflexivity. }
  pose proof (l_mul_new RX _ om' am 4 4 4 1 _ _ Hom' Ham) as P. cbn [Nat.eqb] in P.
  destruct P as [(VV & a & -> & Haa)|(i & j & n & e & Hi & Hj & Hn & B & _)].
  2:{ exfalso. apply (bad_Some_not _ _ B). rewrite C by lia. apply valid_RX. }
  las. pose proof (col_to_vector_spec _ _ a _ _ _ Haa 0) as CV. cbn [Nat.leb] in CV. destruct CV as (d & -> & Hd). las.
  assert (Hd' : vec_r d 4 (fun i => Rsum 4 (fun j => omr w i j * (1 / 2) * qf q j))) by (eapply vec_is_ext; [exact Hd|]; intros i Hi; apply (C i 4%nat); lia).
  destruct (all_some_rwp _ _ _ (exec_pv d _ _ _ _ (v_mul_by_scalar_in_place_pw (A := RX) d 4 _ Hd' (Some t)))) as (d' & -> & Hdd & _).
  { intros; apply valid_RX. }
  las. destruct (v_init_new (A := RX) 4 ltac:(lia)) as (s0 & E0 & H0). rewrite (exec_step _ _ _ _ E0).
  set (p := qadd q (qscale (t / 2) (qmul q (purer w)))).
  destruct (pw4_r _ _ _ (Qw p) (Qx p) (Qy p) (Qz p) (v_add_pw (A := RX) s0 att d' 4 _ _ _ H0 Hq Hdd)) as (u & Eu & Hu);
    try (unfold p; cbn; apply (f_equal (@Some R)); field).
  rewrite (exec_step _ _ _ _ Eu). unfold exec.
  destruct (predicted_unit q w t) as [_ L]; [unfold eps in N; lra|]. fold p in L.
  destruct (quat_normalize_r u p) as (g & -> & Hg); [destruct p; exact Hu|lra|]. las. exists g. split; [reflexivity|exact Hg].
Qed.

Lemma to_global_r gq al t q u g : quat_r gq q -> unitq q -> vec_r al 3 u -> mat_is (A := RX) t 3 1 g ->
  exists r t', to_global (A := RX) gq al t = Ok (r, t') /\ vec_r r 3 (qrot (qconj q) u) /\ exists g', mat_is (A := RX) t' 3 1 g'.
Proof.
  intros Ha U Hm Ht. pose proof (to_global_rwp (A := RX) gq al t _ _ _ Ha Hm Ht) as G.
  destruct (to_global gq al t) as [[mg t']|e|]; cbn [rwp] in G; [| |tauto].
  - exists mg, t'. split; [reflexivity|]. cbn [fst snd] in G. destruct G as (G1 & G2 & _). split; [|eauto].
    eapply vec_is_ext; [exact G1|]. intros i Hi. apply (tog_r _ _ q u); auto.
  - exfalso. destruct G as [_ G]. apply G. split.
      + unfold dcm_l. rewrite f1_RX, f2_RX. repeat (apply Forall_cons; [cbn [fmul fadd fsub RX rx2]; apply valid_RX|]). apply Forall_nil.
      + intros i n Hi Hn. apply valid_some. eexists. rewrite (fsum_ext (A := RX) n _ (fun k => Some (match grid (dcm_l (A := RX) (fun i => Some (qf q i))) k i with Some c => c | None => 0 end * u k))); [apply fsum_RX|].
        intros k Hk. destruct q as [w x y z]. unfold dcm_l. rewrite f1_RX, f2_RX. cbn [qf quad Qw Qx Qy Qz].
        do 3 (destruct k as [|k]; [do 3 (destruct i as [|i]; [reflexivity|]); lia|]). lia.
Qed.
Lemma quat4_r q : exists v, quat4 (A := RX) (Some (Qw q), Some (Qx q), Some (Qy q), Some (Qz q)) = Ok v /\ quat_r v q.
Proof.
  pose proof (quat4_ok (A := RX) (Some (Qw q)) (Some (Qx q)) (Some (Qy q)) (Some (Qz q))) as Q.
  destruct (quat4 _) as [v|e|]; cbn [rwp] in Q; [|exfalso; apply Q; repeat split; apply valid_RX|tauto].
  exists v. split; [reflexivity|]. apply quat_r_quad, Q.
Qed.
Lemma acc_quat_g x y z :
  acc_quat_of (A := RX) (Some x) (Some y) (Some z) = (Some (Qw (qacc x y z)), Some (Qx (qacc x y z)), Some (Qy (qacc x y z)), Some (Qz (qacc x y z))).
Proof.
  unfold acc_quat_of, qacc. rewrite f0_RX, f1_RX, f2_RX. cbn [fltb RX rxcmp fadd fsub rx2 fneg rx1].
  assert (LD : forall a, fdiv (Arith := RX) (Some a) (Some 2) = Some (a / 2)) by (intros; apply rx_divs; lra). cbn [fdiv RX] in LD |- *.
  destruct (Rlt_bool_spec z 0) as [L|L]; cbv zeta; rewrite LD.
  - assert (P : 0 < sqrt ((1 - z) / 2)) by (apply sqrt_lt_R0; lra). rewrite fsqrt_RX by lra. cbn [fmul RX rx2]. rewrite !rx_divs by lra. reflexivity.
  - assert (P : 0 < sqrt ((1 + z) / 2)) by (apply sqrt_lt_R0; lra). rewrite fsqrt_RX by lra. cbn [fmul RX rx2]. rewrite !rx_divs by lra. reflexivity.
Qed.
Lemma acc_r gq al t q a g0 : quat_r gq q -> unitq q -> vec_r al 3 a -> mat_is (A := RX) t 3 1 g0 ->
  let g := qrot (qconj q) a in
  exists aq t', st_acc (A := RX) gq al t = Ok (aq, t') /\ quat_r aq (qacc (g 0%nat) (g 1%nat) (g 2%nat)) /\ exists g', mat_is (A := RX) t' 3 1 g'.
Proof.
  intros Hq U Ha Ht g. unfold st_acc. destruct (to_global_r gq al t q a g0 Hq U Ha Ht) as (r & t' & -> & Hr & Ht'). las.
  rewrite !(vi_get _ _ _ Hr) by lia. las. rewrite acc_quat_g.
  destruct (quat4_r (qacc (g 0%nat) (g 1%nat) (g 2%nat))) as (v & E & Hv). unfold g in E. rewrite E. las. exists v, t'. split; [reflexivity|]. split; [exact Hv|exact Ht'].
Qed.

(** ** the magnetometer quaternion *)
Definition qpos (lx ly : R) : quat :=
  let g := lx * lx + ly * ly in
  Quat (sqrt (g + lx * sqrt g) / sqrt (2 * g)) 0 0 (ly / (sqrt 2 * sqrt (g + lx * sqrt g))).
Lemma pos_sum lx ly : 0 < lx \/ ly <> 0 -> let g := lx * lx + ly * ly in 0 < g /\ 0 < g + lx * sqrt g.
Proof.
  intros H g. assert (P : 0 < g) by (unfold g; destruct H; nra). split; [exact P|].
  pose proof (sqrt_lt_R0 g P) as Ps. assert (E : sqrt g * sqrt g = g) by (apply sqrt_sqrt; lra). set (r := sqrt g) in *. clearbody r.
  assert (0 < r + lx); [|nra]. destruct H as [H|H]; [lra|]. assert (0 < ly * ly) by nra. unfold g in E. nra.
Qed.
Lemma qpos_angle lx ly : 0 < lx \/ ly <> 0 -> let q := qpos lx ly in let r := sqrt (lx * lx + ly * ly) in
  Qx q = 0 /\ Qy q = 0 /\ Qw q * Qw q + Qz q * Qz q = 1 /\ Qw q * Qw q - Qz q * Qz q = lx / r /\ 2 * (Qw q * Qz q) = ly / r /\
  0 < r /\ r * r = lx * lx + ly * ly /\ 0 < Qw q /\ Qw q = sqrt ((1 + lx / r) / 2).
Proof.
  intros H. destruct (pos_sum lx ly H) as [P Pp]. cbv zeta. unfold qpos. cbn [Qw Qx Qy Qz]. set (g := lx * lx + ly * ly) in *.
  assert (P2 : 0 < sqrt 2) by (apply sqrt_lt_R0; lra). assert (E2 : sqrt 2 * sqrt 2 = 2) by (apply sqrt_sqrt; lra).
  assert (WQ : forall r, 0 < r -> r * r = g -> sqrt (g + lx * r) / sqrt (2 * g) = sqrt ((1 + lx / r) / 2)).
  { intros r Pr Er. rewrite <- sqrt_div_alt by lra. apply (f_equal sqrt). rewrite <- Er. field. lra. }
  rewrite (sqrt_mult 2 g) in * by lra. set (t := sqrt 2) in *. clearbody t. assert (Pr : 0 < sqrt g) by (apply sqrt_lt_R0; lra). assert (Er : sqrt g * sqrt g = g) by (apply sqrt_sqrt; lra).
  specialize (WQ (sqrt g) Pr Er). set (r := sqrt g) in *. clearbody r.
  assert (EY : ly * ly = r * r - lx * lx) by (subst g; lra).
  set (p := sqrt (g + lx * r)) in *. assert (P0 : 0 < p) by (apply sqrt_lt_R0; exact Pp). assert (Ep : p * p = r * (r + lx)) by (unfold p; rewrite sqrt_sqrt by lra; rewrite <- Er; ring). clearbody p.
  assert (TT : t * t = 2) by exact E2.
  assert (RL : 0 < r + lx) by (apply Rmult_lt_reg_l with r; [exact Pr|]; rewrite <- Ep; nra).
  split; [reflexivity|]. split; [reflexivity|]. split; [|split; [|split; [|split; [|split; [|split]]]]].
  - transitivity (p * p / (t * t * (r * r)) + ly * ly / (t * t * (p * p))); [field; lra|]. rewrite EY, TT, Ep. field. lra.
  - transitivity (p * p / (t * t * (r * r)) - ly * ly / (t * t * (p * p))); [field; lra|]. rewrite EY, TT, Ep. field. lra.
  - transitivity (2 * ly / (t * t * r)); [field; lra|]. rewrite TT. field. lra.
  - exact Pr.
  - exact Er.
  - apply Rdiv_lt_0_compat; [exact P0|]. apply Rmult_lt_0_compat; assumption.
  - etransitivity; [|exact WQ]. reflexivity.
Qed.
Lemma mag_pos_r lx ly : 0 < lx \/ ly <> 0 ->
  mag_quat_pos (A := RX) (Some lx) (Some ly) (Some (lx * lx + ly * ly)) = (Some (Qw (qpos lx ly)), Some (Qx (qpos lx ly)), Some (Qy (qpos lx ly)), Some (Qz (qpos lx ly))).
Proof.
  intros H. destruct (pos_sum lx ly H) as [P Pp]. unfold qpos, mag_quat_pos. rewrite f0_RX, f2_RX. set (g := lx * lx + ly * ly) in *.
  assert (P2 : 0 < sqrt 2) by (apply sqrt_lt_R0; lra). assert (P3 : 0 < sqrt (2 * g)) by (apply sqrt_lt_R0; lra).
  rewrite (fsqrt_RX g), (fsqrt_RX 2) by lra. cbn [fmul rx2 RX fadd]. rewrite (fsqrt_RX (2 * g)) by lra.
  assert (Ps : 0 < sqrt (g + lx * sqrt g)) by (apply sqrt_lt_R0; exact Pp). rewrite fsqrt_RX by lra. cbn [fmul RX rx2]. rewrite !rx_divs by nra. reflexivity.
Qed.
Lemma mag_pos_0 lx : lx <= 0 -> snd (mag_quat_pos (A := RX) (Some lx) (Some 0) (Some (lx * lx + 0 * 0))) = None.
Proof.
  intros L. unfold mag_quat_pos. rewrite f2_RX. cbn [snd]. rewrite (fsqrt_RX (lx * lx + 0 * 0)), (fsqrt_RX 2) by nra.
  replace (sqrt (lx * lx + 0 * 0)) with (- lx) by (replace (lx * lx + 0 * 0) with ((- lx) * (- lx)) by ring; rewrite sqrt_square by lra; reflexivity).
  cbn [fmul rx2 RX fadd]. replace (lx * lx + 0 * 0 + lx * - lx) with 0 by ring. rewrite fsqrt_RX by lra. rewrite sqrt_0. cbn [fmul rx2 RX]. rewrite Rmult_0_r. apply rx_div0.
Qed.
Lemma magm_r aq ml t q mu g0 : quat_r aq q -> unitq q -> vec_r ml 3 mu -> mat_is (A := RX) t 3 1 g0 ->
  let b := qrot (qconj q) mu in
  (0 < b 0%nat \/ b 1%nat <> 0 -> exists mq, st_mag (A := RX) mag_quat_pos aq ml t = Ok mq /\ quat_r mq (qpos (b 0%nat) (b 1%nat))) /\
  (b 0%nat <= 0 -> b 1%nat = 0 -> exists e, st_mag (A := RX) mag_quat_pos aq ml t = Err e /\ is_utils e).
Proof.
  intros Hq U Hm Ht b. unfold st_mag. destruct (to_global_r aq ml t q mu g0 Hq U Hm Ht) as (r & t' & -> & Hr & Ht'). las.
  rewrite !(vi_get _ _ _ Hr) by lia. las. fold b. cbn [fmul fadd RX rx2]. split.
  - intros H. rewrite mag_pos_r by exact H. destruct (quat4_r (qpos (b 0%nat) (b 1%nat))) as (v & E & Hv). rewrite E. las. eauto.
  - intros L Z. rewrite Z. pose proof (mag_pos_0 (b 0%nat) L) as N. destruct (mag_quat_pos _ _ _) as [[[w x] y] z]. cbn [snd] in N. subst z.
    pose proof (quat4_ok (A := RX) w x y None) as Q. destruct (quat4 _) as [mq|e|]; cbn [rwp] in Q; [| |tauto].
    + exfalso. destruct Q as [_ (_ & _ & _ & V)]. apply valid_some in V. destruct V as [a V]. discriminate V.
    + destruct Q as [[k ->] _]. las. exists (LinErr (UtilsErr k)). split; [reflexivity|]. exists k. reflexivity.
Qed.

(** ** interpolation from the identity *)
Lemma interp_r mq c k t : quat_r mq c -> unitq c -> -1 < Qw c -> 0 <= k <= 1 -> 0 <= t < 1 ->
  exists v A B, aq_interpolate (A := RX) mq (Some k) (Some t) = Ok v /\ quat_r v (blend A B c) /\
    0 <= A /\ 0 <= B /\ A * A + 2 * A * B * Qw c + B * B = 1 /\ A * A = remaining k t (Qw c) /\ (k = 0 -> A = 1 /\ B = 0).
Proof.
  intros Hq U C K T. unfold aq_interpolate. rewrite in_range_RX by lra. cbn [negb].
  destruct (identity_q (A := RX)) as (i & -> & Hi). cbn [rbind]. unfold exec at 1.
  destruct (v_init_new (A := RX) 4 ltac:(lia)) as (s0 & -> & H0). cbn [rbind]. unfold q_get_qw. rewrite (q_get_is _ _ _ Hq) by lia. cbn [rbind qf quad].
  assert (Hi' : vec_r i 4 (qf qone)). { eapply vec_is_ext; [exact Hi|]. intros j Hj. rewrite f0_RX, f1_RX. do 4 (destruct j as [|j]; [reflexivity|]). lia. }
  assert (Hs : vec_r s0 4 (fun _ => 0)). { eapply vec_is_ext; [exact H0|]. intros j Hj. exact f0_RX. }
  assert (B1 : Qw c <= 1). { unfold unitq, qnorm2 in U. nra. }
  unfold remaining. cbn [fltb RX rxcmp]. destruct (Rlt_bool_spec t (Qw c)) as [L|L].
  - destruct (l_lerp s0 i mq 4 _ _ _ k Hs Hi' Hq K) as (u & Eu & Hu).
    rewrite (exec_step _ _ _ _ Eu). unfold exec.
    assert (Hu' : quat_r u (blend (1 - k) k c)). { eapply vec_is_ext; [exact Hu|]. intros j Hj. cbv beta. apply (f_equal (@Some R)). do 4 (destruct j as [|j]; [cbn; ring|]). lia. }
    pose proof (blend_norm (1 - k) k c U) as N. set (n2 := (1 - k) * (1 - k) + 2 * (1 - k) * k * Qw c + k * k) in N.
    assert (NP : / 4 < n2).
    { unfold n2. assert (0 <= (1 - k) * k * Qw c) by (apply Rmult_le_pos; [apply Rmult_le_pos; lra|lra]). nra. }
    destruct (quat_normalize_r u _ Hu') as (v & -> & Hv).
    { unfold qnorm. rewrite N. apply Rlt_trans with (/ 2); [unfold eps; lra|]. rewrite <- (sqrt_square (/ 2)) by lra. apply sqrt_lt_1_alt. lra. }
    las. set (n := qnorm (blend (1 - k) k c)) in *. assert (Pn : 0 < n) by (unfold n, qnorm; apply sqrt_lt_R0; lra).
    assert (En : n * n = n2) by (unfold n; rewrite qnorm_sqr; exact N).
    exists v, ((1 - k) / n), (k / n). split; [reflexivity|]. split.
    { eapply quat_r_ext; [exact Hv|]. unfold qscale, blend. cbn [Qw Qx Qy Qz]. f_equal; field; lra. }
    split; [apply Rmult_le_pos; [lra|left; apply Rinv_0_lt_compat; exact Pn]|]. split; [apply Rmult_le_pos; [lra|left; apply Rinv_0_lt_compat; exact Pn]|].
    split; [|split].
    + transitivity (n2 / (n * n)); [unfold n2; field; lra|]. rewrite En. field. lra.
    + transitivity ((1 - k) * (1 - k) / (n * n)); [field; lra|]. rewrite En. unfold n2. f_equal. f_equal. ring.
    + intros Z. assert (E1 : n = 1) by (unfold n2 in En; rewrite Z in En; nra). rewrite E1, Z. split; field.
  - destruct (remaining_arc k (Qw c) ltac:(lra) K) as (PA & PB & E).
    pose proof (acos_in (Qw c) ltac:(lra)) as TH.
    destruct (l_slerp s0 i mq 4 _ _ _ k (acos (Qw c)) Hs Hi' Hq K) as (v & f & Ev & Hv & Ef & _).
    + rewrite rnorm_qnorm. apply unit_norm. unfold unitq, qnorm2. cbn. ring.
    + rewrite rnorm_qnorm. apply unit_norm. exact U.
    + exact TH.
    + rewrite cos_acos by lra. unfold rdot. cbn. ring.
    + unfold exec. rewrite Ev. las. eexists v, _, _. split; [reflexivity|]. split; [|split; [exact PA|split; [exact PB|split; [exact E|split; [reflexivity|]]]]].
      eapply vec_is_ext; [exact Hv|]. intros j Hj. cbv beta. apply (f_equal (@Some R)). rewrite Ef by auto. do 4 (destruct j as [|j]; [cbn; ring|]). lia.
      intros ->. pose proof (sin_gt_0 (acos (Qw c)) ltac:(lra) ltac:(lra)) as Sp. rewrite Rminus_0_r, Rmult_1_l, Rmult_0_l, sin_0. split; field; lra.
Qed.

(** ** the whole update *)
Lemma qmul_blend_1 p c : qmul p (blend 1 0 c) = p.
Proof. destruct p as [a b d e]. unfold qmul, blend. cbn [Qw Qx Qy Qz]. f_equal; ring. Qed.
Lemma blend_unit A B c : unitq c -> A * A + 2 * A * B * Qw c + B * B = 1 -> unitq (blend A B c).
Proof. intros U E. unfold unitq. rewrite blend_norm by exact U. exact E. Qed.
Lemma qacc_w x y z : x * x + y * y + z * z = 1 -> -1 < Qw (qacc x y z) /\ Qw (qacc x y z) = half_cos (triple x y z).
Proof.
  intros U. pose proof (qacc_unit x y z U) as N. unfold unitq, qnorm2 in N. unfold half_cos. cbn [triple]. unfold qacc in *. destruct (Rlt_bool_spec z 0) as [L|L]; cbn [Qw Qx Qy Qz] in *.
  - split; [|reflexivity]. pose proof (sqrt_pos ((1 - z) / 2)). lra.
  - split; [|reflexivity]. assert (P : 0 < sqrt ((1 + z) / 2)) by (apply sqrt_lt_R0; lra). set (l := sqrt _) in *. clearbody l. set (w := y / (2 * l)) in *. nra.
Qed.
Lemma qpos_unit lx ly : 0 < lx \/ ly <> 0 -> unitq (qpos lx ly).
Proof. intros H. destruct (qpos_angle lx ly H) as (X & Y & U & _). unfold unitq, qnorm2. rewrite X, Y. lra. Qed.
Lemma on_att_mul_g s a b p q f : vec_is (A := RX) (aq_attitude (A := RX) s) 4 f -> quat_r a p -> quat_r b q ->
  exists v, on_att (A := RX) (q_mul a b) s = (aq_put_attitude v s, Ok tt) /\ quat_r v (qmul p q).
Proof.
  intros Hs Ha Hb. unfold on_att. pose proof (q_mul_pw (A := RX) _ a b f _ _ Hs Ha Hb) as PW.
  destruct (pw4_r _ _ _ (Qw (qmul p q)) (Qx (qmul p q)) (Qy (qmul p q)) (Qz (qmul p q)) PW) as (v & -> & Hv); try (cbn; apply (f_equal (@Some R)); ring).
  las. eauto.
Qed.

Lemma marg_r al ml t s (v : nat -> rt) (w a mu : nat -> R) q ts k ta kb tm g0 (P : quat -> Prop) : aq_inv (A := RX) s Live ->
  (forall b, (b < 3)%nat -> sensor_get Gyr b (aq_gyr s) = Ok (v b)) -> (forall b, (b < 3)%nat -> v b = Some (w b)) ->
  quat_r (aq_attitude s) q -> eps < qnorm q -> aq_ts s = Some ts -> vec_r al 3 a -> vec_r ml 3 mu -> mat_is (A := RX) t 3 1 g0 ->
  gain_step (A := RX) s al = Ok (Some k : rt) -> 0 <= k <= 1 -> aq_t_acc s = Some ta -> 0 <= ta < 1 -> aq_beta s = Some kb -> 0 <= kb <= 1 -> aq_t_mag s = Some tm -> 0 <= tm < 1 ->
  let qh := predicted q w ts in let g := qrot (qconj qh) a in let c := qacc (g 0%nat) (g 1%nat) (g 2%nat) in
  (forall aq, quat_r aq c -> exists ai d, aq_interpolate (A := RX) aq (Some k) (Some ta) = Ok ai /\ quat_r ai d /\ unitq d /\ P d) ->
  exists d, unitq d /\ P d /\
  let p := qmul qh d in let b := qrot (qconj p) mu in
  (0 < b 0%nat \/ b 1%nat <> 0 -> exists u A' B', st_end (A := RX) (aq_update_marg (A := RX) al ml t s) = (aq_put_attitude (A := RX) u (aq_put_alpha (A := RX) (Some k) s), Ok tt) /\
     let m := qpos (b 0%nat) (b 1%nat) in quat_r u (qmul p (blend A' B' m)) /\
     0 <= A' /\ 0 <= B' /\ A' * A' + 2 * A' * B' * Qw m + B' * B' = 1 /\ A' * A' = remaining kb tm (Qw m) /\ (kb = 0 -> A' = 1 /\ B' = 0)) /\
  (b 0%nat <= 0 -> b 1%nat = 0 -> exists u e, st_end (A := RX) (aq_update_marg (A := RX) al ml t s) = (aq_put_attitude (A := RX) u (aq_put_alpha (A := RX) (Some k) s), Err e) /\ is_utils e /\ quat_r u p).
Proof.
  intros IV Hg Hv Hq N Ets Ha Hm Ht Gk K Eta TA Ekb KB Etm TM qh g c HI.
  rewrite (marg_eq al ml t s (v 0%nat) (v 1%nat) (v 2%nat)) by (apply Hg; lia). rewrite Ets, Eta, Ekb, Etm.
  destruct (predicted_unit q w ts) as [Uh _]; [unfold eps in N; lra|]. fold qh in Uh.
  destruct (gyr_r v w (aq_attitude s) ts q Hv Hq N) as (gq & -> & Hgq). cbn [rthen]. fold qh in Hgq.
  destruct (acc_r gq al t qh a g0 Hgq Uh Ha Ht) as (aq & t' & -> & Haq & g' & Ht'). cbn [rthen fst snd]. fold g in Haq. fold c in Haq. rewrite Gk. cbn [rthen].
  destruct (HI aq Haq) as (ai & d & -> & Hai & Ud & Pd). cbn [rthen]. exists d.
  split; [exact Ud|]. split; [exact Pd|]. set (p := qmul qh d). set (b := qrot (qconj p) mu).
  destruct (on_att_mul_g (aq_put_alpha (A := RX) (Some k) s) gq ai qh d _ Hq Hgq Hai) as (u & -> & Hu). change (quat_r u p) in Hu.
  assert (Up : unitq p) by (apply unit_mul; [exact Uh|exact Ud]).
  destruct (magm_r u ml t' p mu g' Hu Up Hm Ht') as [M1 M2]. cbn [aq_attitude aq_put_attitude]. fold b in M1, M2. split.
  - intros H. destruct (M1 H) as (mq & -> & Hmq). cbn [rthen]. pose proof (qpos_unit _ _ H) as Um.
    destruct (qpos_angle _ _ H) as (_ & _ & _ & _ & _ & _ & _ & Wm & _).
    destruct (interp_r mq _ kb tm Hmq Um ltac:(lra) KB TM) as (mi & A' & B' & -> & Hmi & PA' & PB' & F1 & F2 & F3). cbn [rthen].
    destruct (v_duplicate_ok (A := RX) u 4 _ Hu) as (dup & -> & Hd). las. cbn [rthen].
    destruct (on_att_mul_g (aq_put_attitude u (aq_put_alpha (A := RX) (Some k) s)) dup mi p (blend A' B' (qpos (b 0%nat) (b 1%nat))) _ Hu Hd Hmi) as (u' & -> & Hu').
    cbn [st_end]. unfold on_att. cbn [aq_attitude aq_put_attitude].
    assert (Uf : unitq (qmul p (blend A' B' (qpos (b 0%nat) (b 1%nat))))) by (apply unit_mul; [exact Up|apply blend_unit; auto]).
    destruct (quat_normalize_r u' _ Hu') as (u2 & -> & Hu2); [rewrite unit_norm by exact Uf; unfold eps; lra|]. las.
    exists u2, A', B'. split; [reflexivity|]. cbv zeta. split; [|auto]. eapply quat_r_ext; [exact Hu2|]. rewrite unit_norm by exact Uf. apply qscale_1.
  - intros L Z. destruct (M2 L Z) as (e & -> & Ue). cbn [rthen st_end]. exists u, e. split; [reflexivity|]. auto.
Qed.
Lemma marg_fail al ml t s (v : nat -> rt) (w a mu : nat -> R) q ts k ta g0 (P : AhrsError -> Prop) :
  (forall b, (b < 3)%nat -> sensor_get Gyr b (aq_gyr s) = Ok (v b)) -> (forall b, (b < 3)%nat -> v b = Some (w b)) ->
  quat_r (aq_attitude s) q -> eps < qnorm q -> aq_ts s = Some ts -> vec_r al 3 a -> mat_is (A := RX) t 3 1 g0 ->
  gain_step (A := RX) s al = Ok (Some k : rt) -> aq_t_acc s = Some ta ->
  let qh := predicted q w ts in let g := qrot (qconj qh) a in let c := qacc (g 0%nat) (g 1%nat) (g 2%nat) in
  (forall aq, quat_r aq c -> exists e, aq_interpolate (A := RX) aq (Some k) (Some ta) = Err e /\ P e) ->
  exists e, st_end (A := RX) (aq_update_marg (A := RX) al ml t s) = (aq_put_alpha (A := RX) (Some k) s, Err e) /\ P e.
Proof.
  intros Hg Hv Hq N Ets Ha Ht Gk Eta qh g c HI.
  rewrite (marg_eq al ml t s (v 0%nat) (v 1%nat) (v 2%nat)) by (apply Hg; lia). rewrite Ets, Eta.
  destruct (predicted_unit q w ts) as [Uh _]; [unfold eps in N; lra|]. fold qh in Uh.
  destruct (gyr_r v w (aq_attitude s) ts q Hv Hq N) as (gq & -> & Hgq). cbn [rthen]. fold qh in Hgq.
  destruct (acc_r gq al t qh a g0 Hgq Uh Ha Ht) as (aq & t' & -> & Haq & g' & Ht'). cbn [rthen fst snd]. fold g in Haq. fold c in Haq. rewrite Gk. cbn [rthen].
  destruct (HI aq Haq) as (e & -> & Pe). cbn [rthen st_end]. exists e. split; [reflexivity|exact Pe].
Qed.
Lemma tilt_after A B g : g 0%nat * g 0%nat + g 1%nat * g 1%nat + g 2%nat * g 2%nat = 1 ->
  let c := qacc (g 0%nat) (g 1%nat) (g 2%nat) in 0 <= A -> 0 <= B -> A * A + 2 * A * B * Qw c + B * B = 1 ->
  let h := qrot (qconj (blend A B c)) g in
  1 + h 2%nat = A * A * (1 + g 2%nat) /\
  (g 2%nat < 0 -> exists x, 0 <= x /\ h 0%nat = x * g 0%nat /\ h 1%nat = x * g 1%nat) /\ (g 2%nat < 0 -> Qz (blend A B c) = 0 /\ Qx (blend A B c) * g 0%nat + Qy (blend A B c) * g 1%nat = 0).
Proof.
  intros Ug c PA PB E h. pose proof (qacc_unit _ _ _ Ug) as Uc. fold c in Uc.
  assert (D : forall i, (i < 3)%nat -> qrot (qconj c) g i = triple 0 0 (-1) i).
  { intros i Hi. rewrite <- (qacc_down _ _ _ i Ug Hi). apply qrot_ext. intros j Hj. do 3 (destruct j as [|j]; [reflexivity|]). lia. }
  destruct (blend_turn A B c g Uc) as (T0 & T1 & T2). rewrite !D in T0, T1, T2 by lia. cbn [triple] in *. fold h in T0, T1, T2. split; [|split].
  - rewrite T2. transitivity (1 + A * A * g 2%nat - (2 * A * B * Qw c + B * B)); [ring|]. replace (2 * A * B * Qw c + B * B) with (1 - A * A) by lra. ring.
  - intros L. rewrite T0, T1. unfold c, qacc. rewrite Rlt_bool_true by exact L. cbn [Qw Qx Qy Qz]. set (l := sqrt _). assert (P : 0 < l) by (apply sqrt_lt_R0; lra).
    exists (A * A + A * B / l). split; [|split; field; lra]. apply Rplus_le_le_0_compat; [nra|]. apply Rmult_le_pos; [nra|left; apply Rinv_0_lt_compat; exact P].
  - intros L. unfold blend, c, qacc. rewrite Rlt_bool_true by exact L. cbn [Qx Qy Qz]. split; [ring|]. set (l := sqrt _). assert (P : 0 < l) by (apply sqrt_lt_R0; lra). field. lra.
Qed.
Lemma heading_after A B b : 0 < b 0%nat \/ b 1%nat <> 0 ->
  let m := qpos (b 0%nat) (b 1%nat) in 0 <= A -> 0 <= B -> A * A + 2 * A * B * Qw m + B * B = 1 ->
  let h := qrot (qconj (blend A B m)) b in let r := sqrt (b 0%nat * b 0%nat + b 1%nat * b 1%nat) in
  r - h 0%nat = A * A * (r - b 0%nat) /\ 0 <= b 1%nat * h 1%nat /\ forall u, qrot (qconj (blend A B m)) u 2%nat = u 2%nat.
Proof.
  intros H m PA PB E h r. pose proof (qpos_unit _ _ H) as Um. fold m in Um. destruct (qpos_angle _ _ H) as (X & Y & U & C & S & Pr & Er & Pw & _). fold m in X, Y, U, C, S, Pw. fold r in C, S, Pr, Er.
  assert (D : qrot (qconj m) b 0%nat = r /\ qrot (qconj m) b 1%nat = 0 /\ forall u, qrot (qconj m) u 2%nat = u 2%nat).
  { destruct m as [w x y z]. cbn [Qw Qx Qy Qz] in *. subst x y. rewrite qrc0, qrc1. split; [|split; [|intros u; rewrite qrc2]].
    - transitivity ((w * w - z * z) * b 0%nat + 2 * (w * z) * b 1%nat); [ring|]. rewrite C, S. transitivity ((b 0%nat * b 0%nat + b 1%nat * b 1%nat) / r); [field; lra|]. rewrite <- Er. field. lra.
    - transitivity ((w * w - z * z) * b 1%nat - 2 * (w * z) * b 0%nat); [ring|]. rewrite C, S. field. lra.
    - transitivity ((w * w + z * z) * u 2%nat); [ring|]. rewrite U. ring. }
  destruct D as (D0 & D1 & D2). destruct (blend_turn A B m b Um) as (T0 & T1 & _). rewrite D0, D1, D2 in T0, T1. fold h in T0, T1. rewrite Y in T0. rewrite X in T1. split; [|split].
  - rewrite T0. transitivity (r * (1 - (2 * A * B * Qw m + B * B)) - A * A * b 0%nat); [ring|]. replace (2 * A * B * Qw m + B * B) with (1 - A * A) by lra. ring.
  - rewrite T1. assert (Eb : b 1%nat = 2 * (Qw m * Qz m) * r) by (rewrite S; field; lra).
    replace (b 1%nat * (A * A * b 1%nat + B * B * 0 + 2 * (A * B) * (Qw m * 0 + (Qz m * r - 0 * b 2%nat))))
      with (A * A * (b 1%nat * b 1%nat) + 2 * (A * B) * (b 1%nat * (Qz m * r))) by ring.
    rewrite Eb at 3. replace (2 * (Qw m * Qz m) * r * (Qz m * r)) with (2 * Qw m * ((Qz m * r) * (Qz m * r))) by ring.
    assert (0 <= (Qz m * r) * (Qz m * r)) by nra. assert (0 <= A * B) by nra. assert (0 <= A * A * (b 1%nat * b 1%nat)) by (apply Rmult_le_pos; nra).
    assert (0 <= 2 * Qw m * ((Qz m * r) * (Qz m * r))) by (apply Rmult_le_pos; lra). assert (0 <= 2 * (A * B) * (2 * Qw m * ((Qz m * r) * (Qz m * r)))) by (apply Rmult_le_pos; lra). lra.
  - intros u. pose proof (blend_norm A B m Um) as N. rewrite E in N. unfold blend in *. rewrite X, Y in *. rewrite !Rmult_0_r in *. rewrite qrc2. unfold qnorm2 in N. cbn [Qw Qx Qy Qz] in N.
    transitivity (((A + B * Qw m) * (A + B * Qw m) + 0 * 0 + 0 * 0 + B * Qz m * (B * Qz m)) * u 2%nat); [ring|]. rewrite N. ring.
Qed.

(** an update with any acceleration that is not tiny, given what the interpolation of the tilt correction does *)
Lemma marg_any (s : Aqua (A := RX)) (cg ca cm : Config (A := RX)) (gx gy gz ax ay az mx my mz : T (Arith := RX)) (w a m : nat -> R)
    (q : quat) (ts k ta kb tm : R) :
  marg_state s cg ca cm q ts ta kb tm -> gain_for s (rnorm 3 a) k -> 0 <= k <= 1 ->
  measures Gyr cg gx gy gz w -> measures Acc ca ax ay az a -> measures Mag cm mx my mz m -> 1 / 10000 < rnorm 3 a ->
  let qh := predicted q w ts in let g := qrot (qconj qh) a in let c := qacc (g 0%nat) (g 1%nat) (g 2%nat) in
  (forall P : quat -> Prop, (forall aq, quat_r aq c -> exists ai d, aq_interpolate (A := RX) aq (Some k) (Some ta) = Ok ai /\ quat_r ai d /\ unitq d /\ P d) ->
   exists d, unitq d /\ P d /\ let p := qmul qh d in let b := qrot (qconj p) m in
    let r := sqrt (b 0%nat * b 0%nat + b 1%nat * b 1%nat) in unitq p /\
    let (s', o) := aq_update (Some gx) (Some gy) (Some gz) ax ay az mx my mz s in
    aq_alpha s' = Some k /\ aq_same_settings s s' /\
    (1 / 10000 < rnorm 3 m -> 0 < b 0%nat \/ b 1%nat <> 0 ->
       o = Ok tt /\ exists q', marg_state s' cg ca cm q' ts ta kb tm /\ unitq q' /\ (kb = 0 -> q' = p) /\
       (forall u, qrot (qconj q') u 2%nat = qrot (qconj p) u 2%nat) /\
       r - qrot (qconj q') m 0%nat = remaining kb tm (sqrt ((1 + b 0%nat / r) / 2)) * (r - b 0%nat) /\
       0 <= b 1%nat * qrot (qconj q') m 1%nat) /\
    (rnorm 3 m <= 1 / 10000 \/ (b 0%nat <= 0 /\ b 1%nat = 0) ->
       (exists e, o = Err e /\ is_utils e) /\ marg_state s' cg ca cm p ts ta kb tm)) /\
  (forall P : AhrsError -> Prop, (forall aq, quat_r aq c -> exists e, aq_interpolate (A := RX) aq (Some k) (Some ta) = Err e /\ P e) ->
    let (s', o) := aq_update (Some gx) (Some gy) (Some gz) ax ay az mx my mz s in
    aq_alpha s' = Some k /\ aq_same_settings s s' /\ aq_attitude s' = aq_attitude s /\ marg_state s' cg ca cm q ts ta kb tm /\ exists e, o = Err e /\ P e).
Proof.
  intros [HH EM Hcg Hca Hcm Hq Nq Ets Eta TA Ekb KB Etm TM] Hk K Hw Ha Hm NA qh g c0.
  change (eps < qnorm q) in Nq. unfold measures in Hw, Ha, Hm.
  pose proof (aq_hist_inv s Live HH) as IV.
  pose proof (update_split (A := RX) (Some gx) (Some gy) (Some gz) ax ay az mx my mz s ca cm IV Hca Hcm) as U. cbv zeta in U.
  assert (FA : finite_update Acc ca (raw3 ax ay az)) by exact (sens_real Acc ca _ a Ha).
  assert (FM : finite_update Mag cm (raw3 mx my mz)) by exact (sens_real Mag cm _ m Hm).
  change (1 / 10000) with eps.
  assert (HH' : aq_hist (fst (aq_update (Some gx) (Some gy) (Some gz) ax ay az mx my mz s)) Live).
  { apply (qh_call s Live (QUpdate (Some gx) (Some gy) (Some gz) ax ay az mx my mz) Live HH). apply qn_other. intros [x X]. discriminate X. }
  destruct (aq_update (Some gx) (Some gy) (Some gz) ax ay az mx my mz s) as [s' o]. cbn [fst] in HH'.
  destruct U as [(_ & X & _)|[(_ & _ & X & _)|[(s1 & e & _ & _ & _ & _ & _ & X)|(s3 & KE & EA & EL & GR & _ & _ & U)]]]; [discriminate X| | |].
  { exfalso. destruct X as [X|[X|X]]; discriminate X. }
  { exfalso. destruct X as [X|[X|X]]; [|auto|auto]. unfold gyr_fails in X. rewrite EM in X. destruct X as (x & y & z & c & E1 & E2 & E3 & E4 & X). injection E1 as <-. injection E2 as <-. injection E3 as <-.
    unfold aq_get_gyrometer_config in Hcg. rewrite Hcg in E4. injection E4 as <-. apply X. exact (sens_real Gyr cg _ w Hw). }
  pose proof KE as (IV3 & SS & SC). unfold gyr_ready in GR. rewrite EM in GR. destruct GR as (x & y & z & c & E1 & E2 & E3 & E4 & _ & Hg). injection E1 as <-. injection E2 as <-. injection E3 as <-.
  unfold aq_get_gyrometer_config in Hcg. rewrite Hcg in E4. injection E4 as <-.
  set (mu := fun i => if Rle_bool (rnorm 3 m) eps then 0 else m i / rnorm 3 m).
  assert (L : rwp (st_loc (A := RX) (corrected Acc ca (raw3 ax ay az) 3) (corrected Mag cm (raw3 mx my mz) 3))
    (fun x => let '(a3, al, ml, t) := x in vec_r al 3 a /\ vec_r ml 3 mu /\ exists g, mat_is (A := RX) t 3 1 g) (fun _ => False) False).
  { eapply rwp_conseq; [apply (loc_rwp (A := RX))| | |intros []].
    - intros i Hi. rewrite Ha by auto. apply valid_RX.
    - intros i Hi. rewrite Hm by auto. apply valid_RX.
    - intros [[[a3 al] ml] t] (-> & Hal & Hml & Ht). split; [eapply vec_is_ext; [exact Hal|exact Ha]|]. split; [|exact Ht]. eapply vec_is_ext; [exact Hml|]. apply vunit_real. exact Hm.
    - intros e [_ N]. apply N. intros i Hi. rewrite (vunit_real m _ Hm i Hi). apply valid_RX. }
  unfold rthen in U. destruct (st_loc _ _) as [[[[a3 al] ml] t]|e|]; cbn [rwp] in L; [|tauto|tauto].
  destruct L as (Hal & Hml & g0 & Ht). rewrite EM in U. unfold st_mode in U. destruct a3 as [[a0 a1] a2]. clear a0 a1 a2.
  pose proof SS as (S1 & S2 & S3 & S4 & S5 & S6 & S7 & S8 & S9 & S10 & S11).
  assert (NN : nrm (A := RX) 3 (fun i => Some (a i)) = Some (rnorm 3 a)).
  { unfold nrm. pose proof (norm_RX 3 a) as X. cbv beta in X. change (fun i => (fmul (Arith := RX) (Some (a i)) (Some (a i)))) with (fun i => fmul (Arith := RX) (Some (a i)) (Some (a i))) in X. rewrite X, flush_RX, Rle_bool_false by (unfold eps; lra). reflexivity. }
  assert (GK : gain_step (A := RX) s3 al = Ok (Some k : rt)).
  { rewrite (gain_is s3 al _ Hal), NN. unfold gain_for in Hk. rewrite S3. destruct (aq_adaptive s).
    - destruct Hk as [Hk1 Hk2]. rewrite S5, S6, S9, EL, Hk1, Hk2. reflexivity.
    - rewrite EL, Hk. reflexivity. }
  rewrite <- EA in Hq.
  destruct (predicted_unit q w ts) as [Uh _]; [unfold eps in Nq; lra|]. fold qh in Uh.
  split.
  2:{ intros P HI. destruct (marg_fail al ml t s3 _ w a mu q ts k ta g0 P Hg Hw Hq Nq) as (e & E & Pe); try assumption; try congruence.
    rewrite E in U. injection U as -> ->. split; [reflexivity|]. split; [exact SS|]. cbn [aq_attitude aq_put_alpha]. split; [exact EA|]. split; [|eauto].
    destruct SC as (C1 & C2 & C3). split; try assumption; try exact (eq_trans C1 Hcg); try exact (eq_trans C2 Hca); try exact (eq_trans C3 Hcm); try (cbn; congruence). }
  intros P HI.
  destruct (marg_r al ml t s3 _ w a mu q ts k ta kb tm g0 P IV3 Hg Hw Hq Nq) as (d & Ud & Pd & R1 & R2); try assumption; try congruence.
  fold qh in R1, R2. exists d. split; [exact Ud|]. split; [exact Pd|]. set (p := qmul qh d) in *.
  assert (Up : unitq p) by (apply unit_mul; assumption). cbv zeta. split; [exact Up|].
  rewrite <- U in R1, R2. clear U. cbv zeta in R1.
  set (b := qrot (qconj p) m). set (r := sqrt (b 0%nat * b 0%nat + b 1%nat * b 1%nat)).
  assert (FIN : forall u, s' = aq_put_attitude u (aq_put_alpha (A := RX) (Some k) s3) -> aq_alpha s' = Some k /\ aq_same_settings s s').
  { intros u ->. split; [reflexivity|exact SS]. }
  assert (MS : forall u q', s' = aq_put_attitude u (aq_put_alpha (A := RX) (Some k) s3) -> quat_r u q' -> unitq q' -> marg_state s' cg ca cm q' ts ta kb tm).
  { intros u q' ES Hu Uq'. rewrite ES in *. destruct SC as (C1 & C2 & C3). split; try assumption; try exact (eq_trans C1 Hcg); try exact (eq_trans C2 Hca); try exact (eq_trans C3 Hcm); try (cbn; congruence).
    rewrite (unit_norm _ Uq'). lra. }
  assert (BAD : (rnorm 3 m <= eps \/ b 0%nat <= 0 /\ b 1%nat = 0) -> qrot (qconj p) mu 0%nat <= 0 /\ qrot (qconj p) mu 1%nat = 0).
  { intros H. destruct (Rle_lt_dec (rnorm 3 m) eps) as [Lm|Lm].
    - assert (Z : forall i, (i < 3)%nat -> qrot (qconj p) mu i = 0); [|rewrite !Z by lia; lra].
      intros i Hi. unfold mu. rewrite Rle_bool_true by exact Lm. destruct p as [w0 x0 y0 z0]. destruct i as [|[|[|i]]]; [rewrite qrc0|rewrite qrc1|rewrite qrc2|lia]; ring.
    - destruct H as [H|[H0 H1]]; [lra|]. assert (Pn : 0 < / rnorm 3 m) by (apply Rinv_0_lt_compat; unfold eps in Lm; lra).
      assert (Z : forall i, (i < 3)%nat -> qrot (qconj p) mu i = / rnorm 3 m * b i).
      { intros i Hi. unfold b. rewrite <- qrot_scale by exact Hi. apply qrot_ext. intros j Hj. unfold mu. rewrite Rle_bool_false by exact Lm. unfold Rdiv. ring. }
      rewrite !Z by lia. rewrite H1. split; [nra|ring]. }
  assert (GOOD : eps < rnorm 3 m -> 0 < b 0%nat \/ b 1%nat <> 0 ->
     (forall i, (i < 3)%nat -> b i = rnorm 3 m * qrot (qconj p) mu i) /\ 0 < rnorm 3 m /\ (0 < qrot (qconj p) mu 0%nat \/ qrot (qconj p) mu 1%nat <> 0)).
  { intros Lm H. assert (Pn : 0 < rnorm 3 m) by (unfold eps in Lm; lra).
    assert (Z : forall i, (i < 3)%nat -> b i = rnorm 3 m * qrot (qconj p) mu i).
    { intros i Hi. unfold b. rewrite <- qrot_scale by exact Hi. apply qrot_ext. intros j Hj. unfold mu. rewrite Rle_bool_false by exact Lm. field. lra. }
    split; [exact Z|]. split; [exact Pn|]. rewrite !Z in H by lia. destruct H as [H|H]; [left; nra|right; intros X; apply H; rewrite X; ring]. }
  assert (ANY : aq_alpha s' = Some k /\ aq_same_settings s s').
  { destruct (Rle_lt_dec (qrot (qconj p) mu 0%nat) 0) as [L0|L0].
    - destruct (Req_dec (qrot (qconj p) mu 1%nat) 0) as [L1|L1].
      + destruct (R2 L0 L1) as (u & e & E & _). injection E as -> ->. apply (FIN u eq_refl).
      + destruct R1 as (u & A' & B' & E & _); [right; exact L1|]. injection E as -> ->. apply (FIN u eq_refl).
    - destruct R1 as (u & A' & B' & E & _); [left; exact L0|]. injection E as -> ->. apply (FIN u eq_refl). }
  destruct ANY as (N1 & N2). split; [exact N1|]. split; [exact N2|]. clear N1 N2 FIN.
  split.
  - intros Lm H. destruct (GOOD Lm H) as (Z & Pn & HM). set (bu := qrot (qconj p) mu) in *. destruct (R1 HM) as (u & A' & B' & E & Hu & PA' & PB' & G1 & G2 & G3). injection E as ES ->. split; [reflexivity|].
    set (mq := qpos (bu 0%nat) (bu 1%nat)) in *. destruct (heading_after A' B' bu HM PA' PB' G1) as (D1 & D2 & D3). fold mq in D1, D2, D3.
    destruct (qpos_angle _ _ HM) as (_ & _ & _ & _ & _ & Pr & Er & _ & Wm). fold mq in Wm.
    set (ru := sqrt (bu 0%nat * bu 0%nat + bu 1%nat * bu 1%nat)) in *.
    assert (ER : r = rnorm 3 m * ru). { unfold r. rewrite !Z by lia. replace (rnorm 3 m * bu 0%nat * (rnorm 3 m * bu 0%nat) + rnorm 3 m * bu 1%nat * (rnorm 3 m * bu 1%nat)) with ((rnorm 3 m * rnorm 3 m) * (bu 0%nat * bu 0%nat + bu 1%nat * bu 1%nat)) by ring.
      rewrite sqrt_mult; [|apply Rmult_le_pos; lra|rewrite <- Er; apply Rmult_le_pos; lra]. rewrite sqrt_square by lra. reflexivity. }
    assert (EB : forall i, (i < 3)%nat -> qrot (qconj (qmul p (blend A' B' mq))) m i = rnorm 3 m * qrot (qconj (blend A' B' mq)) bu i).
    { intros i Hi. rewrite qrot_mul_conj by exact Hi. rewrite <- qrot_scale by exact Hi. apply qrot_ext. intros j Hj. apply Z. exact Hj. }
    exists (qmul p (blend A' B' mq)). 
    assert (Uf : unitq (qmul p (blend A' B' mq))) by (apply unit_mul; [exact Up|apply blend_unit; [apply qpos_unit; exact HM|exact G1]]).
    split; [apply (MS u); assumption|]. split; [exact Uf|]. split; [intros X; destruct (G3 X) as [-> ->]; apply qmul_blend_1|]. split; [|split].
    + intros v. rewrite qrot_mul_conj by lia. apply D3.
    + rewrite EB by lia. replace (b 0%nat / r) with (bu 0%nat / ru) by (rewrite Z, ER by lia; field; lra). rewrite <- Wm, <- G2, Z, ER by lia.
      transitivity (rnorm 3 m * (ru - qrot (qconj (blend A' B' mq)) bu 0%nat)); [ring|]. rewrite D1. ring.
    + rewrite EB, Z by lia. replace (rnorm 3 m * bu 1%nat * (rnorm 3 m * qrot (qconj (blend A' B' mq)) bu 1%nat)) with (rnorm 3 m * rnorm 3 m * (bu 1%nat * qrot (qconj (blend A' B' mq)) bu 1%nat)) by ring.
      apply Rmult_le_pos; [apply Rmult_le_pos; lra|exact D2].
  - intros H. destruct (BAD H) as [B0 B1]. destruct (R2 B0 B1) as (u & e & E & Ue & Hu). injection E as ES ->. split; [eauto|]. apply (MS u); assumption.
Qed.

(*@ C56_update *)
(** Mode MARG in exact arithmetic, for every reachable filter, every attitude that is not tiny, every
    angular rate, every acceleration of norm one and every field, with gains in [0, 1] and thresholds
    in [0, 1).  Write g for the acceleration in the frame of the predicted attitude; 1 + g_z is one
    minus the cosine of the tilt error.  The accelerometer correction multiplies it by the factor
    [remaining] of the gain, and if g points down it does so by a rotation about a horizontal axis
    perpendicular to g that keeps the horizontal direction of g.  The magnetometer correction is a rotation about the
    vertical: it keeps every vertical component, multiplies one minus the cosine of the heading error
    by its own factor and does not overshoot.  It fails exactly if the field has no horizontal part or
    points exactly backwards, and then the attitude is the tilt-corrected one.  A correction of gain 0
    changes nothing. *)
Lemma l_marg :
  forall (s : Aqua (A := RX)) (cg ca cm : Config (A := RX)) (gx gy gz ax ay az mx my mz : T (Arith := RX)) (w a m : nat -> R)
    (q : quat) (ts k ta kb tm : R),
  marg_state s cg ca cm q ts ta kb tm -> gain_for s 1 k -> 0 <= k <= 1 ->
  measures Gyr cg gx gy gz w -> measures Acc ca ax ay az a -> measures Mag cm mx my mz m -> rnorm 3 a = 1 ->
  let qh := predicted q w ts in
  let g := qrot (qconj qh) a in
  exists c : quat, let p := qmul qh c in let ga := qrot (qconj p) a in let b := qrot (qconj p) m in
    let r := sqrt (b 0%nat * b 0%nat + b 1%nat * b 1%nat) in
    unitq p /\ (k = 0 -> p = qh) /\ 1 + ga 2%nat = remaining k ta (half_cos g) * (1 + g 2%nat) /\
    (g 2%nat < 0 -> Qz c = 0 /\ Qx c * g 0%nat + Qy c * g 1%nat = 0 /\ exists x, 0 <= x /\ ga 0%nat = x * g 0%nat /\ ga 1%nat = x * g 1%nat) /\
    let (s', o) := aq_update (Some gx) (Some gy) (Some gz) ax ay az mx my mz s in
    aq_alpha s' = Some k /\ aq_same_settings s s' /\
    (1 / 10000 < rnorm 3 m -> 0 < b 0%nat \/ b 1%nat <> 0 ->
       o = Ok tt /\ exists q', marg_state s' cg ca cm q' ts ta kb tm /\ unitq q' /\ (kb = 0 -> q' = p) /\
       (forall u, qrot (qconj q') u 2%nat = qrot (qconj p) u 2%nat) /\
       r - qrot (qconj q') m 0%nat = remaining kb tm (sqrt ((1 + b 0%nat / r) / 2)) * (r - b 0%nat) /\
       0 <= b 1%nat * qrot (qconj q') m 1%nat) /\
    (rnorm 3 m <= 1 / 10000 \/ (b 0%nat <= 0 /\ b 1%nat = 0) ->
       (exists e, o = Err e /\ is_utils e) /\ marg_state s' cg ca cm p ts ta kb tm).
Proof.
  intros s cg ca cm gx gy gz ax ay az mx my mz w a m q ts k ta kb tm M Hk K Hw Ha Hm NA qh g.
  rewrite <- NA in Hk. destruct (marg_any s cg ca cm gx gy gz ax ay az mx my mz w a m q ts k ta kb tm M Hk K Hw Ha Hm ltac:(lra)) as [R _].
  fold qh in R. fold g in R. set (c := qacc (g 0%nat) (g 1%nat) (g 2%nat)) in *.
  destruct (predicted_unit q w ts) as [Uh _]; [pose proof (ms_norm _ _ _ _ _ _ _ _ _ M); lra|]. fold qh in Uh.
  assert (Ug : g 0%nat * g 0%nat + g 1%nat * g 1%nat + g 2%nat * g 2%nat = 1).
  { transitivity (rdot 3 g g); [rewrite rdot3; reflexivity|]. unfold g. rewrite (qrot_dot qh a a Uh), <- (rnorm_sqr 3 a), NA. ring. }
  pose proof (qacc_unit _ _ _ Ug) as Uc. fold c in Uc. destruct (qacc_w _ _ _ Ug) as [Wc1 Wc]. fold c in Wc, Wc1.
  replace (half_cos (triple (g 0%nat) (g 1%nat) (g 2%nat))) with (half_cos g) in Wc by reflexivity.
  destruct (R (fun d => exists A B, d = blend A B c /\ 0 <= A /\ 0 <= B /\ A * A + 2 * A * B * Qw c + B * B = 1 /\ A * A = remaining k ta (Qw c) /\ (k = 0 -> A = 1 /\ B = 0)))
    as (d & _ & (A & B & -> & PA & PB & F1 & F2 & F3) & Up & RR); [|clear R].
  { intros aq Haq. destruct (interp_r aq c k ta Haq Uc Wc1 K (ms_ta _ _ _ _ _ _ _ _ _ M)) as (ai & A & B & E & Hai & PA & PB & E1 & E2 & E3).
    exists ai, (blend A B c). split; [exact E|]. split; [exact Hai|]. split; [apply blend_unit; assumption|]. exists A, B. auto 7. }
  rewrite Wc in F2. destruct (tilt_after A B g Ug PA PB F1) as (T1 & T2 & T3). fold c in T1, T2, T3.
  exists (blend A B c). cbv zeta. set (p := qmul qh (blend A B c)) in *.
  assert (EG : forall i, (i < 3)%nat -> qrot (qconj p) a i = qrot (qconj (blend A B c)) g i) by (intros i Hi; apply qrot_mul_conj; exact Hi).
  split; [exact Up|]. split; [intros Z; destruct (F3 Z) as [-> ->]; apply qmul_blend_1|]. split; [rewrite EG by lia; rewrite T1, F2; reflexivity|].
  split; [intros L; destruct (T3 L) as [T4 T5]; split; [exact T4|]; split; [exact T5|]; rewrite !EG by lia; apply T2; exact L|exact RR].
Qed.

(*@ C56_factor *)
(** C56: the factor by which a correction reduces an error: at most 1 - k^2 when the rotation chosen by
    the filter is at most a half turn, 1 for gain 0, and 0 for gain 1.  The rotation chosen for the tilt
    is at most a half turn if the predicted gravity has a negative z component, or else a non-negative
    y component. *)
Lemma l_factor :
  forall (g : nat -> R) (k t c : R), g 0%nat * g 0%nat + g 1%nat * g 1%nat + g 2%nat * g 2%nat = 1 ->
  0 <= k <= 1 -> 0 <= t < 1 -> 0 <= c <= 1 ->
  0 <= remaining k t c <= 1 - k * k /\ remaining 0 t c = 1 /\ remaining 1 t c = 0 /\
  -1 < half_cos g <= 1 /\ remaining 0 t (half_cos g) = 1 /\ remaining 1 t (half_cos g) = 0 /\
  (g 2%nat < 0 \/ 0 <= g 1%nat -> 0 <= half_cos g).
Proof.
  intros g k t c U K T C. split; [apply remaining_bound; auto|]. split; [apply remaining_0; lra|]. split; [apply remaining_1; lra|].
  destruct (qacc_w _ _ _ U) as [W E]. pose proof (qacc_unit _ _ _ U) as N. unfold unitq, qnorm2 in N.
  replace (half_cos (triple (g 0%nat) (g 1%nat) (g 2%nat))) with (half_cos g) in E by reflexivity. rewrite E in W.
  assert (H : -1 < half_cos g <= 1) by (split; [exact W|]; rewrite <- E; nra). clear E N W.
  split; [exact H|]. split; [apply remaining_0; auto|]. split; [apply remaining_1; auto|].
  intros D. unfold half_cos. destruct (Rlt_bool_spec (g 2%nat) 0) as [L|L]; [apply sqrt_pos|]. destruct D as [D|D]; [lra|].
  apply Rmult_le_pos; [exact D|]. apply Rlt_le, Rinv_0_lt_compat. apply Rmult_lt_0_compat; [lra|]. apply sqrt_lt_R0. lra.
Qed.

(** ** a filter in any such state *)
Lemma started_marg q ts k ta kb tm : 1 / 10000 < qnorm q -> 0 <= ta < 1 -> 0 <= kb <= 1 -> 0 <= tm < 1 ->
  exists s : Aqua (A := RX), marg_state s default_config default_config default_config q ts ta kb tm /\ aq_adaptive s = false /\ aq_alpha s = Some k.
Proof.
  intros Nq TA KB TM. destruct (new_ok (A := RX) Gyr) as (g & Eg & _ & Ig).
  assert (N : exists s0, aq_new (A := RX) = Ok s0) by (unfold aq_new; rewrite Eg; cbn [rbind]; eauto). destruct N as (s0 & N).
  pose proof (qh_new (A := RX) s0 N) as H0.
  set (a := mkArgs (A := RX) MARG (Some (Some (Qw q))) (Some (Some (Qx q))) (Some (Some (Qy q))) (Some (Some (Qz q))) (Some default_config) default_config default_config
    (Some ts) false (Some k) (Some kb) (Some 0) (Some 1) (Some ta) (Some tm) None None).
  assert (OKa : args_ok a).
  { split; [intros _; exists default_config; split; [reflexivity|apply default_finite_r]|]. split; [apply default_finite_r|]. split; [apply default_finite_r|]. right.
    do 4 eexists. do 4 (split; [reflexivity|]). repeat split; apply valid_RX. }
  pose proof (qh_call s0 Fresh (QInit a) Live H0 (qn_init _ OKa)) as H1. cbn [aq_do] in H1. pose proof (aq_init_fresh a s0 (aq_hist_inv s0 Fresh H0)) as W. unfold wp in W.
  destruct (aq_init_with a s0) as [s' [[]|e|]]; [|tauto|tauto]. cbn [fst] in H1.
  destruct W as (_ & _ & V & E1 & E2 & E3 & E4 & E5 & _ & _ & E6 & E7 & _ & _ & E8 & E9 & E10). destruct (E8 eq_refl) as (c & Ec & E8'). injection Ec as <-.
  exists s'. split; [|auto]. split; try assumption. eapply vec_is_ext; [exact V|]. intros i Hi. do 4 (destruct i as [|i]; [reflexivity|]). lia.
Qed.
Lemma measures_default kd x y z : measures kd (default_config (A := RX)) (Some x) (Some y) (Some z) (triple x y z).
Proof. intros i Hi. apply default_corrected_k. exact Hi. Qed.
Lemma predicted_still q w t : (forall i, (i < 3)%nat -> w i = 0) -> predicted q w t = qnormalized q.
Proof. intros Z. unfold predicted. f_equal. unfold qadd, qscale, qmul, purer. rewrite !Z by lia. destruct q as [a b c d]. cbn [Qw Qx Qy Qz]. f_equal; field. Qed.
Lemma qnormalized_unit q : unitq q -> qnormalized q = q.
Proof. intros U. unfold qnormalized. rewrite (unit_norm _ U), Rinv_1. destruct q as [a b c d]. unfold qscale. cbn [Qw Qx Qy Qz]. f_equal; ring. Qed.

(*@ C56_wrong_way_refuted *)
(** C56: for other predicted gravities the correction can turn the wrong way: the filter is initialised with
    the identity and gain 1/3, the sensor is at rest on its side.  The predicted tilt is off by a quarter
    turn; after the update, whatever the magnetometer measures, it is off by a half turn. *)
Lemma l_wrong_way :
  exists s : Aqua (A := RX), marg_state s default_config default_config default_config qone (1 / 100) (9 / 10) (1 / 2) (9 / 10) /\
  gain_for s 1 (1 / 3) /\ rnorm 3 (triple 0 (-1) 0) = 1 /\
  predicted qone (triple 0 0 0) (1 / 100) = qone /\ qrot (qconj qone) (triple 0 (-1) 0) 2%nat = 0 /\
  forall mx my mz : R,
  let s' := fst (aq_update (A := RX) (Some (Some 0)) (Some (Some 0)) (Some (Some 0)) (Some 0) (Some (-1)) (Some 0) (Some mx) (Some my) (Some mz) s) in
  exists q', quat_r (aq_attitude s') q' /\ unitq q' /\ qrot (qconj q') (triple 0 (-1) 0) 2%nat = 1.
Proof.
  assert (U1 : unitq qone) by (unfold unitq, qnorm2, qone; cbn; ring).
  destruct (started_marg qone (1 / 100) (1 / 3) (9 / 10) (1 / 2) (9 / 10)) as (s & M & EA & EK); try lra; [rewrite (unit_norm _ U1); lra|].
  assert (NA : rnorm 3 (triple 0 (-1) 0) = 1) by (unfold rnorm; rewrite rdot3; cbn [triple]; replace (0 * 0 + -1 * -1 + 0 * 0) with 1 by ring; apply sqrt_1).
  assert (P : predicted qone (triple 0 0 0) (1 / 100) = qone) by (rewrite predicted_still; [apply qnormalized_unit; exact U1|intros i Hi; do 3 (destruct i as [|i]; [reflexivity|]); lia]).
  assert (GK : gain_for s 1 (1 / 3)) by (unfold gain_for; rewrite EA; exact EK).
  assert (G : forall i, (i < 3)%nat -> qrot (qconj qone) (triple 0 (-1) 0) i = triple 0 (-1) 0 i) by (intros i Hi; do 3 (destruct i as [|i]; [cbn; ring|]); lia).
  exists s. split; [exact M|]. split; [exact GK|]. split; [exact NA|]. split; [exact P|]. split; [rewrite G by lia; reflexivity|].
  intros mx my mz s'.
  destruct (l_marg s _ _ _ _ _ _ _ _ _ _ _ _ (triple 0 0 0) (triple 0 (-1) 0) (triple mx my mz) qone (1 / 100) (1 / 3) (9 / 10) (1 / 2) (9 / 10) M GK ltac:(lra)
    (measures_default Gyr 0 0 0) (measures_default Acc 0 (-1) 0) (measures_default Mag mx my mz) NA) as (c & Up & _ & Et & _ & R).
  cbv zeta in Up, Et, R. rewrite P in Up, Et, R. unfold s'. clear s'.
  assert (RE : remaining (1 / 3) (9 / 10) (half_cos (qrot (qconj qone) (triple 0 (-1) 0))) = 2).
  { assert (HC : half_cos (qrot (qconj qone) (triple 0 (-1) 0)) = cos (3 * (PI / 4))).
    { unfold half_cos. rewrite !G by lia. cbn [triple]. rewrite Rlt_bool_false by lra. rewrite cos_3PI4. replace ((1 + 0) / 2) with (/ 2) by field. rewrite sqrt_inv.
      pose proof (sqrt_lt_R0 2 ltac:(lra)) as S2. pose proof (sqrt_sqrt 2 ltac:(lra)) as SS. set (r := sqrt 2) in *.
      apply Rmult_eq_reg_r with r; [|lra]. transitivity (- (r * r) / 2); [field; lra|]. rewrite SS. field. lra. }
    rewrite HC. unfold remaining. pose proof PI_RGT_0 as PP. rewrite Rlt_bool_false by (rewrite cos_3PI4; assert (0 < 1 / sqrt 2) by (apply Rdiv_lt_0_compat; [lra|apply sqrt_lt_R0; lra]); lra).
    rewrite acos_cos by lra. replace ((1 - 1 / 3) * (3 * (PI / 4))) with (PI / 2) by field. rewrite sin_PI2, sin_3PI4. cbv zeta.
    pose proof (sqrt_lt_R0 2 ltac:(lra)) as S2. pose proof (sqrt_sqrt 2 ltac:(lra)) as SS. set (r := sqrt 2) in *. transitivity (r * r); [field; lra|exact SS]. }
  rewrite RE, (G 2%nat) in Et by lia. cbn [triple] in Et. set (p := qmul qone c) in *. set (b := qrot (qconj p) (triple mx my mz)) in *.
  destruct (aq_update _ _ _ _ _ _ _ _ _ s) as [s' o]. cbn [fst]. destruct R as (_ & _ & R1 & R2).
  destruct (Rle_lt_dec (rnorm 3 (triple mx my mz)) (1 / 10000)) as [L|L].
  - destruct (R2 (or_introl L)) as (_ & MS). exists p. split; [exact (ms_att _ _ _ _ _ _ _ _ _ MS)|]. split; [exact Up|lra].
  - destruct (Rle_lt_dec (b 0%nat) 0) as [L0|L0]; [destruct (Req_dec (b 1%nat) 0) as [L1|L1]|].
    + destruct (R2 (or_intror (conj L0 L1))) as (_ & MS). exists p. split; [exact (ms_att _ _ _ _ _ _ _ _ _ MS)|]. split; [exact Up|lra].
    + destruct (R1 L (or_intror L1)) as (_ & q' & MS & U' & _ & Z & _). exists q'. split; [exact (ms_att _ _ _ _ _ _ _ _ _ MS)|]. split; [exact U'|]. rewrite Z. lra.
    + destruct (R1 L (or_introl L0)) as (_ & q' & MS & U' & _ & Z & _). exists q'. split; [exact (ms_att _ _ _ _ _ _ _ _ _ MS)|]. split; [exact U'|]. rewrite Z. lra.
Qed.

Lemma marg_ex_h : exists s : Aqua (A := RX), marg_state s default_config default_config default_config qone (1 / 100) (9 / 10) (1 / 2) (9 / 10) /\
  gain_for s 1 (1 / 3) /\ measures Gyr (default_config (A := RX)) (Some (1 / 10)) (Some 0) (Some 0) (triple (1 / 10) 0 0) /\
  measures Acc (default_config (A := RX)) (Some (3 / 5)) (Some 0) (Some (- (4 / 5))) (triple (3 / 5) 0 (- (4 / 5))) /\
  measures Mag (default_config (A := RX)) (Some 1) (Some 2) (Some 2) (triple 1 2 2) /\ rnorm 3 (triple (3 / 5) 0 (- (4 / 5))) = 1.
Proof.
  assert (U1 : unitq qone) by (unfold unitq, qnorm2, qone; cbn; ring).
  destruct (started_marg qone (1 / 100) (1 / 3) (9 / 10) (1 / 2) (9 / 10)) as (s & M & EA & EK); try lra; [rewrite (unit_norm _ U1); lra|].
  exists s. split; [exact M|]. split; [unfold gain_for; rewrite EA; exact EK|]. do 3 (split; [apply measures_default|]).
  unfold rnorm; rewrite rdot3; cbn [triple]. replace (3 / 5 * (3 / 5) + 0 * 0 + - (4 / 5) * - (4 / 5)) with 1 by field. apply sqrt_1.
Qed.
(*@ example *)
(** a filter and measurements meeting the hypotheses of C56_update *)
Example C56_example : exists s : Aqua (A := RX), marg_state s default_config default_config default_config qone (1 / 100) (9 / 10) (1 / 2) (9 / 10) /\
  gain_for s 1 (1 / 3) /\ measures Gyr (default_config (A := RX)) (Some (1 / 10)) (Some 0) (Some 0) (triple (1 / 10) 0 0) /\
  measures Acc (default_config (A := RX)) (Some (3 / 5)) (Some 0) (Some (- (4 / 5))) (triple (3 / 5) 0 (- (4 / 5))) /\
  measures Mag (default_config (A := RX)) (Some 1) (Some 2) (Some 2) (triple 1 2 2) /\ rnorm 3 (triple (3 / 5) 0 (- (4 / 5))) = 1.
Proof. exact marg_ex_h. Qed.
