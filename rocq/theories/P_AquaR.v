(** C47: the attitude computed by the Aqua filter in mode AM, in exact arithmetic. *)
(*@+*)
From Coq Require Import List Arith ZArith NArith Reals Lia Bool Lra.
From Verif Require Import M_Base M_Arith M_Utils M_Vector M_Matrix M_Quaternion M_Sensors M_Ar M_Aqua M_RX
  S_Spec S_Linalg S_Norm S_Quat S_Sensors S_Ar S_Aqua P_Inst.
Import ListNotations.
Local Open Scope R_scope.
(*@-*)
From Flocq Require Import Core.
From Verif Require Import P_Hoare P_Cont P_Loops P_Access P_Pointwise P_Trans P_Product P_Diag P_Quat P_Rot P_Norm P_Dcm P_Sensors P_Ar P_Aqua P_ArR.

(** ** real algebra *)
Lemma qrc0 w x y z u : qrot (qconj (Quat w x y z)) u 0%nat = (w*w + x*x - y*y - z*z) * u 0%nat + 2 * (x*y + w*z) * u 1%nat + 2 * (x*z - w*y) * u 2%nat.
Proof. cbn. ring. Qed.
Lemma qrc1 w x y z u : qrot (qconj (Quat w x y z)) u 1%nat = 2 * (x*y - w*z) * u 0%nat + (w*w - x*x + y*y - z*z) * u 1%nat + 2 * (y*z + w*x) * u 2%nat.
Proof. cbn. ring. Qed.
Lemma qrc2 w x y z u : qrot (qconj (Quat w x y z)) u 2%nat = 2 * (x*z + w*y) * u 0%nat + 2 * (y*z - w*x) * u 1%nat + (w*w - x*x - y*y + z*z) * u 2%nat.
Proof. cbn. ring. Qed.
Lemma qrot_mul_conj p q u i : (i < 3)%nat -> qrot (qconj (qmul p q)) u i = qrot (qconj q) (qrot (qconj p) u) i.
Proof.
  intros Hi. destruct p as [pw px py pz], q as [w x y z]. unfold qmul. cbn [Qw Qx Qy Qz].
  destruct i as [|[|[|i]]]; [| | |lia].
  - rewrite !qrc0, qrc1, qrc2. ring.
  - rewrite !qrc1, qrc0, qrc2. ring.
  - rewrite !qrc2, qrc0, qrc1. ring.
Qed.
Lemma qrot_ext q u v i : (forall k, (k < 3)%nat -> u k = v k) -> qrot q u i = qrot q v i.
Proof. intros H. unfold qrot. rewrite !H by lia. reflexivity. Qed.
Lemma qrot_scale q u t i : (i < 3)%nat -> qrot (qconj q) (fun k => t * u k) i = t * qrot (qconj q) u i.
Proof. intros Hi. destruct q as [w x y z]. destruct i as [|[|[|i]]]; [rewrite !qrc0|rewrite !qrc1|rewrite !qrc2|lia]; ring. Qed.

Definition qacc (x y z : R) : quat :=
  if Rlt_bool z 0 then let l := sqrt ((1 - z) / 2) in Quat l (y / (2 * l)) (- x / (2 * l)) 0
  else let l := sqrt ((1 + z) / 2) in Quat (y / (2 * l)) l 0 (- x / (2 * l)).
Lemma qacc_unit x y z : x * x + y * y + z * z = 1 -> unitq (qacc x y z).
Proof.
  intros U. unfold qacc, unitq, qnorm2. destruct (Rlt_bool_spec z 0) as [L|L]; cbn [Qw Qx Qy Qz].
  - set (l := sqrt ((1 - z) / 2)). assert (P : 0 < l) by (apply sqrt_lt_R0; lra). assert (E : l * l = (1 - z) / 2) by (apply sqrt_sqrt; lra). clearbody l.
    assert (EZ : z = 1 - 2 * (l * l)) by lra. assert (EX : x * x = 1 - y * y - z * z) by lra.
    replace (l * l + y / (2 * l) * (y / (2 * l)) + - x / (2 * l) * (- x / (2 * l)) + 0 * 0) with (l * l + (x * x + y * y) / (4 * (l * l))) by (field; lra).
    rewrite EX, EZ. field. lra.
  - set (l := sqrt ((1 + z) / 2)). assert (P : 0 < l) by (apply sqrt_lt_R0; lra). assert (E : l * l = (1 + z) / 2) by (apply sqrt_sqrt; lra). clearbody l.
    assert (EZ : z = 2 * (l * l) - 1) by lra. assert (EX : x * x = 1 - y * y - z * z) by lra.
    replace (y / (2 * l) * (y / (2 * l)) + l * l + 0 * 0 + - x / (2 * l) * (- x / (2 * l))) with (l * l + (x * x + y * y) / (4 * (l * l))) by (field; lra).
    rewrite EX, EZ. field. lra.
Qed.
Lemma qacc_down x y z i : x * x + y * y + z * z = 1 -> (i < 3)%nat -> qrot (qconj (qacc x y z)) (triple x y z) i = triple 0 0 (-1) i.
Proof.
  intros U Hi. unfold qacc. destruct (Rlt_bool_spec z 0) as [L|L].
  - set (l := sqrt ((1 - z) / 2)). assert (P : 0 < l) by (apply sqrt_lt_R0; lra). assert (E : l * l = (1 - z) / 2) by (apply sqrt_sqrt; lra). clearbody l.
    assert (EZ : z = 1 - 2 * (l * l)) by lra. assert (EX : x * x = 1 - y * y - z * z) by lra.
    destruct i as [|[|[|i]]]; [rewrite qrc0|rewrite qrc1|rewrite qrc2|lia]; cbn [triple].
    + transitivity (x * (l * l - (x * x + y * y) / (4 * (l * l)) + z)); [field; lra|]. rewrite EX, EZ. field. lra.
    + transitivity (y * (l * l - (x * x + y * y) / (4 * (l * l)) + z)); [field; lra|]. rewrite EX, EZ. field. lra.
    + transitivity (- (x * x + y * y) + (l * l - (x * x + y * y) / (4 * (l * l))) * z); [field; lra|]. rewrite EX, EZ. field. lra.
  - set (l := sqrt ((1 + z) / 2)). assert (P : 0 < l) by (apply sqrt_lt_R0; lra). assert (E : l * l = (1 + z) / 2) by (apply sqrt_sqrt; lra). clearbody l.
    assert (EZ : z = 2 * (l * l) - 1) by lra. assert (EX : x * x = 1 - y * y - z * z) by lra.
    destruct i as [|[|[|i]]]; [rewrite qrc0|rewrite qrc1|rewrite qrc2|lia]; cbn [triple].
    + transitivity (x * (l * l - (x * x + y * y) / (4 * (l * l)) - z)); [field; lra|]. rewrite EX, EZ. field. lra.
    + transitivity (y * ((x * x + y * y) / (4 * (l * l)) - l * l + z)); [field; lra|]. rewrite EX, EZ. field. lra.
    + transitivity (- (x * x + y * y) + ((x * x + y * y) / (4 * (l * l)) - l * l) * z); [field; lra|]. rewrite EX, EZ. field. lra.
Qed.

Definition qmag (lx ly : R) : quat :=
  let g := lx * lx + ly * ly in
  if Rle_bool 0 lx then Quat (sqrt (g + lx * sqrt g) / sqrt (2 * g)) 0 0 (ly / (sqrt 2 * sqrt (g + lx * sqrt g)))
  else Quat (ly / (sqrt 2 * sqrt (g - lx * sqrt g))) 0 0 (sqrt (g - lx * sqrt g) / sqrt (2 * g)).
(** the sine and cosine of the angle *)
Lemma qmag_angle lx ly : 0 < lx * lx + ly * ly -> let q := qmag lx ly in let r := sqrt (lx * lx + ly * ly) in
  Qx q = 0 /\ Qy q = 0 /\ Qw q * Qw q + Qz q * Qz q = 1 /\ Qw q * Qw q - Qz q * Qz q = lx / r /\ 2 * (Qw q * Qz q) = ly / r.
Proof.
  intros P. cbv zeta. unfold qmag. set (g := lx * lx + ly * ly) in *. assert (P2 : 0 < sqrt 2) by (apply sqrt_lt_R0; lra). assert (E2 : sqrt 2 * sqrt 2 = 2) by (apply sqrt_sqrt; lra).
  rewrite (sqrt_mult 2 g) by lra. set (t := sqrt 2) in *. clearbody t. set (r := sqrt g). assert (Pr : 0 < r) by (apply sqrt_lt_R0; lra). assert (Er : r * r = g) by (apply sqrt_sqrt; lra). clearbody r.
  assert (EY : ly * ly = r * r - lx * lx) by (subst g; lra).
  assert (TT : t * t = 2) by exact E2.
  destruct (Rle_bool_spec 0 lx) as [L|L]; cbn [Qw Qx Qy Qz].
  - assert (Pp : 0 < g + lx * r) by nra. set (p := sqrt (g + lx * r)). assert (P0 : 0 < p) by (apply sqrt_lt_R0; exact Pp). assert (Ep : p * p = r * (r + lx)) by (unfold p; rewrite sqrt_sqrt by lra; rewrite <- Er; ring). clearbody p.
    split; [reflexivity|]. split; [reflexivity|]. split; [|split].
    + transitivity (p * p / (t * t * (r * r)) + ly * ly / (t * t * (p * p))); [field; lra|]. rewrite EY, TT, Ep. field. lra.
    + transitivity (p * p / (t * t * (r * r)) - ly * ly / (t * t * (p * p))); [field; lra|]. rewrite EY, TT, Ep. field. lra.
    + transitivity (2 * ly / (t * t * r)); [field; lra|]. rewrite TT. field. lra.
  - assert (Pp : 0 < g - lx * r) by nra. set (p := sqrt (g - lx * r)). assert (P0 : 0 < p) by (apply sqrt_lt_R0; exact Pp). assert (Ep : p * p = r * (r - lx)) by (unfold p; rewrite sqrt_sqrt by lra; rewrite <- Er; ring). clearbody p.
    split; [reflexivity|]. split; [reflexivity|]. split; [|split].
    + transitivity (ly * ly / (t * t * (p * p)) + p * p / (t * t * (r * r))); [field; lra|]. rewrite EY, TT, Ep. field. lra.
    + transitivity (ly * ly / (t * t * (p * p)) - p * p / (t * t * (r * r))); [field; lra|]. rewrite EY, TT, Ep. field. lra.
    + transitivity (2 * ly / (t * t * r)); [field; lra|]. rewrite TT. field. lra.
Qed.
Lemma qmag_unit lx ly : 0 < lx * lx + ly * ly -> unitq (qmag lx ly).
Proof. intros P. destruct (qmag_angle lx ly P) as (X & Y & U & _). unfold unitq, qnorm2. rewrite X, Y. lra. Qed.
Lemma qmag_turn lx ly u : 0 < lx * lx + ly * ly ->
  let r := sqrt (lx * lx + ly * ly) in
  qrot (qconj (qmag lx ly)) u 0%nat = (lx * u 0%nat + ly * u 1%nat) / r /\
  qrot (qconj (qmag lx ly)) u 1%nat = (lx * u 1%nat - ly * u 0%nat) / r /\ qrot (qconj (qmag lx ly)) u 2%nat = u 2%nat.
Proof.
  intros P r. destruct (qmag_angle lx ly P) as (X & Y & U & C & S). fold r in C, S. assert (Pr : 0 < r) by (apply sqrt_lt_R0; exact P).
  destruct (qmag lx ly) as [w x y z]. cbn [Qw Qx Qy Qz] in *. subst x y. rewrite qrc0, qrc1, qrc2. split; [|split].
  - transitivity ((w * w - z * z) * u 0%nat + 2 * (w * z) * u 1%nat); [ring|]. rewrite C, S. field. lra.
  - transitivity ((w * w - z * z) * u 1%nat - 2 * (w * z) * u 0%nat); [ring|]. rewrite C, S. field. lra.
  - transitivity ((w * w + z * z) * u 2%nat); [ring|]. rewrite U. ring.
Qed.

Lemma qrot_dot q u v : unitq q -> rdot 3 (qrot (qconj q) u) (qrot (qconj q) v) = rdot 3 u v.
Proof.
  intros U. transitivity (qnorm2 q * qnorm2 q * rdot 3 u v); [|rewrite U; ring].
  destruct q as [w x y z]. unfold rdot. cbn [Rsum]. rewrite !qrc0, !qrc1, !qrc2. unfold qnorm2. cbn [Qw Qx Qy Qz]. ring.
Qed.

(** ** evaluation of the stages *)
Lemma tog_r (f x : nat -> rt) q u : (forall i, (i < 4)%nat -> f i = Some (qf q i)) -> (forall i, (i < 3)%nat -> x i = Some (u i)) -> unitq q ->
  forall i, (i < 3)%nat -> tog (A := RX) f x i = Some (qrot (qconj q) u i).
Proof.
  intros Hf Hx U i Hi. destruct q as [w a b c]. unfold unitq, qnorm2 in U. cbn [Qw Qx Qy Qz] in U. assert (N1 : w * w = 1 - a * a - b * b - c * c) by lra.
  unfold tog, dcm_l. rewrite (Hf 0%nat), (Hf 1%nat), (Hf 2%nat), (Hf 3%nat), f2_RX, f1_RX by lia. cbn [qf quad Qw Qx Qy Qz].
  cbn [fsum]. rewrite !Hx by lia. rewrite f0_RX.
  destruct i as [|[|[|i]]]; [| | |lia]; unfold grid; cbn [nth Nat.add Nat.mul fmul fadd fsub RX rx2]; apply (f_equal (@Some R)); [rewrite qrc0|rewrite qrc1|rewrite qrc2]; ring [N1].
Qed.
Lemma acc_quat_r x y z : x * x + y * y + z * z = 1 -> 
  acc_quat_of (A := RX) (Some x) (Some y) (Some z) = (Some (Qw (qacc x y z)), Some (Qx (qacc x y z)), Some (Qy (qacc x y z)), Some (Qz (qacc x y z))).
Proof.
  intros U. unfold acc_quat_of, qacc. rewrite f0_RX, f1_RX, f2_RX. cbn [fltb RX rxcmp fadd fsub rx2 fneg rx1].
  assert (LD : forall a, fdiv (Arith := RX) (Some a) (Some 2) = Some (a / 2)) by (intros; apply rx_divs; lra). cbn [fdiv RX] in LD |- *.
  destruct (Rlt_bool_spec z 0) as [L|L]; cbv zeta; rewrite LD.
  - assert (P : 0 < sqrt ((1 - z) / 2)) by (apply sqrt_lt_R0; lra). rewrite fsqrt_RX by lra. cbn [fmul RX rx2]. rewrite !rx_divs by lra. reflexivity.
  - assert (P : 0 < sqrt ((1 + z) / 2)) by (apply sqrt_lt_R0; lra). rewrite fsqrt_RX by lra. cbn [fmul RX rx2]. rewrite !rx_divs by lra. reflexivity.
Qed.
Lemma rx_div0 a : fdiv (Arith := RX) (Some a) (Some 0) = None.
Proof. cbn. rewrite Req_bool_true by auto. reflexivity. Qed.
Lemma rx_div_sqrt0 a : fdiv (Arith := RX) (Some a) (Some (sqrt 0)) = None.
Proof. rewrite sqrt_0. apply rx_div0. Qed.
Lemma mag_quat_r lx ly : 0 < lx * lx + ly * ly ->
  mag_am (A := RX) (Some lx) (Some ly) (Some (lx * lx + ly * ly)) = (Some (Qw (qmag lx ly)), Some (Qx (qmag lx ly)), Some (Qy (qmag lx ly)), Some (Qz (qmag lx ly))).
Proof.
  intros P. unfold mag_am, qmag, mag_quat_pos, mag_quat_neg. rewrite f0_RX, f2_RX. set (g := lx * lx + ly * ly) in *.
  assert (P2 : 0 < sqrt 2) by (apply sqrt_lt_R0; lra). assert (Pr : 0 < sqrt g) by (apply sqrt_lt_R0; lra). assert (Er : sqrt g * sqrt g = g) by (apply sqrt_sqrt; lra).
  rewrite (fsqrt_RX g), (fsqrt_RX 2) by lra. cbn [fleb RX rxcmp fmul rx2 fadd fsub]. rewrite (fsqrt_RX (2 * g)) by lra.
  assert (P3 : 0 < sqrt (2 * g)) by (apply sqrt_lt_R0; lra).
  destruct (Rle_bool_spec 0 lx) as [L|L].
  - assert (Pp : 0 < g + lx * sqrt g) by nra. assert (Ps : 0 < sqrt (g + lx * sqrt g)) by (apply sqrt_lt_R0; exact Pp). rewrite fsqrt_RX by lra. cbn [fmul RX rx2]. rewrite !rx_divs by nra. reflexivity.
  - assert (Pp : 0 < g - lx * sqrt g) by nra. assert (Ps : 0 < sqrt (g - lx * sqrt g)) by (apply sqrt_lt_R0; exact Pp). rewrite fsqrt_RX by lra. cbn [fmul RX rx2]. rewrite !rx_divs by nra. reflexivity.
Qed.
Lemma mag_quat_0 lx ly : lx * lx + ly * ly = 0 ->
  fst (fst (fst (mag_am (A := RX) (Some lx) (Some ly) (Some (lx * lx + ly * ly))))) = None.
Proof.
  intros P. assert (lx = 0) by nra. assert (ly = 0) by nra. subst. rewrite P. unfold mag_am, mag_quat_pos. rewrite f0_RX, f2_RX. cbn [fleb RX rxcmp]. rewrite Rle_bool_true by lra. cbn [fst].
  rewrite (fsqrt_RX 0) by lra. cbn [fmul RX rx2 fadd]. rewrite sqrt_0, !Rmult_0_r, Rplus_0_r. rewrite (fsqrt_RX 0) by lra. apply rx_div_sqrt0.
Qed.
Lemma quat_r_quad v q : vec_is (A := RX) v 4 (quad (Some (Qw q) : rt) (Some (Qx q) : rt) (Some (Qy q) : rt) (Some (Qz q) : rt)) -> quat_r v q.
Proof. intros H. eapply quat_ext; [exact H|reflexivity..]. Qed.

(** the magnetometer stage *)
Lemma mag_stage aq ml t qa mu g : quat_r aq qa -> unitq qa -> vec_r ml 3 mu -> mat_is (A := RX) t 3 1 g ->
  let b := qrot (qconj qa) mu in let gam := b 0%nat * b 0%nat + b 1%nat * b 1%nat in
  (0 < gam -> exists mq, st_mag (A := RX) mag_am aq ml t = Ok mq /\ quat_r mq (qmag (b 0%nat) (b 1%nat))) /\
  (gam = 0 -> exists e, st_mag (A := RX) mag_am aq ml t = Err e /\ is_utils e).
Proof.
  intros Ha U Hm Ht b gam. unfold st_mag.
  pose proof (to_global_rwp (A := RX) aq ml t _ _ _ Ha Hm Ht) as G.
  assert (TG : forall i, (i < 3)%nat -> tog (A := RX) (fun i => Some (qf qa i)) (fun i => Some (mu i)) i = Some (b i)) by (apply tog_r; auto).
  destruct (to_global aq ml t) as [[mg t']|e|]; cbn [rwp] in G; [| |tauto].
  2:{ exfalso. destruct G as [_ G]. apply G. split.
      - unfold dcm_l. rewrite f1_RX, f2_RX. repeat (apply Forall_cons; [cbn [fmul fadd fsub RX rx2]; apply valid_RX|]). apply Forall_nil.
      - intros i n Hi Hn. apply valid_some. eexists. rewrite (fsum_ext (A := RX) n _ (fun k => Some (match grid (dcm_l (A := RX) (fun i => Some (qf qa i))) k i with Some c => c | None => 0 end * mu k))); [apply fsum_RX|].
        intros k Hk. destruct qa as [w x y z]. unfold dcm_l. rewrite f1_RX, f2_RX. cbn [qf quad Qw Qx Qy Qz].
        do 3 (destruct k as [|k]; [do 3 (destruct i as [|i]; [reflexivity|]); lia|]). lia. }
  destruct G as (G1 & _ & _). cbn [fst snd] in G1. las. rewrite !(vi_get _ _ _ G1) by lia. las. rewrite !TG by lia.
  cbn [fmul fadd RX rx2]. unfold gam. split; intros P.
  - rewrite (mag_quat_r (b 0%nat) (b 1%nat) P). pose proof (quat4_ok (A := RX) (Some (Qw (qmag (b 0%nat) (b 1%nat)))) (Some (Qx (qmag (b 0%nat) (b 1%nat)))) (Some (Qy (qmag (b 0%nat) (b 1%nat)))) (Some (Qz (qmag (b 0%nat) (b 1%nat))))) as Q.
    destruct (quat4 _) as [mq|e|]; cbn [rwp] in Q; [| |tauto].
    + exists mq. split; [reflexivity|]. apply quat_r_quad, Q.
    + exfalso. apply Q. repeat split; apply valid_RX.
  - pose proof (mag_quat_0 (b 0%nat) (b 1%nat) P) as N. destruct (mag_am _ _ _) as [[[w x] y] z]. cbn [fst] in N. subst w.
    pose proof (quat4_ok (A := RX) None x y z) as Q. destruct (quat4 _) as [mq|e|]; cbn [rwp] in Q; [| |tauto].
    + exfalso. destruct Q as [_ (V & _)]. apply valid_some in V. destruct V as [a V]. discriminate V.
    + destruct Q as [[k ->] _]. las. exists (LinErr (UtilsErr k)). split; [reflexivity|]. exists k. reflexivity.
Qed.

(** the whole update in mode AM *)
Lemma am_real s (x y z : R) ml t mu g : aq_inv (A := RX) s Live -> x * x + y * y + z * z = 1 -> vec_r ml 3 mu -> mat_is (A := RX) t 3 1 g ->
  let qa := qacc x y z in
  let b := qrot (qconj qa) mu in let gam := b 0%nat * b 0%nat + b 1%nat * b 1%nat in
  let r := aq_update_am (A := RX) (Some x) (Some y) (Some z) ml t s in
  (0 < gam -> exists v, st_end r = (aq_put_attitude v s, Ok tt) /\ quat_r v (qmul qa (qmag (b 0%nat) (b 1%nat)))) /\
  (gam = 0 -> exists e, st_end r = (s, Err e) /\ is_utils e).
Proof.
  intros IV U Hm Ht qa b gam r. pose proof IV as (_ & _ & _ & _ & _ & f & Hf). subst r. rewrite am_eq. rewrite acc_quat_r by exact U. fold qa.
  pose proof (quat4_ok (A := RX) (Some (Qw qa)) (Some (Qx qa)) (Some (Qy qa)) (Some (Qz qa))) as Q.
  destruct (quat4 _) as [aq|e|]; cbn [rwp] in Q; [| |tauto].
  2:{ exfalso. apply Q. repeat split; apply valid_RX. }
  las. cbn [rthen]. pose proof (quat_r_quad aq qa (proj1 Q)) as Ha. pose proof (qacc_unit x y z U) as Ua. fold qa in Ua.
  destruct (mag_stage aq ml t qa mu g Ha Ua Hm Ht) as [S1 S2]. fold b in S1, S2. split; intros P.
  - destruct (S1 P) as (mq & -> & Hq). cbn [rthen]. pose proof (qmag_unit _ _ P) as Um.
    unfold on_att. pose proof (q_mul_pw (A := RX) (aq_attitude s) aq mq f _ _ Hf Ha Hq) as PW.
    destruct (pw4_r _ _ _ (Qw (qmul qa (qmag (b 0%nat) (b 1%nat)))) (Qx (qmul qa (qmag (b 0%nat) (b 1%nat)))) (Qy (qmul qa (qmag (b 0%nat) (b 1%nat)))) (Qz (qmul qa (qmag (b 0%nat) (b 1%nat)))) PW) as (v & -> & Hv);
      try (cbn; apply (f_equal (@Some R)); ring).
    las. cbn [st_end]. unfold on_att. cbn [aq_attitude aq_put_attitude].
    assert (Uq : unitq (qmul qa (qmag (b 0%nat) (b 1%nat)))) by (apply unit_mul; assumption).
    assert (Nq : qnorm (qmul qa (qmag (b 0%nat) (b 1%nat))) = 1) by (unfold qnorm; rewrite Uq; apply sqrt_1).
    change (quat_r v (qmul qa (qmag (b 0%nat) (b 1%nat)))) in Hv.
    destruct (quat_normalize_r v _ Hv) as (v' & -> & Hv'); [rewrite Nq; unfold eps; lra|]. las. exists v'. split; [reflexivity|].
    eapply quat_r_ext; [exact Hv'|]. rewrite Nq. apply qscale_1.
  - destruct (S2 P) as (e & -> & Ue). cbn [rthen st_end]. eauto.
Qed.

(** three equal cases by cases *)
Lemma rdot3 u v : rdot 3 u v = u 0%nat * v 0%nat + u 1%nat * v 1%nat + u 2%nat * v 2%nat.
Proof. unfold rdot. cbn [Rsum]. ring. Qed.
Lemma unit_real (a : nat -> R) f : (forall i, (i < 3)%nat -> f i = Some (a i)) -> eps < rnorm 3 a ->
  a_unit (A := RX) f = (Some (a 0%nat / rnorm 3 a), Some (a 1%nat / rnorm 3 a), Some (a 2%nat / rnorm 3 a)).
Proof.
  intros H L. assert (0 < rnorm 3 a) by (unfold eps in L; lra). unfold a_unit, nrm.
  rewrite (fsum_ext (A := RX) 3 _ (fun i => Some (a i * a i))) by (intros i Hi; rewrite H by auto; reflexivity).
  rewrite fsum_RX. rewrite fsqrt_RX by exact (rdot_pos 3 a). fold (rdot 3 a a). fold (rnorm 3 a). rewrite flush_RX, Rle_bool_false, eps_RX by auto.
  cbn [fltb RX rxcmp]. rewrite Rlt_bool_true by auto. rewrite !H by lia. rewrite !rx_divs by lra. reflexivity.
Qed.
Lemma vunit_real (a : nat -> R) f : (forall i, (i < 3)%nat -> f i = Some (a i)) ->
  forall i, (i < 3)%nat -> vunit (A := RX) 3 f i = Some (if Rle_bool (rnorm 3 a) eps then 0 else a i / rnorm 3 a).
Proof.
  intros H i Hi. unfold vunit, nrm.
  rewrite (fsum_ext (A := RX) 3 _ (fun i => Some (a i * a i))) by (intros k Hk; rewrite H by auto; reflexivity).
  rewrite fsum_RX. rewrite fsqrt_RX by exact (rdot_pos 3 a). fold (rdot 3 a a). fold (rnorm 3 a). rewrite flush_RX, eps_RX, H by auto.
  destruct (Rle_bool_spec (rnorm 3 a) eps) as [L|L]; cbn [fltb RX rxcmp].
  - rewrite Rlt_bool_false by (unfold eps; lra). apply f0_RX.
  - rewrite Rlt_bool_true by auto. apply rx_divs. unfold eps in L; lra.
Qed.
Lemma gam_eq (a m : nat -> R) : eps < rnorm 3 a -> eps < rnorm 3 m ->
  let A := fun i => a i / rnorm 3 a in let M := fun i => m i / rnorm 3 m in
  let qa := qacc (A 0%nat) (A 1%nat) (A 2%nat) in let b := qrot (qconj qa) M in
  A 0%nat * A 0%nat + A 1%nat * A 1%nat + A 2%nat * A 2%nat = 1 /\
  (b 0%nat * b 0%nat + b 1%nat * b 1%nat) * (rdot 3 a a * rdot 3 m m) = rdot 3 a a * rdot 3 m m - rdot 3 a m * rdot 3 a m.
Proof.
  intros La Lm A M qa b. assert (Pa : 0 < rnorm 3 a) by (unfold eps in La; lra). assert (Pm : 0 < rnorm 3 m) by (unfold eps in Lm; lra).
  pose proof (rnorm_sqr 3 a) as Na. pose proof (rnorm_sqr 3 m) as Nm.
  assert (UA : A 0%nat * A 0%nat + A 1%nat * A 1%nat + A 2%nat * A 2%nat = 1).
  { transitivity (rdot 3 a a / (rnorm 3 a * rnorm 3 a)); [unfold A; rewrite rdot3; field; lra|]. rewrite Na. apply Rinv_r. nra. }
  split; [exact UA|]. pose proof (qacc_unit _ _ _ UA) as Uq. fold qa in Uq.
  assert (D : forall i, (i < 3)%nat -> qrot (qconj qa) A i = triple 0 0 (-1) i).
  { intros i Hi. rewrite <- (qacc_down _ _ _ i UA Hi). apply qrot_ext. intros k Hk. do 3 (destruct k as [|k]; [reflexivity|]). lia. }
  pose proof (qrot_dot qa A M Uq) as D1. pose proof (qrot_dot qa M M Uq) as D2. fold b in D1, D2.
  rewrite !rdot3 in D1. rewrite !D in D1 by lia. cbn [triple] in D1. rewrite !rdot3 in D2.
  assert (M1 : M 0%nat * M 0%nat + M 1%nat * M 1%nat + M 2%nat * M 2%nat = 1).
  { transitivity (rdot 3 m m / (rnorm 3 m * rnorm 3 m)); [unfold M; rewrite rdot3; field; lra|]. rewrite Nm. apply Rinv_r. nra. }
  assert (B2 : b 2%nat * (rnorm 3 a * rnorm 3 m) = - rdot 3 a m).
  { replace (b 2%nat) with (- (A 0%nat * M 0%nat + A 1%nat * M 1%nat + A 2%nat * M 2%nat)) by lra. unfold A, M. rewrite rdot3. field. lra. }
  assert (G : b 0%nat * b 0%nat + b 1%nat * b 1%nat = 1 - b 2%nat * b 2%nat) by lra. rewrite G, <- Na, <- Nm.
  replace ((1 - b 2%nat * b 2%nat) * (rnorm 3 a * rnorm 3 a * (rnorm 3 m * rnorm 3 m)))
    with (rnorm 3 a * rnorm 3 a * (rnorm 3 m * rnorm 3 m) - (b 2%nat * (rnorm 3 a * rnorm 3 m)) * (b 2%nat * (rnorm 3 a * rnorm 3 m))) by ring.
  rewrite B2. ring.
Qed.

(*@ C47_attitude *)
(** Mode AM in exact arithmetic, for every state and every pair of measurements whose acceleration is
    longer than EPSILON.  If the magnetic field is longer than EPSILON and not parallel to the
    acceleration, the update succeeds and the attitude is the unit quaternion whose inverse rotation
    takes the acceleration to (0, 0, -1) and the field to the half plane y = 0, x > 0.  Otherwise the
    update fails with a numeric error and keeps the attitude. *)
Lemma l_aq_attitude :
  forall (s : Aqua (A := RX)) (ca cm : Config (A := RX)) (gx gy gz : option (T (Arith := RX))) (ax ay az mx my mz : T (Arith := RX)) (a m : nat -> R),
  aq_hist s Live -> aq_mode s = AM -> aq_get_accelerometer_config s = Ok ca -> aq_get_magnetometer_config s = Ok cm ->
  (forall i, (i < 3)%nat -> corrected Acc ca (raw3 ax ay az) 3 i = Some (a i)) ->
  (forall i, (i < 3)%nat -> corrected Mag cm (raw3 mx my mz) 3 i = Some (m i)) ->
  eps < rnorm 3 a ->
  let (s', o) := aq_update gx gy gz ax ay az mx my mz s in
  (eps < rnorm 3 m -> rdot 3 a m * rdot 3 a m < rdot 3 a a * rdot 3 m m ->
     o = Ok tt /\
     exists v q, aq_get_attitude s' = Ok v /\ quat_r v q /\ unitq q /\
       (forall i, (i < 3)%nat -> qrot (qconj q) (fun k => a k / rnorm 3 a) i = triple 0 0 (-1) i) /\
       qrot (qconj q) m 1%nat = 0 /\ 0 < qrot (qconj q) m 0%nat) /\
  (rnorm 3 m <= eps \/ rdot 3 a m * rdot 3 a m = rdot 3 a a * rdot 3 m m ->
     (exists e, o = Err e /\ is_utils e) /\ aq_get_attitude s' = aq_get_attitude s).
Proof.
  intros s ca cm gx gy gz ax ay az mx my mz a m HH EM Hca Hcm Ha Hm La.
  pose proof (aq_hist_inv s Live HH) as IV.
  pose proof (update_split (A := RX) gx gy gz ax ay az mx my mz s ca cm IV Hca Hcm) as U. cbv zeta in U.
  assert (FA : finite_update Acc ca (raw3 ax ay az)) by exact (sens_real Acc ca _ a Ha).
  assert (FM : finite_update Mag cm (raw3 mx my mz)) by exact (sens_real Mag cm _ m Hm).
  destruct (aq_update gx gy gz ax ay az mx my mz s) as [s' o].
  destruct U as [(X & _)|[(X & _)|[(s1 & e & _ & _ & _ & _ & _ & X)|(s3 & K & EA & EL & _ & _ & _ & U)]]]; [congruence|congruence| |].
  { exfalso. destruct X as [X|[X|X]]; [|auto|auto]. unfold gyr_fails in X. rewrite EM in X. exact X. }
  pose proof K as (IV3 & SS & SC). 
  assert (L : rwp (st_loc (A := RX) (corrected Acc ca (raw3 ax ay az) 3) (corrected Mag cm (raw3 mx my mz) 3))
    (fun x => let '(a3, al, ml, t) := x in a3 = (Some (a 0%nat / rnorm 3 a), Some (a 1%nat / rnorm 3 a), Some (a 2%nat / rnorm 3 a)) /\
       vec_r ml 3 (fun i => if Rle_bool (rnorm 3 m) eps then 0 else m i / rnorm 3 m) /\ exists g, mat_is (A := RX) t 3 1 g) (fun _ => False) False).
  { eapply rwp_conseq; [apply (loc_rwp (A := RX))| | |intros []].
    - intros i Hi. rewrite Ha by auto. apply valid_RX.
    - intros i Hi. rewrite Hm by auto. apply valid_RX.
    - intros [[[a3 al] ml] t] (-> & _ & Hml & Ht). split; [apply unit_real; auto|]. split; [|exact Ht]. eapply vec_is_ext; [exact Hml|]. apply vunit_real. exact Hm.
    - intros e [_ N]. apply N. intros i Hi. rewrite (vunit_real m _ Hm i Hi). apply valid_RX. }
  unfold rthen in U. destruct (st_loc _ _) as [[[[a3 al] ml] t]|e|]; cbn [rwp] in L; [|tauto|tauto].
  destruct L as (-> & Hml & g & Ht). rewrite EM in U. unfold st_mode in U.
  assert (Pa : 0 < rnorm 3 a) by (unfold eps in La; lra). pose proof (rnorm_sqr 3 a) as Na. pose proof (rnorm_sqr 3 m) as Nm.
  assert (UA : a 0%nat / rnorm 3 a * (a 0%nat / rnorm 3 a) + a 1%nat / rnorm 3 a * (a 1%nat / rnorm 3 a) + a 2%nat / rnorm 3 a * (a 2%nat / rnorm 3 a) = 1).
  { transitivity (rdot 3 a a / (rnorm 3 a * rnorm 3 a)); [rewrite rdot3; field; lra|]. rewrite Na. apply Rinv_r. nra. }
  pose proof (am_real s3 _ _ _ ml t _ g IV3 UA Hml Ht) as R. cbv zeta in R. rewrite <- U in R. clear U.
  set (qa := qacc _ _ _) in R. destruct R as [R1 R2]. split.
  - intros Lm NP. assert (Pm : 0 < rnorm 3 m) by (unfold eps in Lm; lra). destruct (gam_eq a m La Lm) as [_ G]. cbv zeta in G. fold qa in G.
    rewrite (Rle_bool_false _ _ Lm) in R1. set (M := fun i => m i / rnorm 3 m) in *. set (b := qrot (qconj qa) M) in *.
    assert (P : 0 < b 0%nat * b 0%nat + b 1%nat * b 1%nat).
    { apply Rmult_lt_reg_r with (rdot 3 a a * rdot 3 m m); [rewrite <- Na, <- Nm; apply Rmult_lt_0_compat; apply Rmult_lt_0_compat; auto|]. rewrite G. lra. }
    destruct (R1 P) as (v & E & Hv). injection E as -> ->. split; [reflexivity|]. destruct (v_duplicate_ok (A := RX) v 4 _ Hv) as (d & Ed & Hd). exists d, (qmul qa (qmag (b 0%nat) (b 1%nat))).
    split; [unfold aq_get_attitude; cbn [aq_initialized aq_put_attitude aq_attitude]; rewrite (proj1 (proj2 IV3)), Ed; reflexivity|].
    split; [exact Hd|]. pose proof (qacc_unit _ _ _ UA) as Uq. fold qa in Uq. split; [apply unit_mul; [exact Uq|apply qmag_unit; exact P]|].
    destruct (qmag_turn (b 0%nat) (b 1%nat) b P) as (T0 & T1 & _).
    assert (EM0 : forall i, (i < 3)%nat -> qrot (qconj (qmul qa (qmag (b 0%nat) (b 1%nat)))) m i = rnorm 3 m * qrot (qconj (qmag (b 0%nat) (b 1%nat))) b i).
    { intros i Hi. rewrite qrot_mul_conj by auto. rewrite <- (qrot_scale _ b (rnorm 3 m) i Hi). apply qrot_ext. intros k Hk. unfold b. rewrite <- (qrot_scale qa M (rnorm 3 m) k Hk).
      apply qrot_ext. intros j Hj. unfold M. field. lra. }
    assert (Pr : 0 < sqrt (b 0%nat * b 0%nat + b 1%nat * b 1%nat)) by (apply sqrt_lt_R0; exact P).
    split; [|split].
    + intros i Hi. rewrite qrot_mul_conj by auto.
      rewrite (qrot_ext _ _ (triple 0 0 (-1)) i).
      2:{ intros k Hk. rewrite <- (qacc_down _ _ _ k UA Hk). fold qa. apply qrot_ext. intros j Hj. do 3 (destruct j as [|j]; [reflexivity|]). lia. }
      destruct (qmag_turn (b 0%nat) (b 1%nat) (triple 0 0 (-1)) P) as (X0 & X1 & X2). cbn [triple] in X0, X1, X2.
      destruct i as [|[|[|i]]]; [rewrite X0|rewrite X1|rewrite X2|lia]; cbn [triple]; [field; lra|field; lra|reflexivity].
    + rewrite EM0, T1 by lia. field. lra.
    + rewrite EM0, T0 by lia. apply Rmult_lt_0_compat; [exact Pm|]. apply Rdiv_lt_0_compat; [exact P|exact Pr].
  - intros C. assert (Z : exists e, (s', o) = (s3, Err e) /\ is_utils e).
    { apply R2. clear R1 R2. destruct (Rle_bool_spec (rnorm 3 m) eps) as [Lm|Lm].
      - destruct qa as [w x y z]. rewrite qrc0, qrc1. ring.
      - destruct C as [C|C]; [lra|]. destruct (gam_eq a m La Lm) as [_ G]. cbv zeta in G. fold qa in G. rewrite C in G.
        assert (0 < rnorm 3 m) by (unfold eps in Lm; lra). apply Rmult_eq_reg_r with (rdot 3 a a * rdot 3 m m); [lra|].
        apply Rgt_not_eq. rewrite <- Na, <- Nm. apply Rmult_lt_0_compat; apply Rmult_lt_0_compat; auto. }
    destruct Z as (e & E & Ue). injection E as -> ->. split; [eauto|].
    unfold aq_get_attitude. rewrite EA. destruct SS as (_ & _ & _ & _ & _ & _ & _ & _ & _ & _ & ->). reflexivity.
Qed.

Lemma default_finite_r : cfg_finite (A := RX) default_config.
Proof. intros x Hx. cbn in Hx. repeat (destruct Hx as [<-|Hx]; [first [apply (ok_f0 (A := RX))|apply (ok_f1 (A := RX))]|]). destruct Hx. Qed.
Definition args_r (mode : Mode) (g : option (Config (A := RX))) : aq_args (A := RX) :=
  mkArgs (A := RX) mode None None None None g default_config default_config (lit (Arith := RX) 1 100) false
    (lit (Arith := RX) 1 100) (lit (Arith := RX) 1 100) (lit (Arith := RX) 1 10) (lit (Arith := RX) 2 10)
    (lit (Arith := RX) 9 10) (lit (Arith := RX) 9 10) None None.
Lemma started_am : exists s : Aqua (A := RX), aq_hist s Live /\ aq_mode s = AM /\
  aq_get_accelerometer_config s = Ok default_config /\ aq_get_magnetometer_config s = Ok default_config.
Proof.
  destruct (new_ok (A := RX) Gyr) as (g & Eg & _ & Ig).
  assert (N : exists s0, aq_new (A := RX) = Ok s0) by (unfold aq_new; rewrite Eg; cbn [rbind]; eauto). destruct N as (s0 & N).
  pose proof (qh_new (A := RX) s0 N) as H0.
  assert (OKa : args_ok (args_r AM None)).
  { split; [intros E; discriminate E|]. split; [apply default_finite_r|]. split; [apply default_finite_r|]. left. split; [reflexivity|]. split; [reflexivity|]. split; reflexivity. }
  exists (fst (aq_init_with (args_r AM None) s0)). split; [exact (qh_call s0 Fresh (QInit (args_r AM None)) Live H0 (qn_init _ OKa))|].
  pose proof (l_aq_lifecycle RX _ s0 Fresh H0 (args_r AM None) None None None f0 f0 f0 f0 f0 f0 default_config) as L.
  destruct L as (_ & _ & _ & _ & _ & _ & _ & _ & L). destruct (aq_init_with (args_r AM None) s0) as [s' o]. cbn [fst]. destruct (proj1 L OKa) as (_ & _ & L1 & _ & _ & _ & _ & _ & _ & _ & _ & _ & _ & _ & L2 & L3). auto.
Qed.
Lemma default_corrected_k k (x y z : R) b : (b < 3)%nat -> corrected (A := RX) k default_config (raw3 (A := RX) (Some x) (Some y) (Some z)) 3 b = Some (triple x y z b).
Proof.
  intros Hb. unfold corrected, unbiased. destruct k; cbn [fsum coefficient named bias default_config cf_x cf_y cf_z cf_xy cf_xz cf_yx cf_yz cf_zx cf_zy cf_bx cf_by cf_bz];
  (do 3 (destruct b as [|b]; [cbn [coefficient named default_config cf_x cf_y cf_z cf_xy cf_xz cf_yx cf_yz cf_zx cf_zy]; rewrite ?f0_RX, ?f1_RX; cbn; f_equal; field|]); lia).
Qed.
Lemma attitude_ex_h : exists s : Aqua (A := RX), aq_hist s Live /\ aq_mode s = AM /\
  aq_get_accelerometer_config s = Ok default_config /\ aq_get_magnetometer_config s = Ok default_config /\
  (forall i, (i < 3)%nat -> corrected Acc default_config (raw3 (A := RX) (Some 0) (Some 3) (Some 4)) 3 i = Some (triple 0 3 4 i)) /\
  (forall i, (i < 3)%nat -> corrected Mag default_config (raw3 (A := RX) (Some 1) (Some 2) (Some 2)) 3 i = Some (triple 1 2 2 i)) /\
  eps < rnorm 3 (triple 0 3 4) /\ eps < rnorm 3 (triple 1 2 2) /\
  rdot 3 (triple 0 3 4) (triple 1 2 2) * rdot 3 (triple 0 3 4) (triple 1 2 2) < rdot 3 (triple 0 3 4) (triple 0 3 4) * rdot 3 (triple 1 2 2) (triple 1 2 2).
Proof.
  destruct started_am as (s & H & M & C1 & C2). exists s. split; [exact H|]. split; [exact M|]. split; [exact C1|]. split; [exact C2|].
  split; [apply default_corrected_k|]. split; [apply default_corrected_k|]. unfold rnorm. rewrite !rdot3. cbn [triple]. split; [|split; [|lra]].
  - replace (0 * 0 + 3 * 3 + 4 * 4) with (5 * 5) by ring. rewrite sqrt_square; unfold eps; lra.
  - replace (1 * 1 + 2 * 2 + 2 * 2) with (3 * 3) by ring. rewrite sqrt_square; unfold eps; lra.
Qed.

(*@ example *)
(** a filter and measurements meeting the hypotheses: acceleration (0, 3, 4) and field (1, 2, 2) *)
Example C47_example : exists s : Aqua (A := RX), aq_hist s Live /\ aq_mode s = AM /\
  aq_get_accelerometer_config s = Ok default_config /\ aq_get_magnetometer_config s = Ok default_config /\
  (forall i, (i < 3)%nat -> corrected Acc default_config (raw3 (A := RX) (Some 0) (Some 3) (Some 4)) 3 i = Some (triple 0 3 4 i)) /\
  (forall i, (i < 3)%nat -> corrected Mag default_config (raw3 (A := RX) (Some 1) (Some 2) (Some 2)) 3 i = Some (triple 1 2 2 i)) /\
  eps < rnorm 3 (triple 0 3 4) /\ eps < rnorm 3 (triple 1 2 2) /\
  rdot 3 (triple 0 3 4) (triple 1 2 2) * rdot 3 (triple 0 3 4) (triple 1 2 2) < rdot 3 (triple 0 3 4) (triple 0 3 4) * rdot 3 (triple 1 2 2) (triple 1 2 2).
Proof. exact attitude_ex_h. Qed.
