(** One successful update of the Aqua filter in mode MARG, element by element. *)
From Coq Require Import List Arith ZArith NArith Lia Bool.
From Verif Require Import M_Base M_Arith M_Utils M_Vector M_Matrix M_Quaternion M_Sensors M_Ar M_Aqua
  S_Spec S_Linalg S_Norm S_Quat S_Sensors S_Ar S_Aqua.
Import ListNotations.
From Verif Require Import P_Hoare P_Cont P_Loops P_Access P_Pointwise P_Trans P_Product P_Diag
  P_Compare P_Dot P_Norm P_Interp P_Quat P_Rot P_Dcm P_Sensors P_Ar P_Aqua P_F32Am.
Local Open Scope nat_scope.

Section Run.
  Context {A : Arith} {OK : ArithOk A}.
  Lemma rwp_run {E X} (r : res E X) (Q : X -> Prop) (Z : E -> Prop) : rwp r Q Z False -> (forall e, ~ Z e) -> exists x, r = Ok x /\ Q x.
  Proof. intros H N. destruct r as [x|e|]; cbn [rwp] in H; [eauto|destruct (N e H)|tauto]. Qed.

  Lemma gyr_run w att ts f : (forall i, i < 3 -> valid (w i)) -> vec_is att 4 f ->
    (forall i j, i < 4 -> j < 4 -> valid (omega_t w i j)) ->
    (forall i j, i < 4 -> j < 4 -> valid (omega_t w i j * fhalf)%F) ->
    (forall i n, i < 4 -> 1 <= n <= 4 -> valid (fsum n (fun j => omega_t w i j * fhalf * f j)%F)) ->
    (forall i, i < 4 -> valid (fsum 4 (fun j => omega_t w i j * fhalf * f j) * ts)%F) ->
    (forall i, i < 4 -> valid (gyr_pred w f ts i)) -> (forall i, i < 4 -> valid (vunit 4 (gyr_pred w f ts) i)) ->
    exists v, st_gyr (w 0) (w 1) (w 2) att ts = Ok v /\ vec_is v 4 (vunit 4 (gyr_pred w f ts)).
  Proof.
    intros Vw Hf V1 V2 V3 V4 V5 V6. unfold st_gyr.
    destruct (w3_ok w Vw) as (wv & Ew & Hw). change (vec3 (w 0) (w 1) (w 2) = Ok wv) in Ew. rewrite Ew. las.
    destruct (rwp_run _ _ _ (omega_ok w Vw)) as (om & -> & Hom & _); [intros e [_ N]; auto|]. cbn [rbind].
    destruct (pointwise_m_ok _ _ _ _ _ V2 (m_mul_by_scalar_in_place_pw om 4 4 _ Hom fhalf)) as (om' & E & Hom'). unfold exec at 1. rewrite E. las.
    destruct (v_convert_ok att 4 f Hf) as (am & -> & Ham). cbn [rbind].
    pose proof (l_mul_new A _ om' am 4 4 4 1 _ _ Hom' Ham) as P. cbn [Nat.eqb] in P.
    destruct P as [(VV & a & -> & Haa)|(i & j & n & e & Hi & Hj & Hn & B & _)]; [|exfalso; apply (bad_Some_not _ _ B); apply V3; auto]. las.
    pose proof (col_to_vector_spec _ _ a _ _ _ Haa 0) as C. cbn [Nat.leb] in C. destruct C as (d & -> & Hd). las.
    destruct (pw_run _ _ _ _ V4 (v_mul_by_scalar_in_place_pw d 4 _ Hd ts)) as (d' & Ed & Hd'). unfold exec at 1. rewrite Ed. las.
    destruct (v_init_new 4 ltac:(lia)) as (s0 & E0 & H0). rewrite (exec_step _ _ _ _ E0).
    destruct (pw_run _ _ _ _ V5 (v_add_pw s0 att d' 4 _ _ _ H0 Hf Hd')) as (u & Eu & Hu). rewrite (exec_step _ _ _ _ Eu).
    destruct (pw_run _ _ _ _ V6 (v_normalize_pw u 4 _ Hu)) as (v & Ev & Hv). unfold exec. rewrite Ev. las. eauto.
  Qed.

  (** what lies between the identity and f *)
  Definition mix (al : T) (f : nat -> T) (i : nat) : T := (quad f1 f0 f0 f0 i * (f1 - al) + f i * al)%F.
  Lemma interp_run q al t f : vec_is q 4 f -> in_range t f0 f1 = true -> in_range al f0 f1 = true -> (f 0 >? t)%F = true ->
    (forall i, i < 4 -> valid (quad f1 f0 f0 f0 i * (f1 - al))%F) -> (forall i, i < 4 -> valid (f i * al)%F) ->
    (forall i, i < 4 -> valid (mix al f i)) -> (forall i, i < 4 -> valid (vunit 4 (mix al f) i)) ->
    exists v, aq_interpolate q al t = Ok v /\ vec_is v 4 (vunit 4 (mix al f)).
  Proof.
    intros Hq Ht Ha Hc V1 V2 V3 V4. unfold aq_interpolate. rewrite Ht. cbn [negb].
    destruct identity_q as (i & -> & Hi). cbn [rbind]. unfold exec at 1.
    destruct (v_init_new 4 ltac:(lia)) as (s0 & -> & H0). cbn [rbind]. unfold q_get_qw. rewrite (q_get_is _ _ _ Hq) by lia. cbn [rbind]. rewrite Hc.
    destruct (lerp_prefix s0 i q 4 _ _ _ al H0 Hi Hq Ha) as (a & b & Hxa & Hxb & E).
    destruct (combine_ok s0 a b 4 _ _ _ (f1 - al)%F al H0 Hxa Hxb V1 V2 V3) as (s1 & E1 & H1). rewrite <- E in E1. rewrite (exec_step _ _ _ _ E1).
    destruct (pw_run _ _ _ _ V4 (v_normalize_pw s1 4 _ H1)) as (v & Ev & Hv). unfold exec. rewrite Ev. las. eauto.
  Qed.

  Lemma marg_run gx gy gz ax ay az mx my mz s cg ca cm f : aq_inv s Live -> aq_mode s = MARG -> aq_adaptive s = false ->
    sensor_get_config Gyr (aq_gyr s) = Ok cg -> sensor_get_config Acc (aq_acc s) = Ok ca -> sensor_get_config Mag (aq_mag s) = Ok cm ->
    finite_update Gyr cg (raw3 gx gy gz) -> finite_update Acc ca (raw3 ax ay az) -> finite_update Mag cm (raw3 mx my mz) ->
    vec_is (aq_attitude s) 4 f ->
    let w := corrected Gyr cg (raw3 gx gy gz) 3 in
    let a := corrected Acc ca (raw3 ax ay az) 3 in
    let m := corrected Mag cm (raw3 mx my mz) 3 in
    let ts := aq_ts s in
    let gq := vunit 4 (gyr_pred w f ts) in
    let g := tog gq a in
    let qa := quad_of (acc_quat_of (g 0) (g 1) (g 2)) in
    let qi := vunit 4 (mix (aq_alpha s) qa) in
    let p := prodf gq qi in
    let b := tog p (vunit 3 m) in
    let qm := quad_of (mag_quat_pos (b 0) (b 1) (b 0 * b 0 + b 1 * b 1)%F) in
    let mi := vunit 4 (mix (aq_beta s) qm) in
    let h := prodf p mi in
    (forall i j, i < 4 -> j < 4 -> valid (omega_t w i j)) ->
    (forall i j, i < 4 -> j < 4 -> valid (omega_t w i j * fhalf)%F) ->
    (forall i n, i < 4 -> 1 <= n <= 4 -> valid (fsum n (fun j => omega_t w i j * fhalf * f j)%F)) ->
    (forall i, i < 4 -> valid (fsum 4 (fun j => omega_t w i j * fhalf * f j) * ts)%F) ->
    (forall i, i < 4 -> valid (gyr_pred w f ts i)) -> (forall i, i < 4 -> valid (gq i)) ->
    Forall valid (dcm_l gq) -> (forall i n, i < 3 -> 1 <= n <= 3 -> valid (fsum n (fun k => grid (dcm_l gq) k i * a k)%F)) ->
    (forall i, i < 4 -> valid (qa i)) -> in_range (aq_t_acc s) f0 f1 = true -> in_range (aq_alpha s) f0 f1 = true -> (qa 0 >? aq_t_acc s)%F = true ->
    (forall i, i < 4 -> valid (quad f1 f0 f0 f0 i * (f1 - aq_alpha s))%F) -> (forall i, i < 4 -> valid (qa i * aq_alpha s)%F) ->
    (forall i, i < 4 -> valid (mix (aq_alpha s) qa i)) -> (forall i, i < 4 -> valid (qi i)) -> (forall i, i < 4 -> valid (p i)) ->
    (forall i, i < 3 -> valid (vunit 3 m i)) ->
    Forall valid (dcm_l p) -> (forall i n, i < 3 -> 1 <= n <= 3 -> valid (fsum n (fun k => grid (dcm_l p) k i * vunit 3 m k)%F)) ->
    (forall i, i < 4 -> valid (qm i)) -> in_range (aq_t_mag s) f0 f1 = true -> in_range (aq_beta s) f0 f1 = true -> (qm 0 >? aq_t_mag s)%F = true ->
    (forall i, i < 4 -> valid (quad f1 f0 f0 f0 i * (f1 - aq_beta s))%F) -> (forall i, i < 4 -> valid (qm i * aq_beta s)%F) ->
    (forall i, i < 4 -> valid (mix (aq_beta s) qm i)) -> (forall i, i < 4 -> valid (mi i)) ->
    (forall i, i < 4 -> valid (h i)) -> (forall i, i < 4 -> valid (vunit 4 h i)) ->
    exists s', aq_update (Some gx) (Some gy) (Some gz) ax ay az mx my mz s = (s', Ok tt) /\ aq_initialized s' = true /\
      vec_is (aq_attitude s') 4 (vunit 4 h).
  Proof.
    intros IV EM AD Hcg Hca Hcm FG FA FM Hf w a m ts gq g qa qi p b qm mi h
      W1 W2 W3 W4 W5 W6 A1 A2 A3 A4 A5 A6 A7 A8 A9 A10 A11 M0 M1 M2 M3 M4 M5 M6 M7 M8 M9 M10 M11 M12.
    pose proof (update_split (Some gx) (Some gy) (Some gz) ax ay az mx my mz s ca cm IV Hca Hcm) as U. cbv zeta in U. fold a m in U.
    destruct U as [(_ & X & _)|[(_ & _ & X & _)|[(s1 & e & _ & _ & _ & _ & _ & X)|(s3 & K & EA & EL & GR & _ & _ & U)]]]; [discriminate|destruct X as [X|[X|X]]; discriminate| |].
    { exfalso. destruct X as [X|[X|X]]; [|auto|auto]. unfold gyr_fails in X. rewrite EM in X. destruct X as (x & y & z & c & X1 & X2 & X3 & X4 & X5).
      injection X1 as ->. injection X2 as ->. injection X3 as ->. rewrite Hcg in X4. injection X4 as ->. auto. }
    pose proof K as (IV3 & SS & SC).
    assert (GG : forall b, b < 3 -> sensor_get Gyr b (aq_gyr s3) = Ok (w b)).
    { unfold gyr_ready in GR. rewrite EM in GR. destruct GR as (x & y & z & c & X1 & X2 & X3 & X4 & X5 & X6).
      injection X1 as <-. injection X2 as <-. injection X3 as <-. rewrite Hcg in X4. injection X4 as <-. exact X6. }
    assert (VW : forall i, i < 3 -> valid (w i)) by (intros i Hi; apply FG; lia).
    assert (VA : forall i, i < 3 -> valid (a i)) by (intros i Hi; apply FA; lia).
    assert (VM : forall i, i < 3 -> valid (m i)) by (intros i Hi; apply FM; lia).
    assert (ST : aq_ts s3 = ts /\ aq_alpha s3 = aq_alpha s /\ aq_beta s3 = aq_beta s /\ aq_t_acc s3 = aq_t_acc s /\ aq_t_mag s3 = aq_t_mag s /\ aq_adaptive s3 = false).
    { unfold aq_same_settings in SS. decompose [and] SS. unfold ts. repeat split; congruence. }
    destruct ST as (S1 & S2 & S3 & S4 & S5 & S6).
    destruct (rwp_run _ _ _ (loc_rwp _ _ VA VM)) as ([[[a3 al] ml] t] & EL' & -> & Hal & Hml & gt & Ht); [intros e [_ N]; auto|].
    rewrite EL' in U. cbn [rthen] in U. rewrite EM in U. unfold st_mode in U. destruct (a_unit a) as [[x y] z].
    rewrite (marg_eq al ml t s3 (w 0) (w 1) (w 2)) in U by (apply GG; lia).
    rewrite EA, S1 in U. destruct (gyr_run w _ ts f VW Hf W1 W2 W3 W4 W5 W6) as (gqv & HX1 & Hgq). rewrite HX1 in U. cbn [rthen] in U. fold gq in Hgq.
    assert (AC : exists t', exists qv, st_acc gqv al t = Ok (qv, t') /\ vec_is qv 4 qa /\ exists gt', mat_is t' 3 1 gt').
    { unfold st_acc. destruct (rwp_run _ _ _ (to_global_rwp gqv al t gq a gt Hgq Hal Ht)) as ([ag t'] & -> & Hg & Ht' & _); [intros e [_ N]; auto|].
      cbn [fst snd] in *. las. rewrite !(vi_get _ _ _ Hg) by lia. las. fold g. destruct (quat4_run _ A3) as (qv & -> & Hqv). las. eauto 10. }
    destruct AC as (t' & qv & HX2 & Hqv & gt' & Ht'). rewrite HX2 in U. cbn [rthen fst snd] in U.
    unfold gain_step in U. rewrite S6 in U. cbn [rthen] in U. cbv zeta in U. rewrite put_alpha_same in U. rewrite S2, S4 in U.
    destruct (interp_run qv (aq_alpha s) (aq_t_acc s) qa Hqv A4 A5 A6 A7 A8 A9 A10) as (iv & HX3 & Hiv). rewrite HX3 in U. cbn [rthen] in U. fold qi in Hiv.
    unfold on_att at 1 in U. rewrite EA in U.
    destruct (pw_run _ _ _ _ A11 (q_mul_pw (aq_attitude s) gqv iv f gq qi Hf Hgq Hiv)) as (pv & HX4 & Hpv). rewrite HX4 in U. rewrite la_Ok in U. cbv beta iota in U. fold p in Hpv.
    change (aq_attitude (aq_put_attitude pv s3)) with pv in U.
    assert (MC : exists mv, st_mag mag_quat_pos pv ml t' = Ok mv /\ vec_is mv 4 qm).
    { unfold st_mag. destruct (rwp_run _ _ _ (to_global_rwp pv ml t' p (vunit 3 m) gt' Hpv Hml Ht')) as ([mg t''] & -> & Hg & _); [intros e [_ N]; auto|].
      cbn [fst snd] in *. las. rewrite !(vi_get _ _ _ Hg) by lia. las. fold b. destruct (quat4_run _ M3) as (mv & -> & Hmv). las. eauto. }
    destruct MC as (mv & HX5 & Hmv). rewrite HX5 in U. cbn [rthen] in U. rewrite S3, S5 in U.
    destruct (interp_run mv (aq_beta s) (aq_t_mag s) qm Hmv M4 M5 M6 M7 M8 M9 M10) as (miv & HX6 & Hmiv). rewrite HX6 in U. cbn [rthen] in U. fold mi in Hmiv.
    destruct (v_duplicate_ok pv 4 p Hpv) as (dup & HX7 & Hdup). rewrite HX7 in U. rewrite la_Ok in U. cbn [rthen] in U.
    unfold on_att at 1 in U. change (aq_attitude (aq_put_attitude pv s3)) with pv in U.
    destruct (pw_run _ _ _ _ M11 (q_mul_pw pv dup miv p p mi Hpv Hdup Hmiv)) as (hv & HX8 & Hhv). rewrite HX8 in U. rewrite la_Ok in U. cbv beta iota in U. fold h in Hhv.
    unfold st_end, on_att in U. cbv beta iota in U. change (aq_attitude (aq_put_attitude hv (aq_put_attitude pv s3))) with hv in U.
    destruct (pw_run _ _ _ _ M12 (v_normalize_pw hv 4 h Hhv)) as (v' & Ev' & Hv'). rewrite Ev' in U. rewrite la_Ok in U.
    eexists. split; [exact U|]. split; [apply IV3|exact Hv'].
  Qed.
End Run.
